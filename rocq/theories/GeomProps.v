(** C191-C198: baseline angles, redundancy check of pairs, channel ranges from redshifts, configuration of runs. *)
From Coq Require Import String.
From Coq Require Import Reals Lra Sorted.
From Flocq Require Import Core.
From Verif Require Import PyDict PyStr H5Model H5Proofs.
From Verif Require Import Prelude UvpModel ListLemmas UtilsProofs StatModel GeomModel CircProps.
Open Scope R_scope.

(** ** baseline angles *)
Definition deg (a : R) : R := a * PI / 180.
Definition flipped (tol : R) (v : vec) : Prop := - tol < vy v < 0 /\ 0 < vx v.
Lemma bl_ang_cases tol v : bl_ang tol v = 0 /\ flipped tol v \/ bl_ang tol v = raw_ang v /\ ~ flipped tol v.
Proof. unfold bl_ang, flipped. destruct (Rlt_dec (- tol) (vy v)); [| right; intuition lra]. destruct (Rlt_dec (vy v) 0); [| right; intuition lra]. destruct (Rlt_dec 0 (vx v)); [left | right]; intuition lra. Qed.
Lemma div_pos_of a b : 0 < a -> 0 < b -> 0 < a / b.
Proof. intros. apply Rdiv_lt_0_compat; assumption. Qed.
Lemma atan_le0 a : a <= 0 -> atan a <= 0.
Proof. pose proof atan_0. intros [H1 | ->]; [apply atan_increasing in H1 |]; lra. Qed.
Lemma atan_ge0 a : 0 <= a -> 0 <= atan a.
Proof. pose proof atan_0. intros [H1 | <-]; [apply atan_increasing in H1 |]; lra. Qed.
Lemma atan2_up x y : 0 < y -> 0 < atan2 y x < PI.
Proof.
  intros Y. pose proof PI_RGT_0. unfold atan2. destruct (Rlt_dec 0 x) as [P | NP].
  - pose proof (atan_bound (y / x)). assert (0 < atan (y / x)) by (rewrite <- atan_0; apply atan_increasing, div_pos_of; lra). lra.
  - destruct (Rlt_dec x 0).
    + destruct (Rle_dec 0 y); [| lra]. pose proof (atan_bound (y / x)). assert (atan (y / x) < 0). { rewrite <- atan_0. apply atan_increasing. assert (0 < y / - x) by (apply div_pos_of; lra). replace (y / x) with (- (y / - x)) by (field; lra). lra. } lra.
    + destruct (Rlt_dec 0 y); lra.
Qed.
Lemma atan2_opp x y : 0 < y -> atan2 (- y) (- x) = atan2 y x - PI.
Proof.
  intros Y. unfold atan2. destruct (Rlt_dec 0 x) as [P | NP].
  - destruct (Rlt_dec 0 (- x)); [lra |]. destruct (Rlt_dec (- x) 0); [| lra]. destruct (Rle_dec 0 (- y)); [lra |]. replace (- y / - x) with (y / x) by (field; lra). reflexivity.
  - destruct (Rlt_dec x 0).
    + destruct (Rlt_dec 0 (- x)); [| lra]. destruct (Rle_dec 0 y); [| lra]. replace (- y / - x) with (y / x) by (field; lra). ring.
    + assert (x = 0) by lra. subst x. rewrite Ropp_0. destruct (Rlt_dec 0 0); [lra |]. destruct (Rlt_dec 0 (- y)); [lra |]. destruct (Rlt_dec (- y) 0); [| lra]. destruct (Rlt_dec 0 y); [| lra]. field.
Qed.
Lemma raw_up v : 0 < vy v -> raw_ang v = atan2 (vy v) (vx v) * 180 / PI.
Proof.
  intros Y. pose proof PI_RGT_0. unfold raw_ang. destruct (atan2_up (vx v) (vy v) Y) as [A B]. assert (0 < atan2 (vy v) (vx v) * 180 / PI) by (apply div_pos_of; lra).
  destruct (Rlt_dec _ 0); [lra | reflexivity].
Qed.
Lemma scale_lt a b : a < b -> a * 180 / PI < b * 180 / PI.
Proof. intros H. pose proof PI_RGT_0. unfold Rdiv. apply Rmult_lt_compat_r; [apply Rinv_0_lt_compat; lra | lra]. Qed.
Lemma scale_pi : PI * 180 / PI = 180.
Proof. pose proof PI_RGT_0. field. lra. Qed.
Lemma scale_0 : 0 * 180 / PI = 0.
Proof. pose proof PI_RGT_0. field. lra. Qed.
Lemma raw_down v : vy v < 0 -> raw_ang v = raw_ang (vneg v).
Proof.
  intros Y. pose proof PI_RGT_0. rewrite (raw_up (vneg v)) by (cbn; lra). cbn [vneg vy vx]. assert (Y' : 0 < - vy v) by lra. pose proof (atan2_opp (- vx v) (- vy v) Y') as E. rewrite !Ropp_involutive in E.
  unfold raw_ang. rewrite E. destruct (atan2_up (- vx v) (- vy v) Y') as [A B]. set (t := atan2 (- vy v) (- vx v)) in *.
  replace ((t - PI) * 180 / PI) with (t * 180 / PI - 180) by (field; lra). pose proof (scale_lt _ _ A) as A'. pose proof (scale_lt _ _ B) as B'. rewrite scale_0 in A'. rewrite scale_pi in B'.
  destruct (Rlt_dec (t * 180 / PI - 180) 0); [| lra]. replace (t * 180 / PI - 180 + 180) with (t * 180 / PI) by ring. apply pymod_id. lra.
Qed.
Lemma raw_flat v : vy v = 0 -> raw_ang v = if Rlt_dec (vx v) 0 then 180 else 0.
Proof.
  intros Y. pose proof PI_RGT_0. unfold raw_ang, atan2. rewrite Y. replace (0 / vx v) with 0 by (unfold Rdiv; ring). rewrite atan_0. destruct (Rlt_dec 0 (vx v)).
  - destruct (Rlt_dec (vx v) 0); [lra |]. rewrite scale_0. destruct (Rlt_dec 0 0); [lra | reflexivity].
  - destruct (Rlt_dec (vx v) 0).
    + destruct (Rle_dec 0 0); [| lra]. rewrite Rplus_0_l, scale_pi. destruct (Rlt_dec 180 0); [lra | reflexivity].
    + destruct (Rlt_dec 0 0); [lra |]. rewrite scale_0. destruct (Rlt_dec 0 0); [lra | reflexivity].
Qed.
Lemma raw_range v : 0 <= raw_ang v <= 180.
Proof.
  assert (U : forall w, 0 < vy w -> 0 <= raw_ang w <= 180). { intros w Y. rewrite raw_up by exact Y. destruct (atan2_up (vx w) (vy w) Y) as [A B]. pose proof (scale_lt _ _ A) as A'. pose proof (scale_lt _ _ B) as B'. rewrite scale_0 in A'. rewrite scale_pi in B'. lra. }
  destruct (Rtotal_order (vy v) 0) as [L | [E | G]]; [rewrite raw_down by exact L; apply U; cbn; lra | rewrite raw_flat by exact E; destruct (Rlt_dec _ _); lra | apply U; lra].
Qed.
(** Angles lie in [0, 180], and but for the vectors whose angle is set to 0 they are the angle of the vector or of its opposite *)
Theorem bl_ang_direction :
  forall tol v, 0 <= bl_ang tol v <= 180 /\
    (~ flipped tol v -> vx v * sin (deg (bl_ang tol v)) = vy v * cos (deg (bl_ang tol v))) /\ (flipped tol v -> bl_ang tol v = 0).
Proof.
  intros tol v. pose proof PI_RGT_0 as PP. pose proof (raw_range v). destruct (bl_ang_cases tol v) as [[-> F] | [-> F]]; (split; [lra |]); (split; [intros NF | intros FF]); try tauto.
  assert (U : forall w, 0 < vy w -> vx w * sin (deg (raw_ang w)) = vy w * cos (deg (raw_ang w))).
  { intros w Y. rewrite raw_up by exact Y. unfold deg. replace (atan2 (vy w) (vx w) * 180 / PI * PI / 180) with (atan2 (vy w) (vx w)) by (field; lra). destruct (atan2_polar (vx w) (vy w)) as (_ & X & Y' & _); [right; lra |]. set (t := atan2 _ _) in *. set (r := sqrt _) in *. clearbody t r. rewrite X, Y'. ring. }
  destruct (Rtotal_order (vy v) 0) as [L | [E | G]].
  - rewrite raw_down by exact L. pose proof (U (vneg v)) as Q. cbn [vneg vx vy] in Q. specialize (Q ltac:(lra)). lra.
  - rewrite raw_flat by exact E. rewrite E. destruct (Rlt_dec (vx v) 0); unfold deg; [replace (180 * PI / 180) with PI by field; rewrite sin_PI; ring | replace (0 * PI / 180) with 0 by field; rewrite sin_0; ring].
  - apply U. lra.
Qed.
(** A baseline and its conjugate have the same angle unless they run within the tolerance of east-west *)
Theorem bl_ang_conjugate : forall tol v, 0 < tol <= Rabs (vy v) -> bl_ang tol (vneg v) = bl_ang tol v.
Proof.
  intros tol v [T H]. assert (F : ~ flipped tol v /\ ~ flipped tol (vneg v)). { unfold flipped. cbn [vneg vx vy]. revert H. unfold Rabs. destruct (Rcase_abs (vy v)); intros; split; intros [[? ?] ?]; lra. }
  destruct (bl_ang_cases tol v) as [[_ ?] | [-> _]]; [tauto |]. destruct (bl_ang_cases tol (vneg v)) as [[_ ?] | [-> _]]; [tauto |].
  destruct (Rtotal_order (vy v) 0) as [L | [E | G]]; [symmetry; apply raw_down; exact L | rewrite E, Rabs_R0 in H; lra |]. rewrite (raw_down (vneg v)) by (cbn; lra). f_equal. destruct v; unfold vneg; cbn. f_equal; ring.
Qed.
(** not for east-west baselines *)
Theorem bl_ang_conjugate_refuted : ~ (forall tol v, 0 < tol < Rabs (vx v) -> bl_ang tol (vneg v) = bl_ang tol v).
Proof.
  intros H. specialize (H 1 (mkvec 14 0 0)). cbn in H. rewrite Rabs_pos_eq in H by lra. specialize (H ltac:(lra)).
  destruct (bl_ang_cases 1 (vneg (mkvec 14 0 0))) as [[_ [[? ?] _]] | [E _]]; [cbn in *; lra |]. destruct (bl_ang_cases 1 (mkvec 14 0 0)) as [[_ [[? ?] _]] | [E' _]]; [cbn in *; lra |].
  rewrite E, E', !raw_flat in H by (cbn; lra). cbn in H. destruct (Rlt_dec (- (14)) 0); [| lra]. destruct (Rlt_dec 14 0); lra.
Qed.
(** redundant baselines (within the tolerance of each other) can have angles that are more than 90 degrees apart *)
Theorem bl_ang_redundant_refuted :
  ~ (forall tol u v, 0 < tol -> norm (vsub u v) < tol -> 10 * tol < bl_len u -> 10 * tol < bl_len v -> Rabs (bl_ang tol u - bl_ang tol v) <= 90).
Proof.
  intros H. set (u := mkvec (-14) (1/10) 0). set (v := mkvec (-14) (-1/10) 0). pose proof PI_RGT_0 as PP. specialize (H 1 u v ltac:(lra)).
  assert (N : norm (vsub u v) < 1). { unfold norm, vsub, u, v. cbn [vx vy vz]. match goal with |- sqrt ?e < _ => assert (Q : sqrt e < sqrt 1) by (apply sqrt_lt_1; lra) end. rewrite sqrt_1 in Q. exact Q. }
  assert (B : forall y, y ^ 2 = 1 / 100 -> 10 * 1 < bl_len (mkvec (-14) y 0)). { intros y Hy. unfold bl_len, norm. cbn [vx vy vz]. rewrite Hy. replace (10 * 1) with (sqrt 100) by (replace 100 with (10 * 10) by lra; rewrite sqrt_square by lra; lra). apply sqrt_lt_1; lra. }
  specialize (H N (B (1/10) ltac:(lra)) (B (-1/10) ltac:(lra))).
  assert (FU : bl_ang 1 u = raw_ang u). { destruct (bl_ang_cases 1 u) as [[_ [[? ?] ?]] | [E _]]; [unfold u in *; cbn in *; lra | exact E]. }
  assert (FV : bl_ang 1 v = raw_ang v). { destruct (bl_ang_cases 1 v) as [[_ [[? ?] ?]] | [E _]]; [unfold v in *; cbn in *; lra | exact E]. }
  rewrite FU, FV in H. rewrite (raw_down v) in H by (unfold v; cbn; lra). rewrite !raw_up in H by (unfold u, v; cbn; lra). unfold u, v in H. cbn [vneg vx vy] in H.
  assert (A1 : atan2 (1 / 10) (-14) > 3 * PI / 4). { unfold atan2. destruct (Rlt_dec 0 (-14)); [lra |]. destruct (Rlt_dec (-14) 0); [| lra]. destruct (Rle_dec 0 (1/10)); [| lra]. assert (- (PI / 4) < atan (1 / 10 / -14)). { rewrite <- atan_1, <- atan_opp. apply atan_increasing. lra. } lra. }
  assert (A2 : atan2 (- (-1 / 10)) (- -14) < PI / 4). { unfold atan2. destruct (Rlt_dec 0 (- -14)); [| lra]. rewrite <- atan_1. apply atan_increasing. replace (- (-1 / 10) / - -14) with (1 / 140) by field. lra. }
  apply Rgt_lt, scale_lt in A1. apply scale_lt in A2. replace (3 * PI / 4 * 180 / PI) with 135 in A1 by (field; lra). replace (PI / 4 * 180 / PI) with 45 in A2 by (field; lra).
  revert H. unfold Rabs. destruct (Rcase_abs _); lra.
Qed.
Example bl_ang_nonvacuous : 0 < 1 <= Rabs (vy (mkvec 7 (-12) 0)) /\ ~ flipped 1 (mkvec 7 (-12) 0) /\ flipped 1 (mkvec 14 (-1/2) 0).
Proof. cbn. rewrite Rabs_left by lra. unfold flipped. cbn. split; [lra |]. split; [intros [[? ?] ?]; lra | lra]. Qed.

(** ** validate_blpairs *)
Lemma norm_nonneg a : 0 <= norm a.
Proof. apply sqrt_pos. Qed.
Lemma norm_sq a : norm a * norm a = vx a ^ 2 + vy a ^ 2 + vz a ^ 2.
Proof. apply sqrt_sqrt. nra. Qed.
Definition vadd (a b : vec) : vec := mkvec (vx a + vx b) (vy a + vy b) (vz a + vz b).
Lemma norm_triangle a b : norm (vadd a b) <= norm a + norm b.
Proof.
  pose proof (norm_nonneg a) as Na. pose proof (norm_nonneg b) as Nb. pose proof (norm_sq a) as Qa. pose proof (norm_sq b) as Qb. pose proof (norm_sq (vadd a b)) as Qs. pose proof (norm_nonneg (vadd a b)) as Ns.
  set (d := vx a * vx b + vy a * vy b + vz a * vz b).
  assert (CS : d * d <= (norm a * norm b) * (norm a * norm b)).
  { replace ((norm a * norm b) * (norm a * norm b)) with ((norm a * norm a) * (norm b * norm b)) by ring. rewrite Qa, Qb. unfold d.
    assert (0 <= (vx a * vy b - vy a * vx b) ^ 2 + (vx a * vz b - vz a * vx b) ^ 2 + (vy a * vz b - vz a * vy b) ^ 2) by (repeat apply Rplus_le_le_0_compat; apply pow2_ge_0). nra. }
  assert (D : d <= norm a * norm b). { destruct (Rle_dec d (norm a * norm b)) as [| N]; [assumption | exfalso]. assert (0 <= norm a * norm b) by (apply Rmult_le_pos; assumption). nra. }
  apply Rsqr_incr_0_var; [| lra]. unfold Rsqr. rewrite Qs. cbn [vadd vx vy vz]. replace ((norm a + norm b) * (norm a + norm b)) with (norm a * norm a + norm b * norm b + 2 * (norm a * norm b)) by ring. rewrite Qa, Qb. unfold d in D. nra.
Qed.
Lemma norm_opp a : norm (vneg a) = norm a.
Proof. unfold norm. cbn. f_equal. ring. Qed.
Lemma vb_loop_spec tol p l ws : vb_loop tol p l = Ok ws -> ws = filter (fun b => match bl_vec p (fst b), bl_vec p (snd b) with Ok v1, Ok v2 => lebR tol (norm (vsub v1 v2)) | _, _ => false end) l /\ (forall b, In b l -> exists v1 v2, bl_vec p (fst b) = Ok v1 /\ bl_vec p (snd b) = Ok v2).
Proof.
  revert ws. induction l as [| b l IH]; intros ws H; cbn in H; [injection H as <-; split; [reflexivity | intros ? []] |].
  destruct (bl_vec p (fst b)) as [v1 |] eqn:E1; [| discriminate]. cbn in H. destruct (bl_vec p (snd b)) as [v2 |] eqn:E2; [| discriminate]. cbn in H. destruct (vb_loop tol p l) as [w |]; [| discriminate]. cbn in H. injection H as <-.
  destruct (IH w eq_refl) as [-> B]. split; [cbn [filter]; rewrite E1, E2; unfold lebR; destruct (Rle_dec tol _); reflexivity | intros c [<- | I]; [eauto | auto]].
Qed.
Lemma shared_spec tol ap1 ap2 k u v : shared_ok tol ap1 ap2 = true -> pos ap1 k = Some u -> pos ap2 k = Some v -> norm (vsub u v) <= tol.
Proof.
  unfold shared_ok. rewrite forallb_forall. intros H P1 P2. apply dget_In in P1. specialize (H _ P1). cbn in H. rewrite P2 in H. destruct (Rle_dec _ tol); [assumption | discriminate].
Qed.
Lemma validate_inv tol ap1 ap2 gs ws : validate_blpairs tol ap1 ap2 gs = Ok ws -> shared_ok tol ap1 ap2 = true /\ vb_loop tol (merged_pos ap1 ap2) (concat gs) = Ok ws.
Proof. unfold validate_blpairs, require. destruct (shared_ok tol ap1 ap2); [auto | discriminate]. Qed.
Lemma bl_vec_inv p b v : bl_vec p b = Ok v -> exists u w, p (fst b) = Some u /\ p (snd b) = Some w /\ v = vsub u w.
Proof. unfold bl_vec. destruct (p (fst b)), (p (snd b)); try discriminate. intros H. injection H as <-. eauto. Qed.
Lemma merged_2 ap1 ap2 b v : bl_vec (pos ap2) b = Ok v -> bl_vec (merged_pos ap1 ap2) b = Ok v.
Proof. intros H. apply bl_vec_inv in H as (u & w & E1 & E2 & ->). unfold bl_vec, merged_pos. rewrite E1, E2. reflexivity. Qed.
Lemma warned_iff tol ap1 ap2 gs ws b : validate_blpairs tol ap1 ap2 gs = Ok ws -> In b (concat gs) ->
  exists v1 v2, bl_vec (merged_pos ap1 ap2) (fst b) = Ok v1 /\ bl_vec (merged_pos ap1 ap2) (snd b) = Ok v2 /\ (In b ws <-> tol <= norm (vsub v1 v2)).
Proof.
  intros H I. apply validate_inv in H as [_ H]. apply vb_loop_spec in H as [-> B]. destruct (B b I) as (v1 & v2 & E1 & E2). exists v1, v2. split; [exact E1 |]. split; [exact E2 |].
  rewrite filter_In, E1, E2. unfold lebR. destruct (Rle_dec tol (norm (vsub v1 v2))); intuition congruence.
Qed.
(** When the datasets agree on the antennas they share, exactly the pairs whose vectors (the first from the first dataset, the second from the
    second) differ by the tolerance or more are warned about, also inside groups *)
Theorem validate_exact :
  forall tol ap1 ap2 gs ws b v1 v2, (forall k u v, pos ap1 k = Some u -> pos ap2 k = Some v -> u = v) ->
    validate_blpairs tol ap1 ap2 gs = Ok ws -> In b (concat gs) -> bl_vec (pos ap1) (fst b) = Ok v1 -> bl_vec (pos ap2) (snd b) = Ok v2 ->
    (In b ws <-> tol <= norm (vsub v1 v2)).
Proof.
  intros tol ap1 ap2 gs ws b v1 v2 A H I E1 E2. destruct (warned_iff _ _ _ _ _ _ H I) as (w1 & w2 & F1 & F2 & ->). rewrite (merged_2 ap1 _ _ _ E2) in F2. injection F2 as <-.
  assert (M : forall k u, pos ap1 k = Some u -> merged_pos ap1 ap2 k = Some u). { intros k u P. unfold merged_pos. destruct (pos ap2 k) eqn:P2; [f_equal; symmetry; eauto | exact P]. }
  apply bl_vec_inv in E1 as (u & w & P1 & P2 & ->). unfold bl_vec in F1. rewrite (M _ _ P1), (M _ _ P2) in F1. injection F1 as <-. tauto.
Qed.
(** In general silence means less than three times the tolerance *)
Theorem validate_silent :
  forall tol ap1 ap2 gs ws b v1 v2, 0 <= tol -> validate_blpairs tol ap1 ap2 gs = Ok ws -> In b (concat gs) -> ~ In b ws ->
    bl_vec (pos ap1) (fst b) = Ok v1 -> bl_vec (pos ap2) (snd b) = Ok v2 -> norm (vsub v1 v2) < 3 * tol.
Proof.
  intros tol ap1 ap2 gs ws b v1 v2 T H I N E1 E2. destruct (warned_iff _ _ _ _ _ _ H I) as (w1 & w2 & F1 & F2 & W). rewrite (merged_2 ap1 _ _ _ E2) in F2. injection F2 as <-.
  apply validate_inv in H as [S _].
  assert (M : forall k u, pos ap1 k = Some u -> exists u', merged_pos ap1 ap2 k = Some u' /\ norm (vsub u u') <= tol).
  { intros k u P. unfold merged_pos. destruct (pos ap2 k) eqn:P2; [exists v; split; [reflexivity | eapply shared_spec; eauto] |]. exists u. split; [exact P |]. unfold norm, vsub. cbn. replace ((vx u - vx u) * ((vx u - vx u) * 1) + (vy u - vy u) * ((vy u - vy u) * 1) + (vz u - vz u) * ((vz u - vz u) * 1)) with 0 by ring. rewrite sqrt_0. exact T. }
  apply bl_vec_inv in E1 as (u & w & P1 & P2 & ->). destruct (M _ _ P1) as (u' & M1 & B1). destruct (M _ _ P2) as (w' & M2 & B2). unfold bl_vec in F1. rewrite M1, M2 in F1. injection F1 as <-.
  assert (L : norm (vsub (vsub u' w') v2) < tol) by (apply Rnot_le_lt; tauto).
  assert (E : vsub (vsub u w) v2 = vadd (vadd (vsub u u') (vneg (vsub w w'))) (vsub (vsub u' w') v2)) by (unfold vadd, vsub, vneg; cbn; f_equal; ring).
  rewrite E. pose proof (norm_triangle (vadd (vsub u u') (vneg (vsub w w'))) (vsub (vsub u' w') v2)). pose proof (norm_triangle (vsub u u') (vneg (vsub w w'))). rewrite norm_opp in *. lra.
Qed.
(** and silence does not mean less than the tolerance *)
Definition px (x : R) : vec := mkvec x 0 0.
Lemma norm_px x : norm (px x) = Rabs x.
Proof. unfold norm, px. cbn [vx vy vz]. replace (x ^ 2 + 0 ^ 2 + 0 ^ 2) with (Rsqr x) by (unfold Rsqr; ring). apply sqrt_Rsqr_abs. Qed.
Lemma px_sub x y : vsub (px x) (px y) = px (x - y).
Proof. unfold vsub, px. cbn. f_equal; ring. Qed.
Theorem validate_silent_refuted :
  ~ (forall tol ap1 ap2 gs ws b v1 v2, 0 < tol -> validate_blpairs tol ap1 ap2 gs = Ok ws -> In b (concat gs) -> ~ In b ws ->
       bl_vec (pos ap1) (fst b) = Ok v1 -> bl_vec (pos ap2) (snd b) = Ok v2 -> norm (vsub v1 v2) < tol).
Proof.
  intros H. set (ap1 := [(1%Z, px 0); (2%Z, px 14)]). set (ap2 := [(1%Z, px (9/10)); (2%Z, px (131/10))]). set (b := ((1, 2), (1, 2))%Z).
  assert (S : shared_ok 1 ap1 ap2 = true). { unfold shared_ok, ap1, ap2, pos. cbn. rewrite !px_sub, !norm_px. destruct (Rle_dec (Rabs (0 - 9 / 10)) 1) as [| N]; [| exfalso; apply N; apply Rabs_le; lra]. destruct (Rle_dec (Rabs (14 - 131 / 10)) 1) as [| N]; [reflexivity | exfalso; apply N; apply Rabs_le; lra]. }
  assert (V : validate_blpairs 1 ap1 ap2 [[b]] = Ok []). { unfold validate_blpairs. rewrite S. unfold ap1, ap2, b, merged_pos, bl_vec, pos. cbn. rewrite !px_sub, !norm_px. destruct (Rle_dec 1 _) as [L |]; [| reflexivity]. exfalso. replace (9 / 10 - 131 / 10 - (9 / 10 - 131 / 10)) with 0 in L by ring. rewrite Rabs_R0 in L. lra. }
  specialize (H 1 ap1 ap2 [[b]] [] b _ _ ltac:(lra) V ltac:(left; reflexivity) ltac:(intros []) eq_refl eq_refl). cbn in H. rewrite !px_sub, norm_px in H. apply Rabs_def2 in H. lra.
Qed.
Example validate_nonvacuous :
  let ap := [(1%Z, px 0); (2%Z, px 14); (3%Z, px 28); (4%Z, px 43)] in
  validate_blpairs (1/2) ap ap [[((1, 2), (2, 3))%Z]; [((1, 2), (3, 4))%Z]] = Ok [((1, 2), (3, 4))%Z].
Proof.
  intros ap. unfold validate_blpairs. replace (shared_ok (1/2) ap ap) with true.
  - unfold ap, merged_pos, pos, bl_vec. cbn. unfold merged_pos, pos. cbn. rewrite !px_sub, !norm_px. destruct (Rle_dec (1/2) (Rabs (0 - 14 - (28 - 43)))) as [| N].
    + destruct (Rle_dec (1 / 2) (Rabs (0 - 14 - (14 - 28)))) as [L |]; [| reflexivity]. exfalso. replace (0 - 14 - (14 - 28)) with 0 in L by ring. rewrite Rabs_R0 in L. lra.
    + exfalso. apply N. rewrite Rabs_pos_eq; lra.
  - symmetry. apply forallb_forall. intros [k v] I. cbn [fst snd]. destruct (pos ap k) as [w |] eqn:P; [| reflexivity].
    assert (v = w). { unfold ap in I, P. cbn in I. destruct I as [I | [I | [I | [I | []]]]]; apply pair_equal_spec in I; destruct I as [<- <-]; cbn in P; injection P as <-; reflexivity. } subst w.
    destruct (Rle_dec _ _) as [| N]; [reflexivity |]. exfalso. apply N. unfold norm, vsub. cbn. replace (_ + _ + _) with 0 by ring. rewrite sqrt_0. lra.
Qed.

(** ** channel ranges from redshifts *)
Definition rising (fs : list R) : Prop := forall i j fi fj, nth_error fs i = Some fi -> nth_error fs j = Some fj -> (i < j)%nat -> fi < fj.
Lemma rspw_spec fs fmin fmax be i j : rising fs -> rspw_range fs fmin fmax be = Ok (Some (i, j)) ->
  (i <= j < length fs)%nat /\ forall k f, nth_error fs k = Some f -> ((i <= k <= j)%nat <-> fmin <= f < fmax).
Proof.
  intros Asc H. unfold rspw_range in H. do 4 (unfold require in H at 1; match type of H with (if ?c then _ else _) = _ => destruct c; [| discriminate] end). injection H as H.
  set (m := map (fun f => lebR fmin f && ltbR f fmax)%bool fs) in *. pose proof (where_sorted m) as S. pose proof (where_spec m) as W.
  destruct (where_ m) as [| i0 l] eqn:E; [discriminate |]. injection H as H1 H2. subst i0. change (last (i :: l) i = j) in H2.
  assert (Hj : In j (i :: l)) by (rewrite <- H2; apply last_in; discriminate).
  assert (Wf : forall k f, nth_error fs k = Some f -> (In k (i :: l) <-> fmin <= f < fmax)).
  { intros k f Hk. rewrite W. unfold m. rewrite nth_error_map, Hk. cbn. unfold lebR, ltbR. destruct (Rle_dec fmin f), (Rlt_dec f fmax); cbn; intuition (try congruence; lra). }
  assert (Lt : forall k, In k (i :: l) -> (k < length fs)%nat). { intros k Hk. apply W in Hk. assert (Hk2 : nth_error m k <> None) by congruence. apply nth_error_Some in Hk2. clear Hk. rename Hk2 into Hk. unfold m in Hk. rewrite map_length in Hk. exact Hk. }
  split; [split; [apply sorted_first with (l := l); assumption | apply Lt, Hj] |]. intros k f Hk. rewrite <- (Wf k f Hk). split.
  - intros [G1 G2]. apply (Wf k f Hk). destruct (nth_error fs i) as [fi |] eqn:Fi; [| apply nth_error_None in Fi; specialize (Lt i (or_introl eq_refl)); lia]. destruct (nth_error fs j) as [fj |] eqn:Fj; [| apply nth_error_None in Fj; specialize (Lt j Hj); lia].
    pose proof (proj1 (Wf i fi Fi) (or_introl eq_refl)) as Gi. pose proof (proj1 (Wf j fj Fj) Hj) as Gj.
    assert (fi <= f). { destruct (Nat.eq_dec i k) as [-> |]; [assert (fi = f) by congruence; lra |]. pose proof (Asc i k fi f Fi Hk ltac:(lia)). lra. }
    assert (f <= fj). { destruct (Nat.eq_dec k j) as [-> |]; [assert (fj = f) by congruence; lra |]. pose proof (Asc k j f fj Hk Fj ltac:(lia)). lra. }
    lra.
  - intro H. split; [exact (sorted_first l i S k H) |]. rewrite <- H2. exact (sorted_last (i :: l) i S k H).
Qed.
Lemma z_of_f f21 z f : 0 < f21 -> 0 < f -> 0 < z + 1 -> (f21 / (z + 1) <= f <-> f21 / f - 1 <= z).
Proof.
  intros P F Z. split; intros H.
  - assert (f21 <= f * (z + 1)). { replace f21 with (f21 / (z + 1) * (z + 1)) by (field; lra). apply Rmult_le_compat_r; lra. } assert (f21 / f <= z + 1); [| lra]. apply (Rmult_le_reg_r f); [lra |]. unfold Rdiv. rewrite Rmult_assoc, Rinv_l by lra. lra.
  - assert (f21 <= f * (z + 1)). { replace f21 with (f * (f21 / f)) by (field; lra). apply Rmult_le_compat_l; lra. } apply (Rmult_le_reg_r (z + 1)); [lra |]. unfold Rdiv. rewrite Rmult_assoc, Rinv_l by lra. lra.
Qed.
(** The channels selected are those of redshift zmin < z <= zmax *)
Theorem spw_range_z_spec :
  forall f21 fs zmin zmax be i j, 0 < f21 -> (forall f, In f fs -> 0 < f) -> 0 < zmin + 1 -> 0 < zmax + 1 -> rising fs -> spw_range_z f21 fs zmin zmax be = Ok (Some (i, j)) ->
    (i <= j < length fs)%nat /\ forall k f, nth_error fs k = Some f -> ((i <= k <= j)%nat <-> zmin < f21 / f - 1 <= zmax).
Proof.
  intros f21 fs zmin zmax be i j P F Zm ZM R H. destruct (rspw_spec _ _ _ _ _ _ R H) as [L B]. split; [exact L |]. intros k f Hk. rewrite (B k f Hk). assert (Pf : 0 < f) by (eapply F, nth_error_In, Hk).
  pose proof (z_of_f f21 zmax f P Pf ZM). pose proof (z_of_f f21 zmin f P Pf Zm) as Q. assert (f < f21 / (zmin + 1) <-> zmin < f21 / f - 1). { split; intros; apply Rnot_le_lt; intros ?; [apply Q in H2 | apply Q in H2]; lra. } tauto.
Qed.
Lemma require_Ok {A} c e (k : result A) r : require c e k = Ok r -> c = true /\ k = Ok r.
Proof. destruct c; cbn; [auto | discriminate]. Qed.
Lemma fold_min_le d l : forall x, In x l -> fold_right Rmin d l <= x.
Proof. induction l as [| y l IH]; cbn; [tauto |]. intros x [<- | I]; [apply Rmin_l | eapply Rle_trans; [apply Rmin_r | auto]]. Qed.
Lemma fold_max_ge d l : forall x, In x l -> x <= fold_right Rmax d l.
Proof. induction l as [| y l IH]; cbn; [tauto |]. intros x [<- | I]; [apply Rmax_l | eapply Rle_trans; [| apply Rmax_r]; auto]. Qed.
Lemma fold_min_in d l : fold_right Rmin d l = d \/ In (fold_right Rmin d l) l.
Proof. induction l as [| y l IH]; cbn; [auto |]. destruct (Rle_dec y (fold_right Rmin d l)); [rewrite Rmin_left by lra | rewrite Rmin_right by lra]; tauto. Qed.
Lemma fold_max_in d l : fold_right Rmax d l = d \/ In (fold_right Rmax d l) l.
Proof. induction l as [| y l IH]; cbn; [auto |]. destruct (Rle_dec y (fold_right Rmax d l)); [rewrite Rmax_right by lra | rewrite Rmax_left by lra]; tauto. Qed.
(** With bounds_error a range that reaches beyond the band is refused: an answer means that zmin and zmax lie in the band (a redshift below that of the
    highest channel or above that of the lowest is an error) *)
Theorem spw_range_z_bounds :
  forall f21 fs zmin zmax r, 0 < f21 -> (forall f, In f fs -> 0 < f) -> 0 < zmin + 1 -> 0 < zmax + 1 -> spw_range_z f21 fs zmin zmax true = Ok r ->
    (exists f, In f fs /\ zmax <= f21 / f - 1) /\ (exists f, In f fs /\ f21 / f - 1 <= zmin) /\ zmin <= zmax.
Proof.
  intros f21 fs zmin zmax r P F Zm ZM H. unfold spw_range_z, rspw_range in H. apply require_Ok in H as [C1 H]. apply require_Ok in H as [C2 H]. apply require_Ok in H as [C3 H]. apply require_Ok in H as [C4 _].
  destruct fs as [| f0 fs']; [discriminate |]. set (fs := f0 :: fs') in *. unfold ltbR in C1, C3, C4.
  destruct (Rlt_dec (f21 / (zmin + 1)) (f21 / (zmax + 1))); [discriminate |]. destruct (Rlt_dec (f21 / (zmax + 1)) (minR fs)); [discriminate |]. destruct (Rlt_dec (maxR fs) (f21 / (zmin + 1))); [discriminate |].
  assert (I1 : In (minR fs) fs) by (destruct (fold_min_in (hd 0 fs) fs) as [E | I]; [unfold minR; rewrite E; left; reflexivity | exact I]).
  assert (I2 : In (maxR fs) fs) by (destruct (fold_max_in (hd 0 fs) fs) as [E | I]; [unfold maxR; rewrite E; left; reflexivity | exact I]).
  pose proof (F _ I1) as Q1. pose proof (F _ I2) as Q2.
  split; [exists (minR fs); split; [exact I1 |] | split; [exists (maxR fs); split; [exact I2 |] |]].
  - assert (minR fs * (zmax + 1) <= f21). { replace f21 with (f21 / (zmax + 1) * (zmax + 1)) by (field; lra). apply Rmult_le_compat_r; lra. } assert (zmax + 1 <= f21 / minR fs); [| lra]. apply (Rmult_le_reg_r (minR fs)); [lra |]. unfold Rdiv. rewrite Rmult_assoc, Rinv_l by lra. lra.
  - assert (f21 / (zmin + 1) <= maxR fs) by lra. apply z_of_f in H; lra.
  - assert (G : f21 / (zmax + 1) <= f21 / (zmin + 1)) by lra. apply z_of_f in G; [| lra | apply div_pos_of; lra | lra]. replace (f21 / (f21 / (zmin + 1)) - 1) with zmin in G by (field; lra). exact G.
Qed.
(** the documentation states the bounds the other way around: "all channels in z_range[0] > z >= z_range[1]" *)
Theorem spw_range_z_docs_refuted :
  ~ (forall f21 fs zmin zmax be i j k f, 0 < f21 -> (forall f, In f fs -> 0 < f) -> 0 < zmin + 1 -> 0 < zmax + 1 -> rising fs -> spw_range_z f21 fs zmin zmax be = Ok (Some (i, j)) ->
       nth_error fs k = Some f -> ((zmin > f21 / f - 1 /\ f21 / f - 1 >= zmax) <-> (i <= k <= j)%nat)).
Proof.
  intros H. assert (E : spw_range_z 1400 [100; 140; 200] 8 10 true = Ok (Some (1, 1)%nat)).
  { unfold spw_range_z, rspw_range, ltbR, lebR, minR, maxR. cbn [hd fold_right map].
    assert (E1 : 1400 / (10 + 1) = 1400 / 11) by (f_equal; lra). assert (E2 : 1400 / (8 + 1) = 1400 / 9) by (f_equal; lra). rewrite E1, E2.
    replace (Rmin 100 (Rmin 140 (Rmin 200 100))) with 100 by (unfold Rmin; repeat destruct (Rle_dec _ _); lra). replace (Rmax 100 (Rmax 140 (Rmax 200 100))) with 200 by (unfold Rmax; repeat destruct (Rle_dec _ _); lra).
    repeat (destruct (Rlt_dec _ _); try lra). all: repeat (destruct (Rle_dec _ _); try lra). all: cbn; reflexivity. }
  specialize (H 1400 [100; 140; 200] 8 10 true 1%nat 1%nat 1%nat 140 ltac:(lra)). destruct H as [_ H]; try lra; try exact E; try reflexivity.
  - intros f [<- | [<- | [<- | []]]]; lra.
  - intros a b x y Ha Hb L. destruct a as [| [| [| a]]], b as [| [| [| b]]]; cbn in Ha, Hb; try lia; try (injection Ha as <-; injection Hb as <-; lra); try (destruct a; discriminate); destruct b; discriminate.
  - specialize (H ltac:(lia)). lra.
Qed.

Example spw_z_nonvacuous : rising [100; 140; 200] /\ (forall f, In f [100; 140; 200] -> 0 < f).
Proof.
  split; [| intros f [<- | [<- | [<- | []]]]; lra].
  intros a b x y Ha Hb L. destruct a as [| [| [| a]]], b as [| [| [| b]]]; cbn in Ha, Hb; try lia; try (injection Ha as <-; injection Hb as <-; lra); try (destruct a; discriminate); destruct b; discriminate.
Qed.

(** ** config_pspec_blpairs *)
Lemma inb_In {A} dec (x : A) l : inb dec x l = true <-> In x l.
Proof. unfold inb. destruct (in_dec dec x l); intuition congruence. Qed.
Section Config.
Context {T : Type} (found : T -> label -> label -> list pystr) (pairs_of : pystr -> label -> label -> list bpair) (templates : list T).
(** some file was found for this polarisation and group *)
Definition has (pol grp : label) : Prop := exists t f, In t templates /\ In f (found t pol grp).
Lemma pairs_flat_In {A} (l : list (A * A)) x : In x (pairs_flat l) <-> exists p, In p l /\ (x = fst p \/ x = snd p).
Proof. unfold pairs_flat. rewrite in_concat. setoid_rewrite in_map_iff. split; [intros (? & (p & <- & I) & [<- | [<- | []]]); eauto | intros (p & I & H); exists [fst p; snd p]; split; [eauto |]; cbn; intuition]. Qed.
Lemma searched_In pps gps pol grp : In (pol, grp) (searched pps gps) <-> In pol (pairs_flat pps) /\ In grp (pairs_flat gps).
Proof. unfold searched. rewrite in_prod_iff, !unique_str_In. tauto. Qed.
Lemma pol_grps_In pps gps pol grp : In (pol, grp) (pol_grps found templates pps gps) <-> In (pol, grp) (searched pps gps) /\ has pol grp.
Proof.
  unfold pol_grps, has. rewrite in_concat. setoid_rewrite in_map_iff. split.
  - intros (? & (t & <- & It) & I). apply filter_In in I as [I1 I2]. cbn in I2. split; [exact I1 |]. destruct (found t pol grp) as [| f l] eqn:E; [discriminate |]. exists t, f. rewrite E. split; [exact It | left; reflexivity].
  - intros (I & t & f & It & If). exists (filter (fun pg => negb (Nat.eqb (length (found t (fst pg) (snd pg))) 0)) (searched pps gps)). split; [exists t; auto |]. apply filter_In. split; [exact I |]. cbn. destruct (found t pol grp); [destruct If | reflexivity].
Qed.
Definition keep (pg : list (label * label)) (x : (label * label) * (label * label)) : bool := (inb lab_dec (fst (fst x), fst (snd x)) pg && inb lab_dec (snd (fst x), snd (snd x)) pg)%bool.
Lemma fold_dset pg (blps : list bpair) l d k : dget gkey_dec (fold_left (fun d x => if keep pg x then dset gkey_dec d (snd x, fst x) blps else d) l d) k =
  if existsb (fun x => keep pg x && if gkey_dec k (snd x, fst x) then true else false)%bool l then Some blps else dget gkey_dec d k.
Proof.
  revert d. induction l as [| x l IH]; intros d; cbn [fold_left existsb]; [reflexivity |]. rewrite IH. destruct (keep pg x); cbn [andb orb]; [| reflexivity].
  destruct (existsb _ l); [rewrite orb_true_r; reflexivity |]. rewrite orb_false_r, dget_dset. destruct (gkey_dec k (snd x, fst x)); reflexivity.
Qed.
Lemma blp_ok_iff xants b : blp_ok xants b = true <-> forall a, In a xants -> a <> fst (fst b) /\ a <> snd (fst b) /\ a <> fst (snd b) /\ a <> snd (snd b).
Proof.
  unfold blp_ok. cbn [existsb]. repeat (destruct (in_dec Z.eq_dec _ xants) as [I |]; [cbn; split; [discriminate | intros H; destruct (H _ I); tauto] |]). cbn. split; [intros _ a I; repeat split; intros ->; contradiction | reflexivity].
Qed.
Lemma prefixb_iff p s : prefixb p s = true <-> exists b, s = p ++ b.
Proof.
  revert s. induction p as [|x p IH]; intro s; [split; [intros _; exists s; reflexivity|reflexivity]|]. destruct s as [|y s]; cbn [prefixb].
  - split; [discriminate|intros [b C]; discriminate C].
  - rewrite andb_true_iff, Ascii.eqb_eq, IH. split; [intros [-> [b ->]]; exists b; reflexivity|]. intros [b C]. injection C as -> ->. eauto.
Qed.
Lemma substr_iff p s : substr p s = true <-> exists a b, s = a ++ p ++ b.
Proof.
  induction s as [|y s IH]; cbn [substr]; rewrite orb_true_iff, prefixb_iff.
  - split; [intros [[b E]|C]; [exists [], b; exact E|discriminate C]|]. intros [a [b E]]. left. destruct a; [exists b; exact E|discriminate E].
  - rewrite IH. split; [intros [[b E]|[a [b ->]]]; [exists [], b; exact E|exists (y :: a), b; reflexivity]|].
    intros [[|z a] [b E]]; [left; exists b; exact E|]. right. injection E as _ ->. eauto.
Qed.
Lemma config_inv pps gps xants exclude d : config_blpairs found pairs_of templates pps gps xants exclude = Ok (Some d) ->
  exists f0 p0 g0, In (p0, g0) (searched pps gps) /\ In f0 (all_found found templates p0 g0) /\ excluded exclude f0 = false /\ length pps = length gps /\
    d = fold_left (fun d x => if keep (pol_grps found templates pps gps) x then dset gkey_dec d (snd x, fst x) (filter (blp_ok xants) (pairs_of f0 p0 g0)) else d) (combine pps gps) [].
Proof.
  unfold config_blpairs. intros H. apply require_Ok in H as [L H]. apply Nat.eqb_eq in L. destruct (filter _ (unique_files _ _ _ _)) as [| f0 fs] eqn:F; [destruct exclude; discriminate |].
  destruct (pol_grps found templates pps gps) as [| [p0 g0] pg] eqn:P; [discriminate |]. apply require_Ok in H as [R H]. injection H as <-. apply inb_In in R. exists f0, p0, g0.
  assert (IP : In (p0, g0) (pol_grps found templates pps gps)) by (rewrite P; left; reflexivity). apply pol_grps_In in IP as [IP _]. split; [exact IP |]. split; [exact R |].
  assert (I : In f0 (f0 :: fs)) by (left; reflexivity). rewrite <- F in I. apply filter_In in I as [_ I]. apply negb_true_iff in I. split; [exact I |]. split; [exact L | reflexivity].
Qed.
(** The groupings are keyed by exactly the given (group pair, pol pair) combinations both of whose files were found; each has the pairs of one of the files
    that were found and not excluded, without those that have an antenna of xants *)
Theorem config_groupings :
  forall pps gps xants exclude d, config_blpairs found pairs_of templates pps gps xants exclude = Ok (Some d) ->
    exists f pol grp, In f (all_found found templates pol grp) /\ (forall ex p, exclude = Some ex -> In p ex -> ~ exists a b, f = a ++ p ++ b) /\
      (forall gp pp blps, dget gkey_dec d (gp, pp) = Some blps <->
         (In (pp, gp) (combine pps gps) /\ has (fst pp) (fst gp) /\ has (snd pp) (snd gp)) /\
         blps = filter (fun b => if forallb (fun a => negb (if in_dec Z.eq_dec a xants then true else false)) [fst (fst b); snd (fst b); fst (snd b); snd (snd b)] then true else false) (pairs_of f pol grp)).
Proof.
  intros pps gps xants exclude d H. destruct (config_inv _ _ _ _ _ H) as (f0 & p0 & g0 & _ & F & X & L & ->). exists f0, p0, g0. split; [exact F |].
  split; [intros ex p -> Hp; cbn [excluded] in X; intro SP; apply substr_iff in SP; enough (existsb (fun p => substr p f0) ex = true) by congruence; apply existsb_exists; exists p; auto |].
  intros gp pp blps. rewrite fold_dset.
  assert (E : filter (fun b => if forallb (fun a => negb (if in_dec Z.eq_dec a xants then true else false)) [fst (fst b); snd (fst b); fst (snd b); snd (snd b)] then true else false) (pairs_of f0 p0 g0) = filter (blp_ok xants) (pairs_of f0 p0 g0)).
  { apply filter_ext. intros b. unfold blp_ok. cbn [existsb forallb]. repeat destruct (in_dec Z.eq_dec _ xants); reflexivity. }
  rewrite E. clear E.
  assert (K : existsb (fun x => keep (pol_grps found templates pps gps) x && if gkey_dec (gp, pp) (snd x, fst x) then true else false)%bool (combine pps gps) = true <-> In (pp, gp) (combine pps gps) /\ has (fst pp) (fst gp) /\ has (snd pp) (snd gp)).
  { rewrite existsb_exists. split.
    - intros ([p g] & I & B). apply andb_true_iff in B as [B1 B2]. cbn [fst snd] in B2. destruct (gkey_dec (gp, pp) (g, p)) as [E |]; [| discriminate]. apply pair_equal_spec in E as [-> ->]. unfold keep in B1. apply andb_true_iff in B1 as [B1 B3]. apply inb_In in B1, B3. apply pol_grps_In in B1, B3. cbn [fst snd] in *. tauto.
    - intros (I & H1 & H2). exists (pp, gp). split; [exact I |]. unfold keep. cbn [fst snd]. destruct (gkey_dec (gp, pp) (gp, pp)); [| congruence]. rewrite andb_true_r. apply andb_true_iff. rewrite !inb_In, !pol_grps_In, !searched_In. pose proof (in_combine_l _ _ _ _ I) as Ip. pose proof (in_combine_r _ _ _ _ I) as Ig.
      assert (Q : forall (x : label) (p : label * label) l, In p l -> x = fst p \/ x = snd p -> In x (pairs_flat l)) by (intros; apply pairs_flat_In; eauto).
      split; (split; [split |]); eauto. }
  destruct (existsb _ (combine pps gps)) eqn:EX; [split; [intros Q; injection Q as <-; tauto | intros [_ ->]; reflexivity] |]. cbn. split; [discriminate |]. intros [Q _]. apply K in Q. discriminate.
Qed.
(** When every name that is found at all is found for every polarisation and group for which something is found, the call succeeds (if anything is found) *)
Theorem config_succeeds :
  forall pps gps xants, length pps = length gps ->
    (exists pp gp, In pp pps /\ In gp gps /\ has (fst pp) (fst gp)) ->
    (forall pol grp pol' grp' f, In f (all_found found templates pol grp) -> has pol' grp' -> In f (all_found found templates pol' grp')) ->
    exists d, config_blpairs found pairs_of templates pps gps xants None = Ok (Some d).
Proof.
  intros pps gps xants L (pp & gp & Ip & Ig & Hh) R. unfold config_blpairs. rewrite L, Nat.eqb_refl. cbn [require].
  assert (S : In (fst pp, fst gp) (searched pps gps)) by (apply searched_In; split; apply pairs_flat_In; eauto).
  assert (P : In (fst pp, fst gp) (pol_grps found templates pps gps)) by (apply pol_grps_In; auto).
  assert (UF : forall f, In f (unique_files found templates pps gps) -> exists pol grp, In f (all_found found templates pol grp)).
  { intros f I. unfold unique_files in I. rewrite unique_str_In, in_concat in I. destruct I as (x & Ix & If). apply in_map_iff in Ix as (t & <- & It). apply in_concat in If as (y & Iy & If). apply in_map_iff in Iy as ([pol grp] & <- & _). exists pol, grp. unfold all_found. apply in_concat. exists (found t pol grp). split; [apply in_map_iff; eauto | exact If]. }
  assert (NE : unique_files found templates pps gps <> []).
  { destruct Hh as (t & f & It & If). intros E. assert (I : In f (unique_files found templates pps gps)); [| rewrite E in I; destruct I]. unfold unique_files. rewrite unique_str_In, in_concat. exists (concat (map (fun pg => found t (fst pg) (snd pg)) (searched pps gps))). split; [apply in_map_iff; eauto |]. apply in_concat. exists (found t (fst pp) (fst gp)). split; [apply in_map_iff; exists (fst pp, fst gp); auto | exact If]. }
  assert (FE : filter (fun f => negb (excluded None f)) (unique_files found templates pps gps) = unique_files found templates pps gps) by (generalize (unique_files found templates pps gps) as l; induction l as [| x l IH]; cbn; [reflexivity | cbn in IH; rewrite IH; reflexivity]).
  rewrite FE. destruct (unique_files found templates pps gps) as [| f0 fs]; [congruence |]. destruct (pol_grps found templates pps gps) as [| [p0 g0] pg] eqn:PG; [destruct P |].
  assert (H0 : has p0 g0) by (assert (I : In (p0, g0) (pol_grps found templates pps gps)) by (rewrite PG; left; reflexivity); apply pol_grps_In in I; tauto).
  destruct (UF f0 (or_introl eq_refl)) as (pol & grp & I). pose proof (R _ _ _ _ _ I H0) as I0. apply (inb_In (list_eq_dec Ascii.ascii_dec)) in I0. rewrite I0. cbn [require]. eauto.
Qed.
End Config.
(** A grouping is listed although every file of its polarisations and groups matches an exclusion pattern *)
Definition f_a : pystr := s_ "a.{pol}.{group}.uvh5". Definition f_b : pystr := s_ "b.{pol}.{group}.uvh5".
Definition xx := s_ "xx". Definition yy := s_ "yy". Definition g1 := s_ "g1".
Definition found1 (_ : nat) (p _ : label) : list pystr := if str_eqb p xx then [f_a] else [f_b].
Definition found2 (_ : nat) (p _ : label) : list pystr := if str_eqb p xx then [f_b] else [f_a].
Theorem config_exclude_refuted :
  ~ (forall (found : nat -> label -> label -> list pystr) pairs_of templates pps gps xants ex d gp pp, config_blpairs found pairs_of templates pps gps xants (Some ex) = Ok (Some d) -> dget gkey_dec d (gp, pp) <> None ->
       exists t f, In t templates /\ In f (found t (fst pp) (fst gp)) /\ forall p, In p ex -> ~ exists a b, f = a ++ p ++ b).
Proof.
  intros H. specialize (H found1 (fun _ _ _ => []) [0%nat] [(xx, xx); (yy, yy)] [(g1, g1); (g1, g1)] [] [s_ "b."]). edestruct H as (t & f & _ & I & E).
  - vm_compute. reflexivity.
  - instantiate (1 := (yy, yy)). instantiate (1 := (g1, g1)). vm_compute. discriminate.
  - vm_compute in I. destruct I as [<- | []]. apply (E _ (or_introl eq_refl)). apply substr_iff. vm_compute. reflexivity.
Qed.
(** The call fails although files of all polarisations and groups exist: the first name is read with the first polarisation and group *)
Theorem config_read_refuted :
  ~ (forall (found : nat -> label -> label -> list pystr) pairs_of templates pps gps xants, length pps = length gps -> pps <> [] ->
       (forall pp gp, In (pp, gp) (combine pps gps) -> has found templates (fst pp) (fst gp) /\ has found templates (snd pp) (snd gp)) ->
       exists d, config_blpairs found pairs_of templates pps gps xants None = Ok (Some d)).
Proof.
  intros H. specialize (H found2 (fun _ _ _ => []) [0%nat] [(xx, xx); (yy, yy)] [(g1, g1); (g1, g1)] [] eq_refl ltac:(discriminate)). destruct H as [d E].
  - intros pp gp [I | [I | []]]; apply pair_equal_spec in I; destruct I as [<- <-]; (split; exists 0%nat; eexists; (split; [left; reflexivity |]); left; reflexivity).
  - vm_compute in E. discriminate.
Qed.
(** pairs without antenna 13, the same for both combinations *)
Example config_nonvacuous :
  config_blpairs (fun (_ : nat) (_ _ : label) => [f_a; f_b]) (fun _ _ _ => [((11, 12), (12, 13)); ((11, 12), (14, 15))]%Z) [0%nat] [(xx, yy); (yy, yy)] [(g1, g1); (g1, g1)] [13%Z] None
    = Ok (Some [(((g1, g1), (xx, yy)), [((11, 12), (14, 15))%Z]); (((g1, g1), (yy, yy)), [((11, 12), (14, 15))%Z])]).
Proof. vm_compute. reflexivity. Qed.
Print Assumptions bl_ang_direction. Print Assumptions bl_ang_conjugate. Print Assumptions bl_ang_conjugate_refuted. Print Assumptions bl_ang_redundant_refuted.
Print Assumptions validate_exact. Print Assumptions validate_silent. Print Assumptions validate_silent_refuted. Print Assumptions spw_range_z_spec. Print Assumptions spw_range_z_bounds. Print Assumptions spw_range_z_docs_refuted.
Print Assumptions config_groupings. Print Assumptions config_succeeds. Print Assumptions config_exclude_refuted. Print Assumptions config_read_refuted.
