(** C189, C190: circular averages. *)
From Coq Require Import Reals Lra.
From Coq Require Import Permutation.
From Flocq Require Import Core.
From Verif Require Import Prelude StatModel StatProps GeomModel.
Open Scope R_scope.

Notation sumR := (fold_right Rplus 0).
(** ** arctan2 *)
Lemma sqrt_1u u x y : x <> 0 -> u = y / x -> sqrt (1 + u ^ 2) = sqrt (x ^ 2 + y ^ 2) / Rabs x.
Proof.
  intros N ->. replace (1 + (y / x) ^ 2) with ((x ^ 2 + y ^ 2) * (/ Rabs x) ^ 2).
  - rewrite sqrt_mult by (try apply pow2_ge_0; nra). rewrite sqrt_pow2; [reflexivity |]. left. apply Rinv_0_lt_compat, Rabs_pos_lt, N.
  - assert (A : (/ Rabs x) ^ 2 = / x ^ 2) by (rewrite <- (pow2_abs x); field; apply Rabs_no_R0, N). rewrite A. field. exact N.
Qed.
Lemma atan_polar x y : x <> 0 -> cos (atan (y / x)) = Rabs x / sqrt (x ^ 2 + y ^ 2) /\ sin (atan (y / x)) = y / x * (Rabs x / sqrt (x ^ 2 + y ^ 2)).
Proof.
  intros N. rewrite cos_atan, sin_atan. unfold Rsqr. replace (1 + y / x * (y / x)) with (1 + (y / x) ^ 2) by ring. rewrite (sqrt_1u (y / x) x y N eq_refl).
  assert (0 < sqrt (x ^ 2 + y ^ 2)) by (apply sqrt_lt_R0; nra). assert (Rabs x <> 0) by (apply Rabs_no_R0, N). split; field; repeat split; auto; lra.
Qed.
Lemma atan2_polar x y : (x <> 0 \/ y <> 0) -> let r := sqrt (x ^ 2 + y ^ 2) in 0 < r /\ x = r * cos (atan2 y x) /\ y = r * sin (atan2 y x) /\ - PI < atan2 y x <= PI.
Proof.
  intros N r. assert (R : 0 < r) by (apply sqrt_lt_R0; destruct N; nra). split; [exact R |]. pose proof PI_RGT_0 as PP. unfold atan2.
  destruct (Rlt_dec 0 x) as [P | NP].
  - destruct (atan_polar x y ltac:(lra)) as [C S]. fold r in C, S. rewrite C, S. rewrite Rabs_pos_eq by lra. pose proof (atan_bound (y / x)). split; [field; lra |]. split; [field; lra | lra].
  - destruct (Rlt_dec x 0) as [Q | NQ].
    + destruct (atan_polar x y ltac:(lra)) as [C S]. fold r in C, S. rewrite Rabs_left in C, S by lra. pose proof (atan_bound (y / x)) as B.
      destruct (Rle_dec 0 y) as [Y | Y].
      * rewrite neg_cos, neg_sin, C, S. split; [field; lra |]. split; [field; lra |]. split; [lra |].
        assert (atan (y / x) <= 0). { destruct (Req_dec y 0) as [-> | Ny]; [unfold Rdiv; rewrite Rmult_0_l, atan_0; lra |]. rewrite <- atan_0. left. apply atan_increasing. apply Ropp_lt_cancel. rewrite Ropp_0. replace (- (y / x)) with (y / - x) by (field; lra). apply Rdiv_lt_0_compat; lra. } lra.
      * replace (atan (y / x) - PI) with (- (PI - atan (y / x))) by ring. rewrite cos_neg, sin_antisym. rewrite Rtrigo_facts.cos_pi_minus, Rtrigo_facts.sin_pi_minus, C, S. split; [field; lra |]. split; [field; lra |].
        assert (0 < atan (y / x)). { rewrite <- atan_0. apply atan_increasing. replace (y / x) with ((- y) / (- x)) by (field; lra). apply Rdiv_lt_0_compat; lra. } lra.
    + assert (X0 : x = 0) by lra. subst x. assert (RY : r = Rabs y) by (unfold r; replace (0 ^ 2 + y ^ 2) with (y ^ 2) by ring; rewrite <- Rsqr_pow2; apply sqrt_Rsqr_abs).
      destruct (Rlt_dec 0 y) as [Y | Y]; [rewrite cos_PI2, sin_PI2, RY, Rabs_pos_eq by lra; split; [ring | split; [ring | lra]] |].
      destruct (Rlt_dec y 0) as [Y' | Y']; [| exfalso; destruct N; lra]. replace (- PI / 2) with (- (PI / 2)) by field. rewrite cos_neg, sin_antisym, cos_PI2, sin_PI2, RY, Rabs_left by lra. split; [ring | split; [ring | lra]].
Qed.
(** ** reduction modulo a turn *)
Lemma pymod_range a m : 0 < m -> 0 <= pymod a m < m.
Proof.
  intros H. unfold pymod. pose proof (Zfloor_lb (a / m)) as L. pose proof (Zfloor_ub (a / m)) as U. assert (E : a = m * (a / m)) by (field; lra). split.
  - assert (m * IZR (Zfloor (a / m)) <= m * (a / m)) by (apply Rmult_le_compat_l; lra). lra.
  - assert (m * (a / m) < m * (IZR (Zfloor (a / m)) + 1)) by (apply Rmult_lt_compat_l; lra). lra.
Qed.
Lemma pymod_turns a m k : 0 < m -> pymod (a + m * IZR k) m = pymod a m.
Proof.
  intros H. unfold pymod. replace ((a + m * IZR k) / m) with (a / m + IZR k) by (field; lra).
  assert (F : Zfloor (a / m + IZR k) = (Zfloor (a / m) + k)%Z). { apply Zfloor_imp. rewrite !plus_IZR. pose proof (Zfloor_lb (a / m)). pose proof (Zfloor_ub (a / m)). lra. }
  rewrite F, plus_IZR. ring.
Qed.
Lemma pymod_id a m : 0 <= a < m -> pymod a m = a.
Proof. intros H. unfold pymod. replace (Zfloor (a / m)) with 0%Z; [ring |]. symmetry. apply Zfloor_imp. cbn. split; [apply Rmult_le_pos; [lra | left; apply Rinv_0_lt_compat; lra] | apply (Rmult_lt_reg_r m); [lra |]; unfold Rdiv; rewrite Rmult_assoc, Rinv_l by lra; lra]. Qed.
Lemma pymod_ex a m : exists k, pymod a m = a + m * IZR k.
Proof. exists (- Zfloor (a / m))%Z. unfold pymod. rewrite opp_IZR. ring. Qed.
Lemma trig_turns x k : cos (x + 2 * PI * IZR k) = cos x /\ sin (x + 2 * PI * IZR k) = sin x.
Proof.
  destruct (Z_le_gt_dec 0 k) as [H | H].
  - rewrite <- (Z2Nat.id k H), <- INR_IZR_INZ. replace (x + 2 * PI * INR (Z.to_nat k)) with (x + 2 * INR (Z.to_nat k) * PI) by ring. rewrite cos_period, sin_period. auto.
  - assert (E : x = (x + 2 * PI * IZR k) + 2 * INR (Z.to_nat (- k)) * PI) by (rewrite INR_IZR_INZ, Z2Nat.id, opp_IZR by lia; ring). rewrite E at 2 4. rewrite cos_period, sin_period. auto.
Qed.
Lemma pymod_trig a : cos (pymod a (2 * PI)) = cos a /\ sin (pymod a (2 * PI)) = sin a.
Proof. destruct (pymod_ex a (2 * PI)) as [k ->]. apply trig_turns. Qed.
(** equal directions are equal up to turns *)
Lemma same_direction a b : cos a = cos b -> sin a = sin b -> pymod a (2 * PI) = pymod b (2 * PI).
Proof.
  intros C S. pose proof PI_RGT_0 as PP. set (d := pymod a (2 * PI) - pymod b (2 * PI)). pose proof (pymod_range a (2 * PI) ltac:(lra)) as A. pose proof (pymod_range b (2 * PI) ltac:(lra)) as B.
  destruct (pymod_trig a) as [Ca Sa]. destruct (pymod_trig b) as [Cb Sb].
  assert (CD : cos d = 1). { unfold d. rewrite cos_minus, Ca, Cb, Sa, Sb, C, S. pose proof (sin2_cos2 b) as Q. unfold Rsqr in Q. lra. }
  assert (SD : sin (d / 2) = 0). { assert (Q := cos_2a_sin (d / 2)). replace (2 * (d / 2)) with d in Q by field. rewrite CD in Q. nra. }
  assert (BD : - PI < d / 2 < PI) by (unfold d; lra).
  destruct (Rtotal_order (d / 2) 0) as [L | [E | G]]; [| unfold d in E; lra |].
  - assert (0 < sin (- (d / 2))) by (apply sin_gt_0; lra). rewrite sin_neg in H. lra.
  - assert (0 < sin (d / 2)) by (apply sin_gt_0; lra). lra.
Qed.
(** ** circular average *)
Lemma sum_sin l t : sumR (map (fun a => sin (a - t)) l) = cos t * sumR (map sin l) - sin t * sumR (map cos l).
Proof. induction l as [| a l IH]; cbn; [ring |]. rewrite IH, sin_minus. ring. Qed.
Lemma sum_cos l t : sumR (map (fun a => cos (a - t)) l) = cos t * sumR (map cos l) + sin t * sumR (map sin l).
Proof. induction l as [| a l IH]; cbn; [ring |]. rewrite IH, cos_minus. ring. Qed.
Lemma sum_sin2 l u v : sumR (map (fun a => sin (a - (u + v))) l) = cos v * sumR (map (fun a => sin (a - u)) l) - sin v * sumR (map (fun a => cos (a - u)) l).
Proof. induction l as [| a l IH]; cbn; [ring |]. rewrite IH. replace (a - (u + v)) with ((a - u) - v) by ring. rewrite sin_minus. ring. Qed.
Lemma sum_cos2 l u v : sumR (map (fun a => cos (a - (u + v))) l) = cos v * sumR (map (fun a => cos (a - u)) l) + sin v * sumR (map (fun a => sin (a - u)) l).
Proof. induction l as [| a l IH]; cbn; [ring |]. rewrite IH. replace (a - (u + v)) with ((a - u) - v) by ring. rewrite cos_minus. ring. Qed.
Definition balanced (l : list R) : Prop := sumR (map sin l) = 0 /\ sumR (map cos l) = 0.
(** the direction t of the sum of the unit vectors *)
Definition direction (l : list R) (t : R) : Prop := sumR (map (fun a => sin (a - t)) l) = 0 /\ 0 < sumR (map (fun a => cos (a - t)) l).
Lemma direction_ext l t t' : cos t = cos t' -> sin t = sin t' -> direction l t -> direction l t'.
Proof. unfold direction. rewrite !sum_sin, !sum_cos. intros -> ->. auto. Qed.
Lemma direction_unique l t t' : direction l t -> direction l t' -> pymod t (2 * PI) = pymod t' (2 * PI).
Proof.
  unfold direction. rewrite !sum_sin, !sum_cos. set (S := sumR (map sin l)). set (Cc := sumR (map cos l)). intros [H1 H2] [H3 H4].
  pose proof (sin2_cos2 t) as Q. pose proof (sin2_cos2 t') as Q'. unfold Rsqr in Q, Q'. set (r := cos t * Cc + sin t * S) in *. set (r' := cos t' * Cc + sin t' * S) in *.
  assert (E1 : Cc = r * cos t) by (transitivity (Cc * (sin t * sin t + cos t * cos t) + sin t * (cos t * S - sin t * Cc)); [rewrite Q, H1; ring | unfold r; ring]).
  assert (E2 : S = r * sin t) by (transitivity (S * (sin t * sin t + cos t * cos t) - cos t * (cos t * S - sin t * Cc)); [rewrite Q, H1; ring | unfold r; ring]).
  assert (E3 : Cc = r' * cos t') by (transitivity (Cc * (sin t' * sin t' + cos t' * cos t') + sin t' * (cos t' * S - sin t' * Cc)); [rewrite Q', H3; ring | unfold r'; ring]).
  assert (E4 : S = r' * sin t') by (transitivity (S * (sin t' * sin t' + cos t' * cos t') - cos t' * (cos t' * S - sin t' * Cc)); [rewrite Q', H3; ring | unfold r'; ring]).
  clearbody r r'. assert (RR : r ^ 2 = r' ^ 2).
  { transitivity (Cc ^ 2 + S ^ 2); [replace (Cc ^ 2 + S ^ 2) with (r ^ 2 * (sin t * sin t + cos t * cos t)) by (rewrite E1, E2; ring); rewrite Q; ring |].
    replace (Cc ^ 2 + S ^ 2) with (r' ^ 2 * (sin t' * sin t' + cos t' * cos t')) by (rewrite E3, E4; ring). rewrite Q'. ring. }
  assert (r = r') by nra. subst r'. apply same_direction; apply (Rmult_eq_reg_l r); try lra; congruence.
Qed.
Lemma circ_direction l : ~ balanced l -> direction l (circular_average l).
Proof.
  intros N. assert (NE : l <> []) by (intros ->; apply N; split; reflexivity). assert (L : 0 < INR (length l)) by (apply lt_0_INR; destruct l; [congruence | cbn; lia]).
  unfold circular_average. set (t := atan2 _ _). destruct (pymod_trig t) as [C S]. apply (direction_ext l t); [auto | auto |]. unfold direction. rewrite sum_sin, sum_cos.
  assert (M : mean (map cos l) <> 0 \/ mean (map sin l) <> 0).
  { destruct (Req_dec (mean (map cos l)) 0) as [E |]; [| auto]. destruct (Req_dec (mean (map sin l)) 0) as [E' |]; [| auto]. exfalso. apply N. unfold mean in E, E'. rewrite map_length in E, E'.
    split; [apply (Rmult_eq_reg_r (/ INR (length l))); [| apply Rinv_neq_0_compat; lra]; rewrite Rmult_0_l; exact E' | apply (Rmult_eq_reg_r (/ INR (length l))); [| apply Rinv_neq_0_compat; lra]; rewrite Rmult_0_l; exact E]. }
  destruct (atan2_polar _ _ M) as (R & X & Y & _). fold t in X, Y. set (r := sqrt _) in *. unfold mean in X at 1. unfold mean in Y at 1. rewrite map_length in X, Y.
  assert (X' : sumR (map cos l) = INR (length l) * (r * cos t)) by (rewrite <- X; field; lra). assert (Y' : sumR (map sin l) = INR (length l) * (r * sin t)) by (rewrite <- Y; field; lra).
  rewrite X', Y'. pose proof (sin2_cos2 t) as Q. unfold Rsqr in Q. split; [ring |]. replace (cos t * (INR (length l) * (r * cos t)) + sin t * (INR (length l) * (r * sin t))) with (INR (length l) * r * (sin t * sin t + cos t * cos t)) by ring. rewrite Q. nra.
Qed.
(** The average is the one angle of [0, 2 pi) with the direction of the sum of the unit vectors (unless these cancel) *)
Theorem circular_average_unique :
  forall l t, 0 <= circular_average l < 2 * PI /\ (~ balanced l -> 0 <= t < 2 * PI -> (t = circular_average l <-> direction l t)).
Proof.
  intros l t. pose proof PI_RGT_0 as PP. split; [apply pymod_range; lra |]. intros N Ht. pose proof (circ_direction l N) as D. split; [intros ->; exact D |].
  intros D'. pose proof (direction_unique _ _ _ D' D) as E. rewrite (pymod_id t) in E by exact Ht. rewrite pymod_id in E by (apply pymod_range; lra). exact E.
Qed.
(** whole turns and the order do not matter; turning all angles turns the average *)
Theorem circular_average_turns : forall l ks, length ks = length l -> circular_average (map (fun ak => fst ak + 2 * PI * IZR (snd ak)) (combine l ks)) = circular_average l.
Proof.
  intros l ks H. unfold circular_average. assert (E : map cos (map (fun ak => fst ak + 2 * PI * IZR (snd ak)) (combine l ks)) = map cos l /\ map sin (map (fun ak => fst ak + 2 * PI * IZR (snd ak)) (combine l ks)) = map sin l).
  { revert ks H. induction l as [| a l IH]; intros [| k ks] H; cbn in H; try discriminate; [auto |]. cbn [combine map fst snd]. destruct (IH ks ltac:(lia)) as [-> ->]. destruct (trig_turns a k) as [-> ->]. auto. }
  destruct E as [-> ->]. reflexivity.
Qed.
Lemma sum_perm l l' : Permutation l l' -> sumR l = sumR l'.
Proof. induction 1; cbn; lra. Qed.
Theorem circular_average_order : forall l l', Permutation l l' -> circular_average l = circular_average l'.
Proof.
  intros l l' P. unfold circular_average, mean. rewrite (sum_perm _ _ (Permutation_map sin P)), (sum_perm _ _ (Permutation_map cos P)), !map_length, (Permutation_length P). reflexivity.
Qed.
Theorem circular_average_rotate : forall l c, ~ balanced l -> circular_average (map (fun a => a + c) l) = pymod (circular_average l + c) (2 * PI).
Proof.
  intros l c N. pose proof PI_RGT_0 as PP. pose proof (circ_direction l N) as [D1 D2].
  assert (D : direction (map (fun a => a + c) l) (circular_average l + c)).
  { split; rewrite map_map; [rewrite (map_ext _ (fun a => sin (a - circular_average l))) by (intros; f_equal; ring); exact D1 | rewrite (map_ext _ (fun a => cos (a - circular_average l))) by (intros; f_equal; ring); exact D2]. }
  assert (N' : ~ balanced (map (fun a => a + c) l)).
  { intros [B1 B2]. destruct D as [_ D]. rewrite sum_cos, B1, B2 in D. lra. }
  rewrite <- (direction_unique _ _ _ (circ_direction _ N') D). symmetry. apply pymod_id, pymod_range. lra.
Qed.
(** Angles within an arc of less than half a turn: the average lies in that arc, also across the wrap *)
Theorem circular_average_arc :
  forall l alpha w, l <> [] -> 0 <= w < PI -> (forall a, In a l -> exists k, alpha <= a + 2 * PI * IZR k <= alpha + w) ->
    exists k, alpha <= circular_average l + 2 * PI * IZR k <= alpha + w.
Proof.
  intros l alpha w NE W H. pose proof PI_RGT_0 as PP. set (mid := alpha + w / 2). set (h := w / 2).
  assert (B : forall a, In a l -> exists x, - h <= x <= h /\ sin (a - mid) = sin x /\ cos (a - mid) = cos x).
  { intros a I. destruct (H a I) as [k Hk]. exists (a - mid + 2 * PI * IZR k). split; [unfold mid, h; lra |]. destruct (trig_turns (a - mid) k) as [-> ->]. auto. }
  assert (Ch : 0 < cos h) by (apply cos_gt_0; unfold h; lra).
  assert (Cp : forall a, In a l -> 0 < cos (a - mid)). { intros a I. destruct (B a I) as (x & Hx & _ & ->). apply cos_gt_0; unfold h in Hx; lra. }
  assert (SB : forall a, In a l -> - (tan h * cos (a - mid)) <= sin (a - mid) <= tan h * cos (a - mid)).
  { intros a I. destruct (B a I) as (x & Hx & -> & ->). assert (0 < cos x) by (apply cos_gt_0; unfold h in Hx; lra).
    assert (G1 : 0 <= sin (h - x)) by (apply sin_ge_0; unfold h in *; lra). assert (G2 : 0 <= sin (h + x)) by (apply sin_ge_0; unfold h in *; lra). rewrite sin_minus in G1. rewrite sin_plus in G2.
    assert (T : tan h * cos h = sin h) by (unfold tan; field; lra). split; apply (Rmult_le_reg_r (cos h)); try assumption; replace (tan h * cos x * cos h) with (sin h * cos x) by (rewrite <- T; ring); try lra.
    replace (- (tan h * cos x) * cos h) with (- (sin h * cos x)) by (rewrite <- T; ring). lra. }
  set (Cs := sumR (map (fun a => cos (a - mid)) l)). set (Ss := sumR (map (fun a => sin (a - mid)) l)).
  assert (CP : 0 < Cs /\ - (tan h * Cs) <= Ss <= tan h * Cs).
  { unfold Cs, Ss. clear - NE Cp SB. induction l as [| a l IH]; [congruence |]. destruct l as [| b l].
    - cbn. pose proof (Cp a (or_introl eq_refl)). pose proof (SB a (or_introl eq_refl)). rewrite !Rplus_0_r. auto.
    - destruct IH as (I1 & I2); [discriminate | intros; apply Cp; right; assumption | intros; apply SB; right; assumption |]. pose proof (Cp a (or_introl eq_refl)). pose proof (SB a (or_introl eq_refl)).
      change (sumR (map (fun a => cos (a - mid)) (a :: b :: l))) with (cos (a - mid) + sumR (map (fun a => cos (a - mid)) (b :: l))). change (sumR (map (fun a => sin (a - mid)) (a :: b :: l))) with (sin (a - mid) + sumR (map (fun a => sin (a - mid)) (b :: l))).
      split; [lra |]. rewrite Rmult_plus_distr_l. lra. }
  destruct CP as [CP SBd]. set (phi := atan (Ss / Cs)).
  assert (PB : - h <= phi <= h).
  { assert (T : atan (tan h) = h) by (apply atan_tan; unfold h; lra). assert (T' : atan (tan (- h)) = - h) by (apply atan_tan; unfold h; lra). rewrite tan_neg in T'.
    assert (M : forall u v, u <= v -> atan u <= atan v) by (intros u v [L | ->]; [left; apply atan_increasing, L | lra]).
    unfold phi. split; [rewrite <- T' | rewrite <- T]; apply M; apply (Rmult_le_reg_r Cs); try assumption; unfold Rdiv; rewrite ?Rmult_assoc, ?Rinv_l, ?Rmult_1_r by lra; lra. }
  destruct (atan_polar Cs Ss ltac:(lra)) as [PC PS]. fold phi in PC, PS. rewrite Rabs_pos_eq in PC, PS by lra. set (r := sqrt _) in *. assert (Rp : 0 < r) by (apply sqrt_lt_R0; nra).
  assert (D : direction l (mid + phi)).
  { pose proof (sum_sin2 l mid phi) as S1. pose proof (sum_cos2 l mid phi) as S2. fold Ss Cs in S1, S2. unfold direction.
    split; [rewrite S1, PC, PS; field; lra |]. rewrite S2, PC, PS. replace (Cs / r * Cs + Ss / Cs * (Cs / r) * Ss) with ((Cs ^ 2 + Ss ^ 2) / r) by (field; lra). apply Rdiv_lt_0_compat; nra. }
  assert (NB : ~ balanced l) by (intros [B1 B2]; destruct D as [_ D]; rewrite sum_cos, B1, B2 in D; lra).
  pose proof (direction_unique _ _ _ (circ_direction l NB) D) as E. rewrite pymod_id in E by (apply pymod_range; lra). destruct (pymod_ex (mid + phi) (2 * PI)) as [k Ek]. exists (- k)%Z. rewrite E, Ek, opp_IZR. unfold mid, h in *. lra.
Qed.
(** two angles less than half a turn apart: the middle *)
Theorem circular_average_two : forall a b, Rabs (a - b) < PI -> circular_average [a; b] = pymod ((a + b) / 2) (2 * PI).
Proof.
  intros a b H. pose proof PI_RGT_0 as PP. apply Rabs_def2 in H. assert (D : direction [a; b] ((a + b) / 2)).
  { unfold direction. cbn. replace (a - (a + b) / 2) with ((a - b) / 2) by field. replace (b - (a + b) / 2) with (- ((a - b) / 2)) by field. rewrite sin_antisym, cos_neg. split; [ring |]. assert (0 < cos ((a - b) / 2)) by (apply cos_gt_0; lra). lra. }
  assert (NB : ~ balanced [a; b]) by (intros [B1 B2]; destruct D as [_ D]; rewrite sum_cos, B1, B2 in D; lra).
  rewrite <- (direction_unique _ _ _ (circ_direction _ NB) D). symmetry. apply pymod_id, pymod_range. lra.
Qed.
(** away from the wrap it is not the arithmetic mean, as the documentation says: 0, 0 and pi/2 *)
Theorem circular_average_arithmetic_refuted :
  ~ (forall l, l <> [] -> (forall a, In a l -> 0 <= a <= PI / 2) -> circular_average l = mean l).
Proof.
  intros H. pose proof PI_RGT_0 as PP. assert (E := H [0; 0; PI / 2] ltac:(discriminate) ltac:(intros a [<- | [<- | [<- | []]]]; lra)).
  assert (NB : ~ balanced [0; 0; PI / 2]) by (intros [B _]; cbn in B; rewrite sin_0, sin_PI2 in B; lra). pose proof (circ_direction _ NB) as [D _]. rewrite E in D. unfold mean in D. cbn in D.
  replace (0 - (0 + (0 + (PI / 2 + 0))) / (1 + 1 + 1)) with (- (PI / 6)) in D by field. replace (PI / 2 - (0 + (0 + (PI / 2 + 0))) / (1 + 1 + 1)) with (PI / 3) in D by field. rewrite sin_antisym, sin_PI6, sin_PI3 in D.
  assert (sqrt 3 < 2) by (rewrite <- (sqrt_square 2) by lra; apply sqrt_lt_1; lra). lra.
Qed.

(** 350, 10 and 15 degrees (in turns of 2 pi): an arc of 25 degrees across the wrap *)
Example circ_nonvacuous : [35 * PI / 18; PI / 18; PI / 12] <> [] /\ 0 <= 5 * PI / 36 < PI /\
  (forall a, In a [35 * PI / 18; PI / 18; PI / 12] -> exists k, - (PI / 18) <= a + 2 * PI * IZR k <= - (PI / 18) + 5 * PI / 36) /\ ~ balanced [PI / 18; PI / 12].
Proof.
  pose proof PI_RGT_0 as PP. split; [discriminate |]. split; [lra |]. split.
  - intros a [<- | [<- | [<- | []]]]; [exists (-1)%Z | exists 0%Z | exists 0%Z]; lra.
  - intros [B _]. cbn in B. assert (0 < sin (PI / 18)) by (apply sin_gt_0; lra). assert (0 < sin (PI / 12)) by (apply sin_gt_0; lra). lra.
Qed.
Print Assumptions circular_average_unique. Print Assumptions circular_average_turns. Print Assumptions circular_average_order. Print Assumptions circular_average_rotate.
Print Assumptions circular_average_arc. Print Assumptions circular_average_two. Print Assumptions circular_average_arithmetic_refuted.
