(** C34, C61-C64: exchange of the two baselines, linearity, E and V matrices, decorrelated normalisation and
    covariance propagation. *)
From Coq Require Import Reals Lra Lia String.
From Verif Require Import Prelude CNum OqeModel OqeProofs OqeProps.
Open Scope R_scope.
Open Scope C_scope.

(** ** C34 *)
Theorem q_hat_swap_conjugates :
  forall nd nf ne k1 k2 fft fft' dt beam q q',
    q_hat nd nf ne k1 k2 fft false dt beam = Ok q ->
    q_hat nd nf ne k2 k1 fft' false dt beam = Ok q' ->
    forall a t, (a < nd)%nat -> q' a t = Cconj (q a t).
Proof.
  intros nd nf ne k1 k2 fft fft' dt beam q q' H H' a t Ha.
  destruct (q_hat_DT nd nf ne k1 k2 fft dt beam) as (u & Hu & Eu).
  destruct (q_hat_DT nd nf ne k2 k1 fft' dt beam) as (v & Hv & Ev).
  rewrite H in Hu. rewrite H' in Hv. injection Hu as <-. injection Hv as <-.
  rewrite Eu, Ev by assumption. rewrite !Cconj_mul, Cconj_conj, Cconj_R. ring.
Qed.

Theorem auto_q_hat_real_nonnegative :
  forall nd nf ne k fft dt beam q,
    q_hat nd nf ne k k fft false dt beam = Ok q ->
    forall a t, (a < nd)%nat -> im (q a t) = 0%R /\ (0 <= re (q a t))%R.
Proof.
  intros nd nf ne k fft dt beam q H a t Ha.
  destruct (q_hat_DT nd nf ne k k fft dt beam) as (u & Hu & Eu). rewrite H in Hu. injection Hu as <-.
  rewrite Eu, Cmul_conj, <- RtoC_mul by assumption. cbn. split; [reflexivity |].
  pose proof (Cabs2_nonneg (DT nd nf a (fun i => Rx ne k i t))). lra.
Qed.

(** the cross-power is bounded by (in fact the geometric mean of) the two auto-powers *)
Theorem cross_power_geometric_mean :
  forall nd nf ne k1 k2 f1 f2 f3 dt beam q12 q11 q22,
    q_hat nd nf ne k1 k2 f1 false dt beam = Ok q12 ->
    q_hat nd nf ne k1 k1 f2 false dt beam = Ok q11 ->
    q_hat nd nf ne k2 k2 f3 false dt beam = Ok q22 ->
    forall a t, (a < nd)%nat -> Cabs2 (q12 a t) = (re (q11 a t) * re (q22 a t))%R.
Proof.
  intros nd nf ne k1 k2 f1 f2 f3 dt beam q12 q11 q22 H12 H11 H22 a t Ha.
  destruct (q_hat_DT nd nf ne k1 k2 f1 dt beam) as (u & Hu & Eu).
  destruct (q_hat_DT nd nf ne k1 k1 f2 dt beam) as (v & Hv & Ev).
  destruct (q_hat_DT nd nf ne k2 k2 f3 dt beam) as (w & Hw & Ew).
  rewrite H12 in Hu. rewrite H11 in Hv. rewrite H22 in Hw.
  injection Hu as <-. injection Hv as <-. injection Hw as <-.
  rewrite Eu, Ev, Ew by assumption. rewrite !Cmul_conj, <- !RtoC_mul, !Cabs2_mul, Cabs2_conj, Cabs2_R. cbn. ring.
Qed.

(** Parseval: with as many delays as channels the auto-powers sum to N / 2 times the summed squared data *)
Theorem auto_q_hat_parseval :
  forall n ne k fft dt beam q t,
    q_hat n n ne k k fft false dt beam = Ok q ->
    csum n (fun a => q a t) = RtoC (INR n / 2) * csum n (fun i => RtoC (Cabs2 (Rx ne k i t))).
Proof.
  intros n ne k fft dt beam q t H.
  destruct (q_hat_DT n n ne k k fft dt beam) as (u & Hu & Eu). rewrite H in Hu. injection Hu as <-.
  set (r := fun i => Rx ne k i t) in *.
  rewrite (csum_ext n _ (fun a => RtoC (/ 2) * csum n (fun i => csum n (fun j =>
      Cconj (r i) * r j * Cconj (phi n a i * Cconj (phi n a j)))))).
  2:{ intros a Ha. rewrite Eu by assumption. f_equal. unfold DT. rewrite csum_conj, csum_prod.
      apply csum_ext. intros i Hi. apply csum_ext. intros j Hj. rewrite !Cconj_mul, Cconj_conj. unfold r. ring. }
  rewrite csum_mul_l, csum_swap. unfold Rdiv. rewrite RtoC_mul.
  transitivity (RtoC (/ 2) * (RtoC (INR n) * csum n (fun i => RtoC (Cabs2 (r i))))); [| unfold r; cbv beta; ring].
  f_equal. rewrite <- csum_mul_l. apply csum_ext. intros i Hi.
  rewrite csum_swap.
  rewrite (csum_ext n _ (fun j => if Nat.eqb i j then Cconj (r i) * r j * RtoC (INR n) else C0)).
  - rewrite (csum_single_l n (fun j => Cconj (r i) * r j * RtoC (INR n))) by assumption.
    rewrite Cmul_conj. ring.
  - intros j Hj. rewrite csum_mul_l, <- csum_conj, phi_orth_e by assumption.
    destruct (Nat.eqb i j); rewrite ?Cconj_R, ?Cconj_0; ring.
Qed.

(** q_hat is linear in the second and anti-linear in the first data set, for fixed weights *)
Theorem q_hat_sesquilinear :
  forall nd nf ne (R1 R2 : mat) (x1 y1 x2 y2 : mat) (c d : C) fft dt beam,
  exists q11 q12 q21 q22 q,
    q_hat nd nf ne [(R1, x1)] [(R2, x2)] fft false dt beam = Ok q11 /\
    q_hat nd nf ne [(R1, x1)] [(R2, y2)] fft false dt beam = Ok q12 /\
    q_hat nd nf ne [(R1, y1)] [(R2, x2)] fft false dt beam = Ok q21 /\
    q_hat nd nf ne [(R1, y1)] [(R2, y2)] fft false dt beam = Ok q22 /\
    q_hat nd nf ne [(R1, madd x1 (mscale c y1))] [(R2, madd x2 (mscale d y2))] fft false dt beam = Ok q /\
    forall a t, (a < nd)%nat ->
      q a t = q11 a t + d * q12 a t + Cconj c * q21 a t + Cconj c * d * q22 a t.
Proof.
  intros nd nf ne R1 R2 x1 y1 x2 y2 c d fft dt beam.
  destruct (q_hat_DT nd nf ne [(R1, x1)] [(R2, x2)] fft dt beam) as (q11 & H11 & E11).
  destruct (q_hat_DT nd nf ne [(R1, x1)] [(R2, y2)] fft dt beam) as (q12 & H12 & E12).
  destruct (q_hat_DT nd nf ne [(R1, y1)] [(R2, x2)] fft dt beam) as (q21 & H21 & E21).
  destruct (q_hat_DT nd nf ne [(R1, y1)] [(R2, y2)] fft dt beam) as (q22 & H22 & E22).
  destruct (q_hat_DT nd nf ne [(R1, madd x1 (mscale c y1))] [(R2, madd x2 (mscale d y2))] fft dt beam) as (q & H & E).
  exists q11, q12, q21, q22, q. do 5 (split; [assumption |]).
  intros a t Ha. rewrite E11, E12, E21, E22, E by assumption.
  assert (L : forall Rm x y e, DT nd nf a (fun i => Rx ne [(Rm, madd x (mscale e y))] i t)
      = DT nd nf a (fun i => Rx ne [(Rm, x)] i t) + e * DT nd nf a (fun i => Rx ne [(Rm, y)] i t)).
  { intros Rm x y e. unfold DT. rewrite <- csum_mul_l, <- csum_add. apply csum_ext. intros j Hj.
    unfold Rx, mmul. cbn [map fold_right fst snd].
    rewrite (csum_ext ne _ (fun k => Rm j k * x k t + e * (Rm j k * y k t))).
    - rewrite csum_add, csum_mul_l. ring.
    - intros. unfold madd, mscale. ring. }
  rewrite !L, !Cconj_add, !Cconj_mul. ring.
Qed.

(** summing over a list of keys is summing the weighted data; adding keys is additive *)
Theorem q_hat_keys_additive :
  forall nd nf ne k1 k1' k2 fft dt beam q q' q'',
    q_hat nd nf ne k1 k2 fft false dt beam = Ok q ->
    q_hat nd nf ne k1' k2 fft false dt beam = Ok q' ->
    q_hat nd nf ne (k1 ++ k1') k2 fft false dt beam = Ok q'' ->
    forall a t, (a < nd)%nat -> q'' a t = q a t + q' a t.
Proof.
  intros nd nf ne k1 k1' k2 fft dt beam q q' q'' H H' H'' a t Ha.
  destruct (q_hat_DT nd nf ne k1 k2 fft dt beam) as (u & Hu & Eu).
  destruct (q_hat_DT nd nf ne k1' k2 fft dt beam) as (v & Hv & Ev).
  destruct (q_hat_DT nd nf ne (k1 ++ k1') k2 fft dt beam) as (w & Hw & Ew).
  rewrite H in Hu. rewrite H' in Hv. rewrite H'' in Hw.
  injection Hu as <-. injection Hv as <-. injection Hw as <-.
  rewrite Eu, Ev, Ew by assumption.
  assert (L : DT nd nf a (fun i => Rx ne (k1 ++ k1') i t)
      = DT nd nf a (fun i => Rx ne k1 i t) + DT nd nf a (fun i => Rx ne k1' i t)).
  { unfold DT. rewrite <- csum_add. apply csum_ext. intros j Hj.
    assert (A : forall l l' : list C, fold_right Cadd C0 (l ++ l') = fold_right Cadd C0 l + fold_right Cadd C0 l').
    { induction l; intros; cbn; [ring |]. rewrite IHl. ring. }
    unfold Rx. rewrite map_app, A. ring. }
  rewrite L, Cconj_add. ring.
Qed.

Lemma Qm_herm nd nf fft ext ph a i j : (a < nd)%nat ->
  Cconj (Qm nd nf fft ext ph a i j) = Qm nd nf fft ext ph a j i.
Proof. intros. rewrite !Qm_phi, Cconj_mul, Cconj_conj by assumption. ring. Qed.

Lemma raw_swap nd nf ext ph R1 R2 qn weight i j : (i < nd)%nat -> (j < nd)%nat ->
  (forall e e', Cconj (weight e e') = weight e' e) -> (forall e e', Cconj (qn e e') = qn e' e) ->
  raw_response nd nf ext ph R2 R1 qn weight i j = Cconj (raw_response nd nf ext ph R1 R2 qn weight i j).
Proof.
  intros Hi Hj Hw Hq. unfold raw_response. symmetry. apply trace2_swap; intros; unfold mhad.
  - rewrite Cconj_mul, Qm_herm, Hq by assumption. reflexivity.
  - rewrite !Cconj_mul, Qm_herm, Hw, Hq by assumption. reflexivity.
Qed.
Lemma response_swap nd nf ext ph R1 R2 qn weight i j : (i < nd)%nat -> (j < nd)%nat ->
  (forall e e', Cconj (weight e e') = weight e' e) -> (forall e e', Cconj (qn e e') = qn e' e) ->
  response nd nf ext ph R2 R1 qn weight i j = Cconj (response nd nf ext ph R1 R2 qn weight i j).
Proof.
  intros Hi Hj Hw Hq. unfold response.
  rewrite (all_zerob_ext nd (raw_response nd nf ext ph R2 R1 qn weight) (raw_response nd nf ext ph R1 R2 qn weight)).
  2:{ intros. rewrite raw_swap by assumption. apply Cconj_eq0. }
  rewrite Cconj_div, Cconj_R. f_equal. destruct (all_zerob _ _).
  - unfold eye. destruct (Nat.eqb i j); symmetry; [apply Cconj_1 | apply Cconj_0].
  - apply raw_swap; assumption.
Qed.
Lemma sinc_sym n i j : sinc_matrix n i j = sinc_matrix n j i.
Proof.
  unfold sinc_matrix. f_equal. unfold np_sinc.
  replace ((INR j - INR i) / INR n)%R with (- ((INR i - INR j) / INR n))%R by (unfold Rdiv; ring).
  set (x := ((INR i - INR j) / INR n)%R).
  destruct (Req_EM_T x 0), (Req_EM_T (- x) 0); try reflexivity; try lra.
  replace (PI * - x)%R with (- (PI * x))%R by ring. rewrite sin_neg.
  field. pose proof PI_RGT_0. split; lra.
Qed.

(** the response matrices, normalisation, band powers and windows of the exchanged pair (the [qnorm] array
    is real symmetric: beam integrals are) *)
Theorem swap_conjugates_all :
  forall nd nf ext ph (R1 R2 x1 x2 qn : mat) sampling fft dt beam exact cov inv vmh,
    (forall e e', im (qn e e') = 0%R /\ qn e e' = qn e' e) ->
    exists q q' M W M' W',
      let G := get_G nd nf ext ph R1 R2 qn in
      let H := get_H nd nf ext ph R1 R2 qn sampling in
      let G' := get_G nd nf ext ph R2 R1 qn in
      let H' := get_H nd nf ext ph R2 R1 qn sampling in
      q_hat nd nf (nf + ext) [(R1, x1)] [(R2, x2)] fft false dt beam = Ok q /\
      q_hat nd nf (nf + ext) [(R2, x2)] [(R1, x1)] fft false dt beam = Ok q' /\
      get_MW nd G H "I" exact cov inv vmh = Ok (M, W) /\
      get_MW nd G' H' "I" exact cov inv vmh = Ok (M', W') /\
      forall a b t, (a < nd)%nat -> (b < nd)%nat ->
        G' a b = Cconj (G a b) /\ H' a b = Cconj (H a b) /\ M' a b = Cconj (M a b) /\
        W' a b = Cconj (W a b) /\ p_hat nd M' q' a t = Cconj (p_hat nd M q a t).
Proof.
  intros nd nf ext ph R1 R2 x1 x2 qn sampling fft dt beam exact cov inv vmh Hqn.
  assert (Hq : forall e e', Cconj (qn e e') = qn e' e).
  { intros e e'. destruct (Hqn e e') as [I S]. rewrite <- S. apply Ceq; cbn; lra. }
  destruct (q_hat_DT nd nf (nf + ext) [(R1, x1)] [(R2, x2)] fft dt beam) as (q & E & _).
  destruct (q_hat_DT nd nf (nf + ext) [(R2, x2)] [(R1, x1)] fft dt beam) as (q' & E' & _).
  exists q, q'. do 4 eexists. cbv zeta. split; [exact E |]. split; [exact E' |].
  set (G := get_G nd nf ext ph R1 R2 qn). set (G' := get_G nd nf ext ph R2 R1 qn).
  set (H := get_H nd nf ext ph R1 R2 qn sampling). set (H' := get_H nd nf ext ph R2 R1 qn sampling).
  split; [reflexivity |]. split; [reflexivity |].
  intros a b t Ha Hb.
  assert (HG : forall i j, (i < nd)%nat -> (j < nd)%nat -> G' i j = Cconj (G i j)).
  { intros. apply response_swap; auto. intros. apply Cconj_1. }
  assert (HH : forall i j, (i < nd)%nat -> (j < nd)%nat -> H' i j = Cconj (H i j)).
  { intros. apply response_swap; auto. intros. destruct sampling; [apply Cconj_1 |].
    rewrite sinc_sym. apply Cconj_R. }
  assert (Rs : forall (A A' : mat), (forall i j, (i < nd)%nat -> (j < nd)%nat -> A' i j = Cconj (A i j)) ->
             forall i, (i < nd)%nat -> rowsum nd A' i = Cconj (rowsum nd A i)).
  { intros A A' HA i Hi. unfold rowsum. rewrite csum_conj. apply csum_ext. auto. }
  assert (HD : forall (A A' : mat), (forall i j, (i < nd)%nat -> (j < nd)%nat -> A' i j = Cconj (A i j)) ->
             forall i j, (i < nd)%nat -> diag (fun k => C1 / rowsum nd A' k) i j = Cconj (diag (fun k => C1 / rowsum nd A k) i j)).
  { intros A A' HA i j Hi. unfold diag. destruct (Nat.eqb i j); [| symmetry; apply Cconj_0].
    rewrite Cconj_div, Cconj_1, (Rs A A' HA i Hi). reflexivity. }
  split; [auto |]. split; [auto |]. split; [apply HD; auto |]. split.
  - unfold mmul. rewrite csum_conj. apply csum_ext. intros k Hk.
    rewrite Cconj_mul, <- HH by assumption. f_equal. apply HD; auto.
  - unfold p_hat, mmul. rewrite csum_conj. apply csum_ext. intros k Hk. rewrite Cconj_mul.
    rewrite (q_hat_swap_conjugates nd nf _ _ _ fft fft dt beam q q' E E' k t Hk). f_equal. apply HD; auto.
Qed.
Print Assumptions swap_conjugates_all.

(** ** C61: E matrices *)
(** the quadratic form of E is q_hat, for any weighting, without exact_norm *)
Lemma sandwich_sum nf ne (R1 R2 Q x1 x2 : mat) t :
  csum ne (fun m => csum ne (fun l => Cconj (x1 m t) * mmul nf (ctrans R1) (mmul nf Q R2) m l * x2 l t))
  = csum nf (fun i => Cconj (mmul ne R1 x1 i t) * csum nf (fun k => Q i k * mmul ne R2 x2 k t)).
Proof.
  transitivity (csum ne (fun m => csum ne (fun l => csum nf (fun i => csum nf (fun k =>
     Cconj (x1 m t) * Cconj (R1 i m) * Q i k * (R2 k l * x2 l t)))))).
  { apply csum_ext. intros m Hm. apply csum_ext. intros l Hl. unfold mmul, ctrans.
    transitivity (csum nf (fun i => Cconj (x1 m t) * (Cconj (R1 i m) * csum nf (fun k => Q i k * R2 k l)) * x2 l t)).
    - rewrite csum_mul_r, csum_mul_l. reflexivity.
    - apply csum_ext. intros i Hi.
      transitivity (Cconj (x1 m t) * Cconj (R1 i m) * x2 l t * csum nf (fun k => Q i k * R2 k l)); [ring |].
      rewrite <- csum_mul_l. apply csum_ext. intros. ring. }
  transitivity (csum ne (fun m => csum nf (fun i => csum nf (fun k => csum ne (fun l =>
     Cconj (x1 m t) * Cconj (R1 i m) * Q i k * (R2 k l * x2 l t)))))).
  { apply csum_ext. intros m Hm. rewrite csum_swap. apply csum_ext. intros i Hi. apply csum_swap. }
  rewrite csum_swap. apply csum_ext. intros i Hi.
  transitivity (csum ne (fun m => Cconj (x1 m t) * Cconj (R1 i m) * csum nf (fun k => Q i k * mmul ne R2 x2 k t))).
  - apply csum_ext. intros m Hm. rewrite <- csum_mul_l. apply csum_ext. intros k Hk.
    unfold mmul. rewrite csum_mul_l. ring.
  - rewrite csum_mul_r. f_equal. unfold mmul. rewrite csum_conj. apply csum_ext. intros. rewrite Cconj_mul. ring.
Qed.

Definition quad (ne : nat) (E x1 x2 : mat) (t : nat) : C :=
  csum ne (fun m => csum ne (fun l => Cconj (x1 m t) * E m l * x2 l t)).

Theorem E_is_q_hat :
  forall nd nf ne (R1 R2 x1 x2 : mat) fft dt beam,
  exists q, q_hat nd nf ne [(R1, x1)] [(R2, x2)] fft false dt beam = Ok q /\
    forall a t, (a < nd)%nat -> quad ne (get_E nd nf R1 R2 false dt beam a) x1 x2 t = q a t.
Proof.
  intros nd nf ne R1 R2 x1 x2 fft dt beam. destruct (q_hat_DT nd nf ne [(R1, x1)] [(R2, x2)] fft dt beam) as (q & Hq & E).
  exists q. split; [assumption |]. intros a t Ha. rewrite E by assumption.
  unfold quad, get_E, mscale.
  transitivity (RtoC (/ 2) * csum ne (fun m => csum ne (fun l => Cconj (x1 m t)
     * mmul nf (ctrans R1) (mmul nf (Qm nd nf true 0 0 a) R2) m l * x2 l t))).
  - rewrite <- csum_mul_l. apply csum_ext. intros m Hm. rewrite <- csum_mul_l. apply csum_ext. intros l Hl. ring.
  - f_equal. rewrite sandwich_sum.
    rewrite (q_sandwich nd nf (Qm nd nf true 0 0 a) (fun i => mmul ne R1 x1 i t) (fun i => mmul ne R2 x2 i t) a)
      by (intros; apply Qm_phi; assumption).
    unfold Rx. cbn [map fold_right fst snd]. f_equal.
    + f_equal. unfold DT. apply csum_ext. intros. f_equal. ring.
    + unfold DT. apply csum_ext. intros. f_equal. ring.
Qed.

(** ... and with exact_norm when R2 is diagonal *)
Theorem E_exact_norm_is_q_hat_diagonal :
  forall nd nf (R1 : mat) (r2 : vec) (x1 x2 : mat) dt beam,
  exists q, q_hat nd nf nf [(R1, x1)] [(diag r2, x2)] false true dt beam = Ok q /\
    forall a t, (a < nd)%nat -> quad nf (get_E nd nf R1 (diag r2) true dt beam a) x1 x2 t = q a t.
Proof.
  intros nd nf R1 r2 x1 x2 dt beam. eexists. split; [reflexivity |]. intros a t Ha. cbv beta.
  unfold quad, get_E.
  set (Q := mhad (mscale (RtoC dt) (Qm nd nf true 0 0 a)) beam).
  transitivity (RtoC (/ 2) * csum nf (fun m => csum nf (fun l => Cconj (x1 m t)
     * mmul nf (ctrans R1) (mmul nf Q (diag r2)) m l * x2 l t))).
  - rewrite <- csum_mul_l. apply csum_ext. intros m Hm. rewrite <- csum_mul_l. apply csum_ext. intros l Hl.
    unfold mscale at 1. transitivity (RtoC (/ 2) * Cconj (x1 m t) * x2 l t
       * mmul nf (ctrans R1) (mhad (mscale (RtoC dt) beam) (mmul nf (Qm nd nf true 0 0 a) (diag r2))) m l); [ring |].
    transitivity (RtoC (/ 2) * Cconj (x1 m t) * x2 l t * mmul nf (ctrans R1) (mmul nf Q (diag r2)) m l); [| ring].
    f_equal. unfold mmul at 1 3. apply csum_ext. intros k Hk. f_equal.
    assert (DR : forall A : mat, mmul nf A (diag r2) k l = A k l * r2 l).
    { intros A. unfold mmul. rewrite (csum_ext nf _ (fun j => if Nat.eqb j l then A k j * r2 j else C0)).
      - apply (csum_single_r nf (fun j => A k j * r2 j)). assumption.
      - intros j Hj. unfold diag. destruct (Nat.eqb j l); ring. }
    unfold mhad at 1. rewrite !DR. unfold Q, mhad, mscale. ring.
  - f_equal. rewrite sandwich_sum. apply csum_ext. intros i Hi. unfold Rx. cbn [map fold_right fst snd].
    replace (mmul nf R1 x1 i t + C0) with (mmul nf R1 x1 i t) by ring. f_equal.
    unfold mmul at 2. apply csum_ext. intros k Hk. ring.
Qed.

(** With exact_norm and a non-diagonal second weighting the E matrices do not give q_hat: the beam factor
    multiplies Q R2 instead of Q. *)
Theorem E_exact_norm_refuted :
  exists nd nf (R1 R2 x1 x2 beam : mat) dt q,
    q_hat nd nf nf [(R1, x1)] [(R2, x2)] false true dt beam = Ok q /\
    quad nf (get_E nd nf R1 R2 true dt beam 0) x1 x2 0 <> q 0%nat 0%nat.
Proof.
  (* one delay (Q = all ones), two channels, R1 = eye, R2 = [[0,1],[0,0]], beam = [[1,0],[0,0]], x = (1,1) *)
  set (R2 := (fun i j => if (Nat.eqb i 0 && Nat.eqb j 1)%bool then C1 else C0) : mat).
  set (beam := (fun i j => if (Nat.eqb i 0 && Nat.eqb j 0)%bool then C1 else C0) : mat).
  exists 1%nat, 2%nat, eye, R2, ones, ones, beam, 1%R. eexists. split; [reflexivity |].
  assert (Q00 : Qm 1 2 true 0 0 0 0%nat 0%nat = C1) by (rewrite Qm_phi by lia; apply phi_conj).
  cbv beta. unfold quad, get_E, mmul, mscale, mhad, ctrans, Rx, ones, beam, R2, eye.
  cbn [csum Nat.eqb andb map fold_right fst snd mmul]. unfold mmul. cbn [csum Nat.eqb andb].
  rewrite ?Cconj_1, ?Cconj_0, Q00.
  intros E. apply (f_equal re) in E. revert E. cbn. lra.
Qed.

(** exchanging the two weightings conjugate-transposes E *)
Theorem E_swap :
  forall nd nf (R1 R2 : mat) dt beam a, (a < nd)%nat ->
    forall i j, get_E nd nf R2 R1 false dt beam a i j = Cconj (get_E nd nf R1 R2 false dt beam a j i).
Proof.
  intros nd nf R1 R2 dt beam a Ha i j. unfold get_E, mscale. rewrite Cconj_mul, Cconj_R. f_equal.
  unfold mmul, ctrans. rewrite csum_conj.
  transitivity (csum nf (fun k => csum nf (fun l => Cconj (R2 k i) * (Qm nd nf true 0 0 a k l * R1 l j)))).
  - apply csum_ext. intros. symmetry. apply csum_mul_l.
  - rewrite csum_swap. apply csum_ext. intros l Hl. rewrite Cconj_mul, Cconj_conj, csum_conj.
    rewrite <- csum_mul_l. apply csum_ext. intros k Hk. rewrite Cconj_mul, Qm_herm by assumption. ring.
Qed.

(** ** C62: the covariance of q_hat is Hermitian *)
Lemma tr_cyc4 n (A B Cc D : mat) :
  trace2 n n (mmul n A B) (mmul n Cc D) = csum n (fun i => csum n (fun j => csum n (fun k => csum n (fun l =>
      A i k * B k j * (Cc j l * D l i))))).
Proof.
  unfold trace2, mmul. apply csum_ext. intros i _. apply csum_ext. intros j _. apply csum_prod.
Qed.
Theorem V_hermitian :
  forall ne (E : nat -> mat) (C11 C22 P21 S21 : mat),
    (forall i j, (i < ne)%nat -> (j < ne)%nat -> Cconj (C11 i j) = C11 j i) ->
    (forall i j, (i < ne)%nat -> (j < ne)%nat -> Cconj (C22 i j) = C22 j i) ->
    (forall i j, (i < ne)%nat -> (j < ne)%nat -> S21 i j = Cconj (P21 i j)) ->
    forall a b, get_V ne E C11 C22 P21 S21 b a = Cconj (get_V ne E C11 C22 P21 S21 a b).
Proof.
  intros ne E C11 C22 P21 S21 H1 H2 H3 a b. unfold get_V. rewrite Cconj_add. f_equal.
  - rewrite !tr_cyc4.
    transitivity (csum ne (fun i => csum ne (fun j => csum ne (fun k => csum ne (fun l =>
      Cconj (E a i k * C22 k j * (ctrans (E b) j l * C11 l i))))))).
    2:{ rewrite csum_conj. apply csum_ext. intros. rewrite csum_conj. apply csum_ext. intros. rewrite csum_conj.
        apply csum_ext. intros. rewrite csum_conj. reflexivity. }
    unfold ctrans.
    (* LHS term (i,j,k,l): E_b i k * C22 k j * conj(E_a l j) * C11 l i ; RHS term (i',j',k',l'):
       conj(E_a i' k') * C22 j' k' * E_b l' j' * C11 i' l' : i = l', k = j', j = k', l = i' *)
    transitivity (csum ne (fun l => csum ne (fun k => csum ne (fun j => csum ne (fun i =>
      E b i k * C22 k j * (Cconj (E a l j) * C11 l i)))))).
    + transitivity (csum ne (fun i => csum ne (fun k => csum ne (fun j => csum ne (fun l =>
        E b i k * C22 k j * (Cconj (E a l j) * C11 l i)))))).
      { apply csum_ext. intros i _. apply csum_swap. }
      transitivity (csum ne (fun i => csum ne (fun l => csum ne (fun k => csum ne (fun j =>
        E b i k * C22 k j * (Cconj (E a l j) * C11 l i)))))).
      { apply csum_ext. intros i _. 
        transitivity (csum ne (fun k => csum ne (fun l => csum ne (fun j =>
          E b i k * C22 k j * (Cconj (E a l j) * C11 l i))))).
        - apply csum_ext. intros k _. apply csum_swap.
        - apply csum_swap. }
      rewrite csum_swap. apply csum_ext. intros l _. 
      transitivity (csum ne (fun k => csum ne (fun i => csum ne (fun j =>
          E b i k * C22 k j * (Cconj (E a l j) * C11 l i))))).
      * apply csum_swap.
      * apply csum_ext. intros k _. apply csum_swap.
    + apply csum_ext. intros l Hl. apply csum_ext. intros k Hk. apply csum_ext. intros j Hj. apply csum_ext. intros i Hi.
      rewrite !Cconj_mul, Cconj_conj, H1, H2 by assumption. ring.
  - rewrite !tr_cyc4.
    transitivity (csum ne (fun i => csum ne (fun j => csum ne (fun k => csum ne (fun l =>
      Cconj (E a i k * P21 k j * (mconj (E b) j l * S21 l i))))))).
    2:{ rewrite csum_conj. apply csum_ext. intros. rewrite csum_conj. apply csum_ext. intros. rewrite csum_conj.
        apply csum_ext. intros. rewrite csum_conj. reflexivity. }
    unfold mconj.
    (* LHS (i,j,k,l): E_b i k P k j conj(E_a j l) S l i ; RHS (i',j',k',l'): conj(E_a i' k') conj(P k' j') E_b j' l' conj(S l' i')
       i'=j, k'=l, j'=i, l'=k *)
    transitivity (csum ne (fun j => csum ne (fun i => csum ne (fun l => csum ne (fun k =>
      E b i k * P21 k j * (Cconj (E a j l) * S21 l i)))))).
    + rewrite csum_swap. apply csum_ext. intros j _. apply csum_ext. intros i _. apply csum_swap.
    + apply csum_ext. intros j Hj. apply csum_ext. intros i Hi. apply csum_ext. intros l Hl. apply csum_ext. intros k Hk.
      rewrite !Cconj_mul, Cconj_conj, !H3, Cconj_conj by assumption. ring.
Qed.

(** ** C63: V^-1/2 normalisation decorrelates (real eigenvectors) *)
(** what [np.linalg.eigh] returns for a Hermitian V: a unitary matrix of eigenvectors (columns) *)
Definition unitary (n : nat) (u : mat) : Prop :=
  (forall k l, (k < n)%nat -> (l < n)%nat -> csum n (fun i => Cconj (u i k) * u i l) = if Nat.eqb k l then C1 else C0) /\
  (forall i j, (i < n)%nat -> (j < n)%nat -> csum n (fun l => u i l * Cconj (u j l)) = if Nat.eqb i j then C1 else C0).
Definition is_eigh (n : nat) (V : mat) (ev : nat -> R) (u : mat) : Prop :=
  unitary n u /\ forall i j, (i < n)%nat -> (j < n)%nat ->
    V i j = csum n (fun l => u i l * RtoC (ev l) * Cconj (u j l)).
Definition sandwich (n : nat) (M V : mat) : mat :=
  fun a c => csum n (fun b => csum n (fun d => M a b * V b d * Cconj (M c d))).

Theorem v_half_decorrelates_real :
  forall n (V : mat) (ev : nat -> R) (u : mat) G H exact M W,
    is_eigh n V ev u -> (forall l, (l < n)%nat -> (0 < ev l)%R) ->
    (forall i l, im (u i l) = 0%R) ->
    get_MW n G H "V^-1/2" exact true H (v_minus_half n ev u) = Ok (M, W) ->
    forall a c, (a < n)%nat -> (c < n)%nat -> a <> c -> sandwich n M V a c = C0.
Proof.
  intros n V ev u G H exact M W [[HO Hcomp] HV] Hpos Hreal E a c Ha Hc Hac.
  unfold get_MW in E. cbn [existsb String.eqb] in E. cbn in E. destruct exact; [discriminate |]. injection E as <- <-.
  set (d := fun i => C1 / rowsum n (mmul n (v_minus_half n ev u) H) i).
  assert (Cu : forall i l, Cconj (u i l) = u i l).
  { intros. apply Ceq; cbn; rewrite ?Hreal; lra. }
  assert (HM : forall i b, (i < n)%nat -> mmul n (diag d) (v_minus_half n ev u) i b = d i * v_minus_half n ev u i b).
  { intros i b Hi. unfold mmul.
    rewrite (csum_ext n _ (fun k => if Nat.eqb i k then d i * v_minus_half n ev u k b else C0)).
    - apply (csum_single_l n (fun k => d i * v_minus_half n ev u k b)). assumption.
    - intros k Hk. unfold diag. destruct (Nat.eqb i k); ring. }
  (* vmh V = U diag(sqrt ev) U^T *)
  assert (S : forall b', (b' < n)%nat -> forall i, csum n (fun b => v_minus_half n ev u i b * V b b')
             = csum n (fun l => u i l * RtoC (sqrt (ev l)) * u b' l)).
  { intros b' Hb' i.
    transitivity (csum n (fun l => csum n (fun l' => u i l * RtoC (1 / sqrt (ev l)) * (RtoC (ev l') * u b' l')
                   * csum n (fun b => Cconj (u b l) * u b l')))).
    - transitivity (csum n (fun b => csum n (fun l => csum n (fun l' =>
         u i l * RtoC (1 / sqrt (ev l)) * (RtoC (ev l') * u b' l') * (Cconj (u b l) * u b l'))))).
      + apply csum_ext. intros b Hb. rewrite HV by assumption. unfold v_minus_half. rewrite csum_prod.
        apply csum_ext. intros l Hl. apply csum_ext. intros l' Hl'. rewrite !Cu. ring.
      + rewrite csum_swap. apply csum_ext. intros l Hl. rewrite csum_swap. apply csum_ext. intros l' Hl'. apply csum_mul_l.
    - apply csum_ext. intros l Hl.
      rewrite (csum_ext n _ (fun l' => if Nat.eqb l l' then u i l * RtoC (1 / sqrt (ev l)) * (RtoC (ev l') * u b' l') else C0)).
      + rewrite (csum_single_l n (fun l' => u i l * RtoC (1 / sqrt (ev l)) * (RtoC (ev l') * u b' l'))) by assumption.
        transitivity (u i l * (RtoC (1 / sqrt (ev l)) * RtoC (ev l)) * u b' l); [ring |].
        rewrite <- RtoC_mul. f_equal. f_equal. f_equal. specialize (Hpos l Hl).
        assert (sqrt (ev l) <> 0%R) by (pose proof (sqrt_lt_R0 (ev l) Hpos); lra).
        rewrite <- (sqrt_sqrt (ev l)) at 2 by lra. field. assumption.
      + intros l' Hl'. rewrite HO by assumption. destruct (Nat.eqb l l'); ring. }
  (* vmh V vmh^dagger = U U^T = I *)
  assert (T : csum n (fun b => csum n (fun d' => v_minus_half n ev u a b * V b d' * Cconj (v_minus_half n ev u c d'))) = C0).
  { rewrite csum_swap.
    transitivity (csum n (fun d' => csum n (fun l => u a l * RtoC (sqrt (ev l)) * u d' l) * Cconj (v_minus_half n ev u c d'))).
    - apply csum_ext. intros d' Hd. rewrite <- (S d' Hd a). rewrite <- csum_mul_r. reflexivity.
    - transitivity (csum n (fun l => csum n (fun l' => u a l * RtoC (sqrt (ev l)) * u c l' * RtoC (1 / sqrt (ev l'))
                     * csum n (fun d' => Cconj (u d' l) * u d' l')))).
      + transitivity (csum n (fun d' => csum n (fun l => csum n (fun l' => u a l * RtoC (sqrt (ev l)) * u c l' * RtoC (1 / sqrt (ev l'))
                     * (Cconj (u d' l) * u d' l'))))).
        * apply csum_ext. intros d' Hd. unfold v_minus_half. rewrite csum_conj, csum_prod.
          apply csum_ext. intros l Hl. apply csum_ext. intros l' Hl'. rewrite !Cconj_mul, Cconj_R, !Cu. ring.
        * rewrite csum_swap. apply csum_ext. intros l Hl. rewrite csum_swap. apply csum_ext. intros l' Hl'. apply csum_mul_l.
      + transitivity (csum n (fun l => u a l * u c l)).
        * apply csum_ext. intros l Hl.
          rewrite (csum_ext n _ (fun l' => if Nat.eqb l l' then u a l * RtoC (sqrt (ev l)) * u c l' * RtoC (1 / sqrt (ev l')) else C0)).
          -- rewrite (csum_single_l n (fun l' => u a l * RtoC (sqrt (ev l)) * u c l' * RtoC (1 / sqrt (ev l')))) by assumption.
             transitivity (u a l * u c l * (RtoC (sqrt (ev l)) * RtoC (1 / sqrt (ev l)))); [ring |].
             rewrite <- RtoC_mul. specialize (Hpos l Hl).
             assert (sqrt (ev l) <> 0%R) by (pose proof (sqrt_lt_R0 (ev l) Hpos); lra).
             replace (sqrt (ev l) * (1 / sqrt (ev l)))%R with 1%R by (field; assumption).
             change (RtoC 1) with C1. ring.
          -- intros l' Hl'. rewrite HO by assumption. destruct (Nat.eqb l l'); ring.
        * rewrite (csum_ext n _ (fun l => u a l * Cconj (u c l))) by (intros; rewrite Cu; reflexivity).
          rewrite Hcomp by assumption. destruct (Nat.eqb_spec a c); [contradiction | reflexivity]. }
  unfold sandwich.
  transitivity (d a * Cconj (d c) * csum n (fun b => csum n (fun d' => v_minus_half n ev u a b * V b d' * Cconj (v_minus_half n ev u c d')))).
  - rewrite <- csum_mul_l. apply csum_ext. intros b Hb. rewrite <- csum_mul_l. apply csum_ext. intros d' Hd.
    rewrite !HM by assumption. rewrite Cconj_mul. ring.
  - rewrite T. ring.
Qed.

(** For complex (Hermitian) covariances the result stays correlated: the eigenvectors are transposed without
    conjugation. V = [[2, i], [-i, 2]] has eigenvalues 3 and 1. *)
Theorem v_half_complex_refuted :
  exists n (V : mat) (ev : nat -> R) (u H M W : mat) a c,
    is_eigh n V ev u /\ (forall l, (l < n)%nat -> (1 <= ev l)%R) /\
    (forall i, (i < n)%nat -> rowsum n (mmul n (v_minus_half n ev u) H) i <> C0) /\
    get_MW n H H "V^-1/2" false true H (v_minus_half n ev u) = Ok (M, W) /\
    (a < n)%nat /\ (c < n)%nat /\ a <> c /\ sandwich n M V a c <> C0.
Proof.
  set (s := (/ sqrt 2)%R).
  assert (Hs : (s * s = / 2)%R).
  { unfold s. rewrite <- Rinv_mult. rewrite sqrt_sqrt by lra. reflexivity. }
  set (d := (/ sqrt 3)%R).
  assert (Hd : (d * d = / 3)%R).
  { unfold d. rewrite <- Rinv_mult. rewrite sqrt_sqrt by lra. reflexivity. }
  assert (Hd0 : (0 < d)%R) by (apply Rinv_0_lt_compat, sqrt_lt_R0; lra).
  assert (Hd1 : (d < 1)%R).
  { destruct (Rlt_dec d 1); auto. assert (1 <= d)%R by lra. assert (1 <= d * d)%R by nra. lra. }
  set (u := (fun i l => match i, l with
             | O, _ => mkC s 0 | _, O => mkC 0 (- s) | _, _ => mkC 0 s end) : mat).
  set (V := (fun i j => match i, j with O, O => RtoC 2 | O, _ => Ci | _, O => (- Ci)%C | _, _ => RtoC 2 end) : mat).
  set (ev := (fun l => match l with O => 3 | _ => 1 end)%R : nat -> R).
  exists 2%nat, V, ev, u, eye.
  assert (Hvmh : forall i j, (i < 2)%nat -> (j < 2)%nat -> v_minus_half 2 ev u i j =
     match i, j with
     | O, O => mkC ((d + 1) / 2) 0 | O, _ => mkC 0 ((1 - d) / 2)
     | _, O => mkC 0 ((1 - d) / 2) | _, _ => mkC (- (d + 1) / 2) 0 end).
  { assert (E1 : (1 / sqrt 3 = d)%R) by (unfold d; field; pose proof (sqrt_lt_R0 3 ltac:(lra)); lra).
    intros i j Hi Hj. unfold v_minus_half. cbn [csum]. unfold ev.
    rewrite sqrt_1, E1.
    destruct i as [|[|i]]; [| | lia]; (destruct j as [|[|j]]; [| | lia]); unfold u; apply Ceq; cbn;
      try (transitivity (s * s * (d + 1))%R; [field | rewrite Hs; field]);
      try (transitivity (s * s * (1 - d))%R; [field | rewrite Hs; field]);
      try (transitivity (s * s * - (d + 1))%R; [field | rewrite Hs; field]); try field. }
  set (vmh := v_minus_half 2 ev u) in *.
  assert (Hrow : forall i, (i < 2)%nat -> rowsum 2 (mmul 2 vmh eye) i = vmh i 0%nat + vmh i 1%nat).
  { intros i Hi. unfold rowsum, mmul, eye. cbn [csum Nat.eqb]. ring. }
  assert (Hn : forall i, (i < 2)%nat -> rowsum 2 (mmul 2 vmh eye) i <> C0).
  { intros i Hi. rewrite Hrow, !Hvmh by lia. destruct i as [|[|i]]; [| | lia];
      intros E; apply (f_equal re) in E; cbn in E; lra. }
  do 2 eexists. exists 0%nat, 1%nat.
  split; [| split; [| split; [exact Hn | split; [reflexivity | split; [lia | split; [lia | split; [discriminate |]]]]]]].
  - split; [split |].
    + intros k l Hk Hl. destruct k as [|[|k]]; [| | lia]; (destruct l as [|[|l]]; [| | lia]); cbn [csum Nat.eqb];
        unfold u; apply Ceq; cbn; nra.
    + intros k l Hk Hl. destruct k as [|[|k]]; [| | lia]; (destruct l as [|[|l]]; [| | lia]); cbn [csum Nat.eqb];
        unfold u; apply Ceq; cbn; nra.
    + intros k l Hk Hl. destruct k as [|[|k]]; [| | lia]; (destruct l as [|[|l]]; [| | lia]); cbn [csum];
        unfold u, V, ev; apply Ceq; cbn; nra.
  - intros l Hl. unfold ev. destruct l; lra.
  - set (dd := fun i => C1 / rowsum 2 (mmul 2 vmh eye) i).
    assert (HM : forall i b, (i < 2)%nat -> mmul 2 (diag dd) vmh i b = dd i * vmh i b).
    { intros i b Hi. unfold mmul, diag. cbn [csum]. destruct i as [|[|i]]; [| | lia]; cbn [Nat.eqb]; ring. }
    assert (T : sandwich 2 (mmul 2 (diag dd) vmh) V 0%nat 1%nat = dd 0%nat * Cconj (dd 1%nat) * mkC 0 (- (4 / 3))).
    { unfold sandwich. cbn [csum]. rewrite !HM by lia. rewrite !Cconj_mul.
      transitivity (dd 0%nat * Cconj (dd 1%nat) *
        (vmh 0%nat 0%nat * V 0%nat 0%nat * Cconj (vmh 1%nat 0%nat) + vmh 0%nat 0%nat * V 0%nat 1%nat * Cconj (vmh 1%nat 1%nat)
         + vmh 0%nat 1%nat * V 1%nat 0%nat * Cconj (vmh 1%nat 0%nat) + vmh 0%nat 1%nat * V 1%nat 1%nat * Cconj (vmh 1%nat 1%nat))).
      - ring.
      - f_equal. rewrite !Hvmh by lia. unfold V. apply Ceq; cbn; [field |].
        transitivity (d * d / 2 - 3 / 2)%R; [field | rewrite Hd; field]. }
    rewrite T. intros E. apply Cmul_0_inv in E. destruct E as [E | E].
    + apply Cmul_0_inv in E. destruct E as [E | E].
      * unfold dd, Cdiv in E. apply Cmul_0_inv in E. destruct E as [E | E]; [exact (C1_neq0 E) |].
        apply (Hn 0%nat ltac:(lia)). rewrite <- (Cinv_0) in E.
        destruct (Ceqb_spec (rowsum 2 (mmul 2 vmh eye) 0%nat) C0) as [Z | Z]; [exact Z |].
        exfalso. apply C1_neq0. rewrite <- (Cinv_l _ Z), E, Cinv_0. ring.
      * apply (f_equal Cconj) in E. rewrite Cconj_conj, Cconj_0 in E.
        unfold dd, Cdiv in E. apply Cmul_0_inv in E. destruct E as [E | E]; [exact (C1_neq0 E) |].
        destruct (Ceqb_spec (rowsum 2 (mmul 2 vmh eye) 1%nat) C0) as [Z | Z]; [exact (Hn 1%nat ltac:(lia) Z) |].
        apply C1_neq0. rewrite <- (Cinv_l _ Z), E. ring.
    + injection E. lra.
Qed.

(** ** C35 part: cov_p_hat *)
Theorem cov_p_hat_real_M :
  forall n (M qc : mat), (forall i j, im (M i j) = 0%R) ->
    forall a c, cov_p_hat n M qc a c = csum n (fun b => csum n (fun d => M a b * qc b d * Cconj (M c d))).
Proof.
  intros n M qc HM a c. unfold cov_p_hat. apply csum_ext. intros b Hb. apply csum_ext. intros d Hd.
  replace (Cconj (M c d)) with (M c d) by (apply Ceq; cbn; rewrite ?HM; lra). ring.
Qed.
(** the documented M C M^dagger fails for complex M: the second factor is not conjugated *)
Theorem cov_p_hat_refuted :
  exists n (M qc : mat) a c,
    cov_p_hat n M qc a c <> csum n (fun b => csum n (fun d => M a b * qc b d * Cconj (M c d))).
Proof.
  exists 1%nat, (fun _ _ => Ci), (fun _ _ => C1), 0%nat, 0%nat. unfold cov_p_hat. cbn [csum].
  intros E. apply (f_equal re) in E. cbn in E. lra.
Qed.
