(** C32-C34, C61, C62: the quadratic estimator. *)
From Coq Require Import Reals Lra Lia String.
From Verif Require Import Prelude CNum OqeModel OqeProofs.
Open Scope R_scope.
Open Scope C_scope.

(** ** Specification *)
(** The delay transform of a spectrum of [n] channels at delay index [a] of [nd]: the delay index is
    centred, 0 is at [a = floor(nd / 2)]. *)
Definition delay_phase (nd a j : nat) : R :=
  (2 * PI * (INR a - INR (nd / 2)) * INR j / INR nd)%R.
Definition delay_transform (nd n a : nat) (x : vec) : C :=
  csum n (fun j => x j * mkC (cos (delay_phase nd a j)) (- sin (delay_phase nd a j))).
Definition half : C := RtoC (/ 2).

Lemma delay_transform_DT nd n a x : delay_transform nd n a x = DT nd n a x.
Proof.
  unfold delay_transform, DT, phi, Cexpi, delay_phase. apply csum_ext. intros. rewrite cos_neg, sin_neg. reflexivity.
Qed.

(** ** C32 *)

(** Both branches of q_hat return, for every delay and time, half the product of the (conjugated) delay
    transforms of the weighted data. *)
Theorem q_hat_is_delay_spectrum :
  forall nd nf ne keys1 keys2 allow_fft dt beam,
  exists q, q_hat nd nf ne keys1 keys2 allow_fft false dt beam = Ok q /\
    forall a t, (a < nd)%nat ->
      q a t = half * Cconj (delay_transform nd nf a (fun i => Rx ne keys1 i t))
                   * delay_transform nd nf a (fun i => Rx ne keys2 i t).
Proof.
  intros. destruct (q_hat_DT nd nf ne keys1 keys2 allow_fft dt beam) as (q & Hq & H).
  exists q. split; [assumption |]. intros a t Ha. rewrite H, !delay_transform_DT by assumption. unfold half. ring.
Qed.

Theorem q_hat_fft_equals_matrix :
  forall nd nf ne keys1 keys2 dt beam q q',
    q_hat nd nf ne keys1 keys2 true false dt beam = Ok q ->
    q_hat nd nf ne keys1 keys2 false false dt beam = Ok q' ->
    forall a t, (a < nd)%nat -> q a t = q' a t.
Proof.
  intros nd nf ne k1 k2 dt beam q q' H1 H2 a t Ha.
  destruct (q_hat_DT nd nf ne k1 k2 true dt beam) as (u & Hu & Eu).
  destruct (q_hat_DT nd nf ne k1 k2 false dt beam) as (v & Hv & Ev).
  rewrite H1 in Hu. rewrite H2 in Hv. injection Hu as <-. injection Hv as <-.
  rewrite Eu, Ev by assumption. reflexivity.
Qed.

Theorem q_hat_exact_norm_fft_refused :
  forall nd nf ne keys1 keys2 dt beam,
    q_hat nd nf ne keys1 keys2 true true dt beam = Err NotImplementedError.
Proof. reflexivity. Qed.

(** Q_alt: accepted modes, shape, and value: the outer product of one Fourier mode of unit modulus; the FFT
    shortcut and the phase correction change nothing. *)
Theorem Q_alt_accepts :
  forall mode nd nf allow_fft ext phase,
    ((0 <= mode < Z.of_nat nd)%Z ->
       exists Q, get_Q_alt mode nd nf allow_fft ext phase = Ok ((nf + ext)%nat, Q)) /\
    (~ (0 <= mode < Z.of_nat nd)%Z -> get_Q_alt mode nd nf allow_fft ext phase = Err IndexError).
Proof.
  intros. split; intros H.
  - destruct (get_Q_alt_ok mode nd nf allow_fft ext phase H) as (Q & HQ & _). eauto.
  - apply get_Q_alt_err. assumption.
Qed.

Theorem Q_alt_independent_of_method :
  forall mode nd nf fft1 fft2 ext ph1 ph2 n1 Q1 n2 Q2,
    get_Q_alt mode nd nf fft1 ext ph1 = Ok (n1, Q1) ->
    get_Q_alt mode nd nf fft2 ext ph2 = Ok (n2, Q2) ->
    n1 = n2 /\ forall i j, Q1 i j = Q2 i j.
Proof.
  intros mode nd nf f1 f2 ext p1 p2 n1 Q1 n2 Q2 H1 H2.
  assert (Hm : (0 <= mode < Z.of_nat nd)%Z).
  { destruct (Z_lt_dec mode 0); [rewrite get_Q_alt_err in H1 by lia; discriminate |].
    destruct (Z_lt_dec mode (Z.of_nat nd)); [lia |]. rewrite get_Q_alt_err in H1 by lia. discriminate. }
  destruct (get_Q_alt_ok mode nd nf f1 ext p1 Hm) as (U & HU & EU).
  destruct (get_Q_alt_ok mode nd nf f2 ext p2 Hm) as (V & HV & EV).
  rewrite H1 in HU. rewrite H2 in HV. injection HU as -> <-. injection HV as -> <-.
  split; [reflexivity |]. intros. rewrite EU, EV. reflexivity.
Qed.

Theorem Q_alt_structure :
  forall mode nd nf allow_fft ext phase n Q,
    get_Q_alt mode nd nf allow_fft ext phase = Ok (n, Q) ->
    (forall i j, Cconj (Q i j) = Q j i) /\                          (* Hermitian *)
    (forall i j k l, Q i j * Q k l = Q i l * Q k j) /\              (* rank one *)
    (forall i j, Cabs2 (Q i j) = 1%R) /\ (forall i, Q i i = C1) /\
    (forall i j, Q i j = mkC (cos (delay_phase nd (Z.to_nat mode) i - delay_phase nd (Z.to_nat mode) j))
                             (sin (delay_phase nd (Z.to_nat mode) i - delay_phase nd (Z.to_nat mode) j))).
Proof.
  intros mode nd nf f ext ph n Q H.
  assert (Hm : (0 <= mode < Z.of_nat nd)%Z).
  { destruct (Z_lt_dec mode 0); [rewrite get_Q_alt_err in H by lia; discriminate |].
    destruct (Z_lt_dec mode (Z.of_nat nd)); [lia |]. rewrite get_Q_alt_err in H by lia. discriminate. }
  destruct (get_Q_alt_ok mode nd nf f ext ph Hm) as (U & HU & EU). rewrite H in HU. injection HU as _ <-.
  split; [| split; [| split; [| split]]]; intros; rewrite ?EU.
  - rewrite Cconj_mul, Cconj_conj. ring.
  - ring.
  - rewrite Cabs2_mul, Cabs2_conj, !phi_abs. ring.
  - apply phi_conj.
  - unfold phi. rewrite <- Cexpi_opp, <- Cexpi_add. unfold Cexpi, delay_phase. f_equal; f_equal; ring.
Qed.

Theorem Q_alt_tensor_all_modes :
  forall nd nf allow_fft ext phase,
  exists Qs, get_Q_alt_tensor nd nf allow_fft ext phase = Ok Qs /\ List.length Qs = nd /\
    forall a, (a < nd)%nat -> exists nQ, nth_error Qs a = Some nQ /\
       get_Q_alt (Z.of_nat a) nd nf allow_fft ext phase = Ok nQ.
Proof.
  intros. unfold get_Q_alt_tensor.
  assert (G : forall l, (forall a, In a l -> (a < nd)%nat) ->
    exists Qs, map_res (fun a => get_Q_alt (Z.of_nat a) nd nf allow_fft ext phase) l = Ok Qs /\
       List.length Qs = List.length l /\
       forall k a, nth_error l k = Some a -> exists nQ, nth_error Qs k = Some nQ /\
            get_Q_alt (Z.of_nat a) nd nf allow_fft ext phase = Ok nQ).
  { induction l as [| a l IH]; intros Hl.
    - exists []. split; [reflexivity |]. split; [reflexivity |]. intros [|k] a; discriminate.
    - destruct IH as (Qs & E & L & N); [intros; apply Hl; right; assumption |].
      destruct (get_Q_alt_ok (Z.of_nat a) nd nf allow_fft ext phase) as (Q & HQ & _).
      { specialize (Hl a (or_introl eq_refl)). lia. }
      exists (((nf + ext)%nat, Q) :: Qs). cbn [map_res]. rewrite HQ, E. cbn [bind].
      split; [reflexivity |]. split; [cbn; lia |].
      intros [|k] b Hb; cbn in Hb |- *.
      + injection Hb as <-. eauto.
      + eauto. }
  destruct (G (seq 0 nd)) as (Qs & E & L & N).
  { intros a Ha. rewrite in_seq in Ha. lia. }
  exists Qs. split; [assumption |]. rewrite seq_length in L. split; [assumption |].
  intros a Ha. apply N. rewrite (nth_error_nth' _ O) by (rewrite seq_length; assumption).
  rewrite seq_nth by assumption. reflexivity.
Qed.

(** ** C33 *)

(** The response matrix of diagonal weightings (identity, flags, taper), with as many delays as channels:
    entry (i, j) is half the product of the transforms of the two weightings at the delay difference, and the
    row sums are N / 2 times the summed product of weights. *)
Theorem G_identity :
  forall n ph, (0 < n)%nat -> forall i j, (i < n)%nat -> (j < n)%nat ->
    get_G n n 0 ph eye eye ones i j = if Nat.eqb i j then RtoC (INR n * INR n / 2) else C0.
Proof.
  intros n ph Hn.
  assert (Hne : INR n <> 0%R) by (apply not_0_INR; lia).
  assert (B : forall i j, (i < n)%nat -> (j < n)%nat -> Bf n n n eye i j = if Nat.eqb i j then RtoC (INR n) else C0).
  { intros i j Hi Hj. change eye with (diag (fun _ => C1)). rewrite Bf_diag.
    rewrite <- phi_orth_a by assumption. apply csum_ext. intros. ring. }
  assert (Raw : forall i j, (i < n)%nat -> (j < n)%nat -> raw_response n n 0 ph eye eye ones ones i j
                = if Nat.eqb i j then RtoC (INR n * INR n) else C0).
  { intros i j Hi Hj. rewrite raw_G, Nat.add_0_r, B by assumption.
    destruct (Nat.eqb i j); rewrite ?Cconj_R, ?Cconj_0, ?RtoC_mul; ring. }
  intros i j Hi Hj. unfold get_G, response.
  rewrite (all_zerob_false n _ 0 0) by (try lia; rewrite Raw by lia; cbn [Nat.eqb]; apply RtoC_neq0; apply Rmult_integral_contrapositive_currified; assumption).
  rewrite Raw by assumption. rewrite Cdiv_R by lra.
  destruct (Nat.eqb i j).
  - rewrite <- RtoC_mul. f_equal. lra.
  - ring.
Qed.

Theorem G_row_sum :
  forall n ph (w1 w2 : vec),
    csum n (fun f => Cconj (w1 f) * w2 f) <> C0 ->
    forall i, (i < n)%nat ->
    rowsum n (get_G n n 0 ph (diag w1) (diag w2) ones) i
    = RtoC (INR n / 2) * csum n (fun f => Cconj (w1 f) * w2 f).
Proof.
  intros n ph w1 w2 Hs i Hi.
  assert (Hne : INR n <> 0%R) by (apply not_0_INR; lia).
  unfold rowsum, get_G, response.
  assert (Raw : csum n (fun j => raw_response n n 0 ph (diag w1) (diag w2) ones ones i j)
                = RtoC (INR n) * csum n (fun f => Cconj (w1 f) * w2 f)).
  { rewrite <- (rowsum_raw n w1 w2 i Hi). apply csum_ext. intros j Hj.
    rewrite raw_G, Nat.add_0_r by assumption. reflexivity. }
  destruct (all_zerob n _) eqn:Z.
  - exfalso. apply all_zerob_spec in Z.
    rewrite csum_zero in Raw by (intros j Hj; apply Z; assumption).
    symmetry in Raw. apply Cmul_0_inv in Raw. destruct Raw as [E | E]; [| tauto].
    apply (RtoC_neq0 _ Hne E).
  - transitivity (csum n (fun j => RtoC (/ 2) * raw_response n n 0 ph (diag w1) (diag w2) ones ones i j)).
    + apply csum_ext. intros. apply Cdiv_R. lra.
    + rewrite (csum_mul_l n (RtoC (/ 2)) (fun j => raw_response n n 0 ph (diag w1) (diag w2) ones ones i j)), Raw. unfold Rdiv. rewrite RtoC_mul. ring.
Qed.

(** Normalised band powers in mode I for any diagonal weighting: the cross-spectrum of the weighted data
    over N times the summed product of the weights; for identity weights this is the squared transform over N^2. *)
Theorem p_hat_mode_I :
  forall n ph (w1 w2 : vec) (x1 x2 : mat) allow_fft dt beam inv vmh cov,
    csum n (fun f => Cconj (w1 f) * w2 f) <> C0 ->
    exists q M W,
      q_hat n n n [(diag w1, x1)] [(diag w2, x2)] allow_fft false dt beam = Ok q /\
      get_MW n (get_G n n 0 ph (diag w1) (diag w2) ones) (get_H n n 0 ph (diag w1) (diag w2) ones false)
             "I" false cov inv vmh = Ok (M, W) /\
      forall a t, (a < n)%nat ->
        p_hat n M q a t * (RtoC (INR n) * csum n (fun f => Cconj (w1 f) * w2 f))
        = Cconj (delay_transform n n a (fun f => w1 f * x1 f t)) * delay_transform n n a (fun f => w2 f * x2 f t).
Proof.
  intros n ph w1 w2 x1 x2 fft dt beam inv vmh cov Hs.
  destruct (q_hat_DT n n n [(diag w1, x1)] [(diag w2, x2)] fft dt beam) as (q & Hq & Eq).
  exists q. eexists. eexists. split; [exact Hq |]. split; [reflexivity |].
  intros a t Ha. unfold p_hat, mmul.
  rewrite (csum_ext n _ (fun k => if Nat.eqb a k then
     C1 / rowsum n (get_G n n 0 ph (diag w1) (diag w2) ones) a * q k t else C0)).
  2:{ intros k Hk. unfold diag at 1. destruct (Nat.eqb a k); ring. }
  rewrite (csum_single_l n (fun k => C1 / rowsum n (get_G n n 0 ph (diag w1) (diag w2) ones) a * q k t)) by assumption.
  assert (HRx : forall (w : vec) (x : mat), DT n n a (fun i => Rx n [(diag w, x)] i t) = delay_transform n n a (fun f => w f * x f t)).
  { intros w x. rewrite delay_transform_DT. unfold DT. apply csum_ext. intros j Hj. f_equal.
    unfold Rx, mmul. cbn [map fold_right fst snd].
    rewrite (csum_ext n _ (fun k => if Nat.eqb j k then w j * x k t else C0)).
    - rewrite (csum_single_l n (fun k => w j * x k t)) by assumption. ring.
    - intros k Hk. unfold diag. destruct (Nat.eqb j k); ring. }
  rewrite Eq, !HRx by assumption.
  assert (Hne : INR n <> 0%R) by (apply not_0_INR; lia).
  rewrite G_row_sum by assumption.
  set (S := csum n (fun f => Cconj (w1 f) * w2 f)) in *.
  assert (Hd : RtoC (INR n / 2) * S <> C0).
  { intros E. apply Cmul_0_inv in E. destruct E; [| tauto]. apply RtoC_neq0 in H; [assumption | lra]. }
  transitivity (C1 / (RtoC (INR n / 2) * S) * (RtoC (INR n / 2) * S)
     * (Cconj (delay_transform n n a (fun f => w1 f * x1 f t)) * delay_transform n n a (fun f => w2 f * x2 f t))).
  - replace (RtoC (INR n)) with (RtoC (INR n / 2) * RtoC 2) by (rewrite <- RtoC_mul; f_equal; lra).
    transitivity (C1 / (RtoC (INR n / 2) * S) * (RtoC (INR n / 2) * S) * (RtoC 2 * RtoC (/ 2))
     * (Cconj (delay_transform n n a (fun f => w1 f * x1 f t)) * delay_transform n n a (fun f => w2 f * x2 f t))).
    + ring.
    + rewrite <- (RtoC_mul 2 (/ 2)). replace (2 * / 2)%R with 1%R by lra. change (RtoC 1) with C1. ring.
  - rewrite Cdiv_mul by assumption. ring.
Qed.

(** The estimator is unbiased up to its window function: over any finite weighted ensemble of data whose
    cross-correlation is that of band powers [p] (<x2 x1^dagger> = sum_b p_b Q_b), the mean of q_hat is
    G p, for any weightings, any number of delays and any filter extension. *)
Theorem q_hat_mean_is_response :
  forall nd nf ext ph (R1 R2 : mat) allow_fft dt beam
         (ns : nat) (pr : nat -> C) (x1 x2 : nat -> mat) (p : vec) t,
    (forall l m, (l < nf + ext)%nat -> (m < nf + ext)%nat ->
       csum ns (fun s => pr s * (x2 s l t * Cconj (x1 s m t)))
       = csum nd (fun b => p b * Qm nd nf true ext ph b l m)) ->
    (exists i j, (i < nd)%nat /\ (j < nd)%nat /\ raw_response nd nf ext ph R1 R2 ones ones i j <> C0) ->
    exists q : nat -> mat,
      (forall s, q_hat nd nf (nf + ext) [(R1, x1 s)] [(R2, x2 s)] allow_fft false dt beam = Ok (q s)) /\
      forall a, (a < nd)%nat ->
        csum ns (fun s => pr s * q s a t)
        = csum nd (fun b => get_G nd nf ext ph R1 R2 ones a b * p b).
Proof.
  intros nd nf ext ph R1 R2 fft dt beam ns pr x1 x2 p t HC (i0 & j0 & Hi0 & Hj0 & Hraw).
  set (ne := (nf + ext)%nat) in *.
  exists (fun s => match q_hat nd nf ne [(R1, x1 s)] [(R2, x2 s)] fft false dt beam with Ok q => q | Err _ => fun _ _ => C0 end).
  split.
  { intros s. destruct (q_hat_DT nd nf ne [(R1, x1 s)] [(R2, x2 s)] fft dt beam) as (q & -> & _). reflexivity. }
  intros a Ha.
  transitivity (csum ns (fun s => pr s * (RtoC (/ 2) *
     (csum ne (fun m => csum ne (fun l => csum nf (fun f => csum nf (fun f' =>
        Cconj (R1 f m) * Cconj (phi nd a f) * (phi nd a f' * R2 f' l) * (x2 s l t * Cconj (x1 s m t)))))))))).
  { apply csum_ext. intros s Hs.
    destruct (q_hat_DT nd nf ne [(R1, x1 s)] [(R2, x2 s)] fft dt beam) as (q & -> & E). rewrite E by assumption.
    f_equal. f_equal. unfold DT, Rx, mmul. cbn [map fold_right fst snd].
    transitivity (Cconj (csum ne (fun m => csum nf (fun f => R1 f m * phi nd a f * x1 s m t)))
                  * csum ne (fun l => csum nf (fun f' => phi nd a f' * R2 f' l * x2 s l t))).
    - f_equal.
      + f_equal. rewrite csum_swap. apply csum_ext. intros f Hf.
        transitivity (csum ne (fun k => R1 f k * x1 s k t) * phi nd a f); [ring |].
        rewrite <- csum_mul_r. apply csum_ext. intros. ring.
      + rewrite csum_swap. apply csum_ext. intros f Hf.
        transitivity (csum ne (fun k => R2 f k * x2 s k t) * phi nd a f); [ring |].
        rewrite <- csum_mul_r. apply csum_ext. intros. ring.
    - rewrite csum_conj, csum_prod. apply csum_ext. intros m Hm. apply csum_ext. intros l Hl.
      rewrite csum_conj, csum_prod. apply csum_ext. intros f Hf. apply csum_ext. intros f' Hf'.
      rewrite !Cconj_mul. ring. }
  transitivity (RtoC (/ 2) * csum ne (fun m => csum ne (fun l => csum nf (fun f => csum nf (fun f' =>
        Cconj (R1 f m) * Cconj (phi nd a f) * (phi nd a f' * R2 f' l)
        * csum nd (fun b => p b * Qm nd nf true ext ph b l m)))))).
  { rewrite (csum_ext ns _ (fun s => RtoC (/ 2) * csum ne (fun m => csum ne (fun l => csum nf (fun f => csum nf (fun f' =>
        Cconj (R1 f m) * Cconj (phi nd a f) * (phi nd a f' * R2 f' l) * (pr s * (x2 s l t * Cconj (x1 s m t)))))))) ).
    - rewrite csum_mul_l. f_equal. rewrite csum_swap. apply csum_ext. intros m Hm.
      rewrite csum_swap. apply csum_ext. intros l Hl. rewrite csum_swap. apply csum_ext. intros f Hf.
      rewrite csum_swap. apply csum_ext. intros f' Hf'. rewrite csum_mul_l, HC by assumption. reflexivity.
    - intros s Hs.
      transitivity (RtoC (/ 2) * (pr s * csum ne (fun m => csum ne (fun l => csum nf (fun f => csum nf (fun f' =>
        Cconj (R1 f m) * Cconj (phi nd a f) * (phi nd a f' * R2 f' l) * (x2 s l t * Cconj (x1 s m t)))))))); [ring |].
      f_equal. rewrite <- csum_mul_l. apply csum_ext. intros m Hm. rewrite <- csum_mul_l. apply csum_ext. intros l Hl.
      rewrite <- csum_mul_l. apply csum_ext. intros f Hf. rewrite <- csum_mul_l. apply csum_ext. intros f' Hf'. ring. }
  transitivity (csum nd (fun b => RtoC (/ 2) * raw_response nd nf ext ph R1 R2 ones ones a b * p b)).
  2:{ apply csum_ext. intros b Hb. f_equal. unfold get_G, response.
      rewrite (all_zerob_false nd _ i0 j0 Hi0 Hj0 Hraw). symmetry. apply Cdiv_R. lra. }
  rewrite <- csum_mul_l.
  transitivity (csum nd (fun b => csum ne (fun m => RtoC (/ 2) * csum ne (fun l => csum nf (fun f => csum nf (fun f' =>
        Cconj (R1 f m) * Cconj (phi nd a f) * (phi nd a f' * R2 f' l) * (p b * Qm nd nf true ext ph b l m))))))).
  - symmetry. rewrite csum_swap. apply csum_ext. intros m Hm. rewrite csum_mul_l. f_equal.
    rewrite csum_swap. apply csum_ext. intros l Hl. rewrite csum_swap. apply csum_ext. intros f Hf.
    rewrite csum_swap. apply csum_ext. intros f' Hf'. rewrite csum_mul_l. reflexivity.
  - apply csum_ext. intros b Hb. rewrite csum_mul_l.
    transitivity (RtoC (/ 2) * p b * raw_response nd nf ext ph R1 R2 ones ones a b); [| ring].
    rewrite raw_G by assumption. fold ne. unfold Bf.
    transitivity (RtoC (/ 2) * p b * csum ne (fun m => csum ne (fun l => csum nf (fun f => csum nf (fun f' =>
        Cconj (R1 f m) * Cconj (phi nd a f) * (phi nd a f' * R2 f' l) * Qm nd nf true ext ph b l m))))).
    + transitivity (RtoC (/ 2) * (p b * csum ne (fun m => csum ne (fun l => csum nf (fun f => csum nf (fun f' =>
        Cconj (R1 f m) * Cconj (phi nd a f) * (phi nd a f' * R2 f' l) * Qm nd nf true ext ph b l m)))))); [| ring].
      f_equal. rewrite <- csum_mul_l. apply csum_ext. intros m Hm. rewrite <- csum_mul_l. apply csum_ext. intros l Hl.
      rewrite <- csum_mul_l. apply csum_ext. intros f Hf. rewrite <- csum_mul_l. apply csum_ext. intros f' Hf'. ring.
    + f_equal. rewrite csum_conj.
      transitivity (csum nf (fun f => csum ne (fun m => Cconj (phi nd a f * R1 f m * Cconj (phi nd b m))))
                    * csum nf (fun f' => csum ne (fun l => phi nd a f' * R2 f' l * Cconj (phi nd b l)))).
      2:{ f_equal. apply csum_ext. intros f Hf. symmetry. apply csum_conj. }
      rewrite (csum_swap nf ne (fun f m => Cconj (phi nd a f * R1 f m * Cconj (phi nd b m)))).
      rewrite (csum_swap nf ne (fun f' l => phi nd a f' * R2 f' l * Cconj (phi nd b l))).
      rewrite csum_prod. apply csum_ext. intros m Hm. apply csum_ext. intros l Hl.
      rewrite csum_prod. apply csum_ext. intros f Hf. apply csum_ext. intros f' Hf'.
      rewrite Qm_phi, !Cconj_mul, Cconj_conj by assumption. ring.
Qed.

(** Hence a flat power spectrum is recovered exactly by mode-I band powers. *)
Theorem p_hat_flat_spectrum_unbiased :
  forall nd nf ext ph (R1 R2 : mat) allow_fft dt beam H inv vmh cov
         (ns : nat) (pr : nat -> C) (x1 x2 : nat -> mat) (p0 : C) t,
    (forall l m, (l < nf + ext)%nat -> (m < nf + ext)%nat ->
       csum ns (fun s => pr s * (x2 s l t * Cconj (x1 s m t)))
       = csum nd (fun b => p0 * Qm nd nf true ext ph b l m)) ->
    (exists i j, (i < nd)%nat /\ (j < nd)%nat /\ raw_response nd nf ext ph R1 R2 ones ones i j <> C0) ->
    exists (q : nat -> mat) M W,
      (forall s, q_hat nd nf (nf + ext) [(R1, x1 s)] [(R2, x2 s)] allow_fft false dt beam = Ok (q s)) /\
      get_MW nd (get_G nd nf ext ph R1 R2 ones) H "I" false cov inv vmh = Ok (M, W) /\
      forall a, (a < nd)%nat -> rowsum nd (get_G nd nf ext ph R1 R2 ones) a <> C0 ->
        csum ns (fun s => pr s * p_hat nd M (q s) a t) = p0.
Proof.
  intros nd nf ext ph R1 R2 fft dt beam H inv vmh cov ns pr x1 x2 p0 t HC HG.
  destruct (q_hat_mean_is_response nd nf ext ph R1 R2 fft dt beam ns pr x1 x2 (fun _ => p0) t HC HG) as (q & Hq & E).
  exists q. eexists. eexists. split; [exact Hq |]. split; [reflexivity |].
  intros a Ha Hrow.
  set (G := get_G nd nf ext ph R1 R2 ones) in *.
  transitivity (C1 / rowsum nd G a * csum ns (fun s => pr s * q s a t)).
  - rewrite <- csum_mul_l. apply csum_ext. intros s Hs. unfold p_hat, mmul.
    rewrite (csum_ext nd _ (fun k => if Nat.eqb a k then C1 / rowsum nd G a * q s k t else C0)).
    + rewrite (csum_single_l nd (fun k => C1 / rowsum nd G a * q s k t)) by assumption. ring.
    + intros k Hk. unfold diag. destruct (Nat.eqb a k); ring.
  - rewrite E by assumption. rewrite csum_mul_r. 
    transitivity (C1 / rowsum nd G a * (rowsum nd G a * p0)); [reflexivity |].
    transitivity (C1 / rowsum nd G a * rowsum nd G a * p0); [ring |]. rewrite Cdiv_mul by assumption. ring.
Qed.

(** Window functions: the rows of W sum to one in every supported mode, whenever numpy's divisions are by
    non-zero numbers. *)
Theorem window_rows_sum_to_one :
  forall n G H mode exact cov inv vmh M W,
    get_MW n G H mode exact cov inv vmh = Ok (M, W) ->
    forall a, (a < n)%nat ->
      (mode = "I"%string -> rowsum n H a <> C0) ->
      (mode = "H^-1"%string -> rowsum n (mmul n inv H) a <> C0) ->
      (mode = "V^-1/2"%string -> rowsum n (mmul n vmh H) a <> C0) ->
      csum n (fun b => W a b) = C1.
Proof.
  intros n G H mode exact cov inv vmh M W E a Ha H1 H2 H3. unfold get_MW in E.
  destruct (negb _); [discriminate |]. destruct (_ && exact)%bool; [discriminate |].
  assert (D : forall (d : vec) (B : mat), csum n (fun b => mmul n (diag d) B a b) = d a * rowsum n B a).
  { intros d B. unfold mmul, rowsum.
    rewrite (csum_ext n _ (fun b => d a * B a b)).
    - apply csum_mul_l.
    - intros b Hb. rewrite (csum_ext n _ (fun k => if Nat.eqb a k then d a * B k b else C0)).
      + apply (csum_single_l n (fun k => d a * B k b)). assumption.
      + intros k Hk. unfold diag. destruct (Nat.eqb a k); ring. }
  destruct (String.eqb_spec mode "H^-1").
  - injection E as <- <-. specialize (H2 e).
    rewrite (csum_ext n _ (fun b => mmul n inv H a b * Cinv (rowsum n (mmul n inv H) a))).
    + rewrite csum_mul_r. apply Cinv_r. assumption.
    + intros. reflexivity.
  - destruct (String.eqb_spec mode "V^-1/2").
    + destruct cov; [| discriminate]. injection E as <- <-. specialize (H3 e).
      set (d := fun i => C1 / rowsum n (mmul n vmh H) i).
      transitivity (d a * rowsum n (mmul n vmh H) a).
      * rewrite <- D. apply csum_ext. intros b Hb.
        (* associativity *)
        unfold mmul. rewrite (csum_ext n _ (fun k => csum n (fun l => diag d a l * vmh l k * H k b))).
        2:{ intros. symmetry. apply csum_mul_r. }
        rewrite csum_swap. apply csum_ext. intros l Hl. rewrite <- csum_mul_l. apply csum_ext. intros k Hk. ring.
      * unfold d. apply Cdiv_mul. assumption.
    + destruct (String.eqb_spec mode "I"); [| discriminate].
      injection E as <- <-. rewrite D. apply Cdiv_mul. auto.
Qed.

(** Which calls of get_MW are accepted. *)
Theorem get_MW_accepts :
  forall n G H mode exact cov inv vmh,
    (exists MW, get_MW n G H mode exact cov inv vmh = Ok MW) <->
    (mode = "I" \/ (mode = "H^-1" /\ exact = false) \/ (mode = "V^-1/2" /\ exact = false /\ cov = true))%string.
Proof.
  intros. unfold get_MW. split.
  - intros (MW & E). cbn [existsb] in E.
    destruct (String.eqb_spec mode "H^-1"); [subst; cbn in E; destruct exact; [discriminate | tauto] |].
    destruct (String.eqb_spec mode "V^-1/2"); [subst; cbn in E; destruct exact; [discriminate |]; destruct cov; [tauto | discriminate] |].
    destruct (String.eqb_spec mode "I"); [tauto |]. cbn [orb andb negb] in E.
    destruct (String.eqb mode "L^-1"); cbn in E; try discriminate.
    destruct exact; discriminate.
  - intros [-> | [[-> ->] | [-> [-> ->]]]]; cbn; eauto.
Qed.

(** Completely zero weights (a fully flagged pair): G is replaced by half the identity and the band powers
    are zero instead of undefined. *)
Theorem fully_flagged_gives_zero :
  forall nd nf ext ph (R1 R2 : mat) (x1 x2 : mat) allow_fft dt beam H inv vmh cov,
    (forall f e, (f < nf)%nat -> (e < nf + ext)%nat -> R1 f e = C0) ->
    exists q M W,
      q_hat nd nf (nf + ext) [(R1, x1)] [(R2, x2)] allow_fft false dt beam = Ok q /\
      get_MW nd (get_G nd nf ext ph R1 R2 ones) H "I" false cov inv vmh = Ok (M, W) /\
      (forall a, (a < nd)%nat -> rowsum nd (get_G nd nf ext ph R1 R2 ones) a <> C0) /\
      forall a t, (a < nd)%nat -> p_hat nd M q a t = C0.
Proof.
  intros nd nf ext ph R1 R2 x1 x2 fft dt beam H inv vmh cov HR.
  destruct (q_hat_DT nd nf (nf + ext) [(R1, x1)] [(R2, x2)] fft dt beam) as (q & Hq & E).
  exists q. eexists. eexists. split; [exact Hq |]. split; [reflexivity |]. split.
  - intros a Ha. unfold rowsum, get_G, response.
    replace (all_zerob nd _) with true.
    + rewrite (csum_ext nd _ (fun j => if Nat.eqb a j then RtoC (/ 2) else C0)).
      * rewrite (csum_single_l nd (fun _ => RtoC (/ 2))) by assumption. apply RtoC_neq0. lra.
      * intros j Hj. rewrite Cdiv_R by lra. unfold eye. destruct (Nat.eqb a j); ring.
    + symmetry. apply all_zerob_spec. intros i j Hi Hj. rewrite raw_G by assumption.
      replace (Bf nd nf (nf + ext) R1 i j) with C0; [rewrite Cconj_0; ring |].
      symmetry. unfold Bf. apply csum_zero. intros f Hf. apply csum_zero. intros e He. rewrite HR by assumption. ring.
  - intros a t Ha. unfold p_hat, mmul. apply csum_zero. intros k Hk. rewrite E by assumption.
    replace (DT nd nf k (fun i => Rx (nf + ext) [(R1, x1)] i t)) with C0; [rewrite Cconj_0; ring |].
    symmetry. unfold DT. apply csum_zero. intros j Hj. unfold Rx, mmul. cbn [map fold_right fst snd].
    rewrite csum_zero; [ring |]. intros e He. rewrite HR by assumption. ring.
Qed.
Print Assumptions q_hat_is_delay_spectrum.
Print Assumptions p_hat_flat_spectrum_unbiased.

(** A concrete case: two channels, identity weights. *)
Example G_two_channels :
  get_G 2 2 0 0%R eye eye ones 0%nat 0%nat = RtoC 2 /\ get_G 2 2 0 0%R eye eye ones 0%nat 1%nat = C0.
Proof.
  rewrite !G_identity by lia. cbn [Nat.eqb]. split; [| reflexivity]. f_equal. cbn. lra.
Qed.

(** White noise of power [p0] meets the hypotheses of [p_hat_flat_spectrum_unbiased]: the ensemble of the n
    unit vectors, each with weight [n p0]. *)
Example white_noise_is_flat (n : nat) (p0 : C) (Hn : (0 < n)%nat) :
  (forall l m, (l < n + 0)%nat -> (m < n + 0)%nat ->
     csum n (fun s => RtoC (INR n) * p0 * (eye s l * Cconj (eye s m)))
     = csum n (fun b => p0 * Qm n n true 0 0 b l m)) /\
  (exists i j, (i < n)%nat /\ (j < n)%nat /\ raw_response n n 0 0 eye eye ones ones i j <> C0) /\
  (forall a, (a < n)%nat -> rowsum n (get_G n n 0 0 eye eye ones) a <> C0).
Proof.
  assert (Hne : INR n <> 0%R) by (apply not_0_INR; lia).
  split; [| split].
  - intros l m Hl Hm. rewrite Nat.add_0_r in Hl, Hm.
    rewrite (csum_ext n (fun b => p0 * Qm n n true 0 0 b l m) (fun b => p0 * Cconj (phi n b l * Cconj (phi n b m)))).
    2:{ intros b Hb. rewrite Qm_phi, Cconj_mul, Cconj_conj by assumption. reflexivity. }
    rewrite (csum_mul_l n p0 (fun b => Cconj (phi n b l * Cconj (phi n b m)))), <- (csum_conj n (fun b => phi n b l * Cconj (phi n b m))), phi_orth_e by assumption.
    rewrite (csum_ext n _ (fun s => if Nat.eqb s l then RtoC (INR n) * p0 * Cconj (eye s m) else C0)).
    2:{ intros s Hs. unfold eye at 1. destruct (Nat.eqb s l); ring. }
    rewrite (csum_single_r n (fun s => RtoC (INR n) * p0 * Cconj (eye s m))) by assumption.
    unfold eye. destruct (Nat.eqb l m); rewrite ?Cconj_R, ?Cconj_1, ?Cconj_0; ring.
  - exists O, O. split; [assumption |]. split; [assumption |]. rewrite raw_G, Nat.add_0_r by assumption.
    change eye with (diag (fun _ => C1)). rewrite Bf_diag.
    rewrite (csum_ext n _ (fun f => phi n 0 f * Cconj (phi n 0 f))) by (intros; ring).
    rewrite phi_orth_a by assumption. cbn [Nat.eqb]. rewrite Cconj_R, <- RtoC_mul. apply RtoC_neq0.
    apply Rmult_integral_contrapositive_currified; assumption.
  - intros a Ha. change eye with (diag (fun _ => C1)).
    assert (S : csum n (fun f : nat => Cconj ((fun _ : nat => C1) f) * (fun _ : nat => C1) f) = RtoC (INR n)).
    { cbv beta. rewrite (csum_ext n _ (fun _ => C1)) by (intros; rewrite Cconj_1; ring). rewrite csum_const. ring. }
    rewrite G_row_sum; [| rewrite S; apply RtoC_neq0; assumption | assumption].
    rewrite S, <- RtoC_mul. apply RtoC_neq0. apply Rmult_integral_contrapositive_currified; [lra | assumption].
Qed.
