(** Approximate delay-delay covariance (add_approximate_covariance) and system temperatures (uvd_to_Tsys). *)
From Coq Require Import String.
From Coq Require Import Reals Lra.
From Verif Require Import Prelude ListLemmas PyDict CNum NoiseModel.
Open Scope R_scope.

Fixpoint nsum (n : nat) (f : nat -> R) : R := match n with O => 0 | S m => nsum m f + f m end.
Lemma nsum_csum n f : csum n (fun i => RtoC (f i)) = RtoC (nsum n f).
Proof. induction n as [| n IH]; cbn [csum nsum]; [reflexivity |]. rewrite IH, RtoC_add. reflexivity. Qed.
Lemma nsum_nonneg n f : (forall i, (i < n)%nat -> 0 <= f i) -> 0 <= nsum n f.
Proof. induction n as [| n IH]; cbn; intros H; [lra |]. assert (0 <= nsum n f) by (apply IH; intros; apply H; lia). pose proof (H n ltac:(lia)). lra. Qed.
Lemma nsum_le n f g : (forall i, (i < n)%nat -> f i <= g i) -> nsum n f <= nsum n g.
Proof. induction n as [| n IH]; cbn; intros H; [lra |]. assert (nsum n f <= nsum n g) by (apply IH; intros; apply H; lia). pose proof (H n ltac:(lia)). lra. Qed.
Lemma nsum_pos n f j : (forall i, (i < n)%nat -> 0 <= f i) -> (j < n)%nat -> 0 < f j -> 0 < nsum n f.
Proof.
  induction n as [| n IH]; cbn; intros H Hj P; [lia |]. destruct (Nat.eq_dec j n) as [-> | NE].
  - assert (0 <= nsum n f) by (apply nsum_nonneg; intros; apply H; lia). lra.
  - assert (0 < nsum n f) by (apply IH; [intros; apply H; lia | lia | assumption]). pose proof (H n ltac:(lia)). lra.
Qed.
Lemma nsum_scal n c f : nsum n (fun i => f i * c) = nsum n f * c.
Proof. induction n as [| n IH]; cbn; [ring |]. rewrite IH. ring. Qed.
Lemma csum_re_nsum n f : re (csum n f) = nsum n (fun i => re (f i)).
Proof. induction n as [| n IH]; cbn; [reflexivity |]. rewrite IH. reflexivity. Qed.

(** |sum x_f e_f| <= sum x_f for non-negative x and phases e *)
Lemma phase_sum_bound n x e : (forall f, (f < n)%nat -> 0 <= x f) -> (forall f, Cabs2 (e f) = 1) ->
  Cabs2 (csum n (fun f => RtoC (x f) * e f)%C) <= nsum n x ^ 2.
Proof.
  intros Hx He. set (z := csum n _). set (m := sqrt (Cabs2 z)). pose proof (Cabs2_nonneg z) as Nz. assert (Mm : m * m = Cabs2 z) by (apply sqrt_sqrt; assumption).
  assert (M0 : 0 <= m) by apply sqrt_pos. assert (S0 : 0 <= nsum n x) by (apply nsum_nonneg; assumption).
  assert (CS : forall w, Cabs2 w = 1 -> re (Cconj z * w)%C <= m).
  { intros w Hw. destruct (Rle_lt_dec (re (Cconj z * w)%C) 0); [lra |]. apply Rsqr_incr_0_var; [| assumption]. unfold Rsqr. rewrite Mm. unfold Cabs2 in *. cbn in *.
    pose proof (Rle_0_sqr (re z * im w - im z * re w)) as Q. unfold Rsqr in Q. nra. }
  assert (L : m * m <= nsum n x * m).
  { rewrite Mm. assert (E : Cabs2 z = nsum n (fun f => re (Cconj z * (RtoC (x f) * e f))%C)).
    { rewrite <- csum_re_nsum, csum_mul_l. fold z. rewrite Cmul_conj. reflexivity. }
    rewrite E, <- nsum_scal. apply nsum_le. intros f Hf. replace (re (Cconj z * (RtoC (x f) * e f))%C) with (x f * re (Cconj z * e f)%C) by (cbn; ring).
    apply Rmult_le_compat_l; [apply Hx; assumption | apply CS, He]. }
  destruct (Req_dec m 0) as [Z | NZ]; [rewrite <- Mm, Z; pose proof (pow2_ge_0 (nsum n x)); lra |].
  assert (m <= nsum n x) by (apply (Rmult_le_reg_r m); lra). rewrite <- Mm. cbn. nra.
Qed.

Section W.
Variables (n : nat) (w : nat -> R).
Hypothesis Hn : (0 < n)%nat.
Let x := fun f => w f ^ 2.
Let Np : 0 < INR n. Proof. apply lt_0_INR. assumption. Qed.
Let xpos f : 0 <= x f. Proof. apply pow2_ge_0. Qed.

Lemma dft_period k q : dft n x (k + Z.of_nat n * q) = dft n x k.
Proof.
  unfold dft. apply csum_ext. intros f Hf. f_equal.
  replace (- (2 * PI * IZR (k + Z.of_nat n * q) / INR n * INR f)) with (- (2 * PI * IZR k / INR n * INR f) + 2 * PI * IZR (- (q * Z.of_nat f))).
  - apply Cexpi_period.
  - rewrite plus_IZR, mult_IZR, opp_IZR, mult_IZR, <- ! INR_IZR_INZ. field. lra.
Qed.
Lemma dft_mod k : dft n x (k mod Z.of_nat n) = dft n x k.
Proof. rewrite (Z_div_mod_eq_full k (Z.of_nat n)) at 2. rewrite Z.add_comm. symmetry. apply dft_period. Qed.
Lemma dft_opp k : dft n x (- k) = Cconj (dft n x k).
Proof.
  unfold dft. rewrite csum_conj. apply csum_ext. intros f Hf. rewrite Cconj_mul, Cconj_R, <- Cexpi_opp. do 2 f_equal. rewrite opp_IZR. field. lra.
Qed.
Lemma dft_0 : dft n x 0 = RtoC (nsum n x).
Proof.
  unfold dft. rewrite <- nsum_csum. apply csum_ext. intros f Hf. replace (- (2 * PI * 0 / INR n * INR f)) with 0 by (field; lra). rewrite Cexpi_0. apply Ceq; cbn; ring.
Qed.
Lemma cov_0 : delay_cov n w 0 = nsum n x ^ 2.
Proof. unfold delay_cov. fold x. rewrite dft_0. unfold Cabs2. cbn. ring. Qed.
Lemma cov_le k : delay_cov n w k <= delay_cov n w 0.
Proof. rewrite cov_0. unfold delay_cov, dft. fold x. apply phase_sum_bound; [intros; apply xpos | intros; apply Cexpi_abs]. Qed.
Lemma rmax_0 m : rmax m (fun k => delay_cov n w (Z.of_nat k)) = delay_cov n w 0.
Proof. induction m as [| m IH]; [reflexivity |]. cbn [rmax]. rewrite IH. apply Rmax_left, cov_le. Qed.
Lemma cov_nonneg k : 0 <= delay_cov n w k. Proof. apply Cabs2_nonneg. Qed.

(** the covariance of two delay transforms of white noise seen through the taper: sum_f w_f^2 exp(-2 pi i (tau_i - tau_j) f / n) *)
Definition transform_cov (i j : nat) : C := csum n (fun f => RtoC (w f ^ 2) * Cexpi (- (2 * PI * (INR i - INR j) / INR n * INR f)))%C.
Lemma transform_dft i j : transform_cov i j = dft n x (Z.of_nat i - Z.of_nat j).
Proof. unfold transform_cov, dft. apply csum_ext. intros f Hf. rewrite minus_IZR, <- ! INR_IZR_INZ. reflexivity. Qed.

Section NZ.
Variable f0 : nat.
Hypothesis Hf0 : (f0 < n)%nat.
Hypothesis Hw0 : w f0 <> 0.
Lemma total_pos : 0 < nsum n x.
Proof. apply (nsum_pos n x f0); [intros; apply xpos | assumption |]. unfold x. destruct (pow2_ge_0 (w f0)) as [H | H]; [assumption |]. exfalso. apply Hw0, Rsqr_0_uniq. unfold Rsqr. rewrite H. ring. Qed.
Lemma cov0_pos : 0 < delay_cov n w 0.
Proof. rewrite cov_0. apply pow_lt, total_pos. Qed.
Lemma corr_value i j : corr_matrix n w i j = delay_cov n w (Z.of_nat i - Z.of_nat j) / delay_cov n w 0.
Proof. unfold corr_matrix. rewrite rmax_0. f_equal. unfold delay_cov. fold x. rewrite dft_mod. reflexivity. Qed.

(** The entries are the squared correlation coefficients of the two delay modes. *)
Theorem corr_is_correlation : forall i j,
  corr_matrix n w i j = Cabs2 (transform_cov i j) / (re (transform_cov i i) * re (transform_cov j j)) /\
  corr_matrix n w i i = 1 /\ 0 <= corr_matrix n w i j <= 1 /\ corr_matrix n w i j = corr_matrix n w j i.
Proof.
  intros i j. pose proof cov0_pos as P. assert (D : forall i, transform_cov i i = RtoC (nsum n x)) by (intros k; rewrite transform_dft, Z.sub_diag; apply dft_0).
  split; [| split; [| split]].
  - rewrite corr_value, ! D, transform_dft, cov_0. unfold delay_cov. fold x. f_equal. cbn. ring.
  - rewrite corr_value, Z.sub_diag. field. lra.
  - rewrite corr_value. split; [apply Rmult_le_pos; [apply cov_nonneg | apply Rlt_le, Rinv_0_lt_compat; assumption] |].
    apply (Rmult_le_reg_r (delay_cov n w 0)); [assumption |]. unfold Rdiv. rewrite Rmult_assoc, Rinv_l by lra. pose proof (cov_le (Z.of_nat i - Z.of_nat j)). lra.
  - rewrite ! corr_value. f_equal. unfold delay_cov. fold x. replace (Z.of_nat j - Z.of_nat i)%Z with (- (Z.of_nat i - Z.of_nat j))%Z by lia. rewrite dft_opp. unfold Cabs2. cbn. ring.
Qed.

(** positive semi-definiteness *)
Lemma abs2_double (y : nat -> R) (ph : nat -> R) m :
  RtoC (Cabs2 (csum m (fun f => RtoC (y f) * Cexpi (ph f))%C)) = csum m (fun g => csum m (fun f => RtoC (y f * y g) * Cexpi (ph f - ph g)))%C.
Proof.
  rewrite <- Cmul_conj, csum_conj, <- csum_mul_r. apply csum_ext. intros g Hg. rewrite <- csum_mul_l. apply csum_ext. intros f Hf.
  rewrite Cconj_mul, Cconj_R, <- Cexpi_opp. replace (ph f - ph g)%R with (ph f + - ph g)%R by ring. rewrite Cexpi_add, RtoC_mul. ring.
Qed.
Lemma csum_rot m1 m2 m3 (K : nat -> nat -> nat -> C) :
  csum m1 (fun i => csum m2 (fun j => csum m3 (fun g => K i j g))) = csum m3 (fun g => csum m1 (fun i => csum m2 (fun j => K i j g))).
Proof.
  rewrite (csum_ext m1 _ (fun i => csum m3 (fun g => csum m2 (fun j => K i j g)))) by (intros; apply csum_swap). apply csum_swap.
Qed.
(** for every real vector v on m delay bins, sum_ij v_i v_j corr_ij >= 0 *)
Definition quad (m : nat) (v : nat -> R) (c : nat -> nat -> R) : R := nsum m (fun i => nsum m (fun j => v i * v j * c i j)).
Lemma quad_cov m v : quad m v (fun i j => delay_cov n w (Z.of_nat i - Z.of_nat j)) =
  nsum n (fun g => nsum n (fun f => x f * x g * Cabs2 (csum m (fun i => RtoC (v i) * Cexpi (- (2 * PI * INR i / INR n * (INR f - INR g)))))%C)).
Proof.
  assert (I : forall a b, RtoC a = RtoC b -> a = b) by (intros a b E; exact (f_equal re E)). apply I. unfold quad.
  rewrite <- ! nsum_csum.
  rewrite (csum_ext m _ (fun i => csum m (fun j => csum n (fun g => csum n (fun f => RtoC (v i * v j) * (RtoC (x f * x g) * Cexpi (- (2 * PI * (INR i - INR j) / INR n * (INR f - INR g)))))))))%C.
  2: { intros i Hi. rewrite <- nsum_csum. apply csum_ext. intros j Hj. rewrite RtoC_mul. unfold delay_cov, dft. rewrite (abs2_double x (fun f => - (2 * PI * IZR (Z.of_nat i - Z.of_nat j) / INR n * INR f))).
       rewrite <- csum_mul_l. apply csum_ext. intros g Hg. rewrite <- csum_mul_l. apply csum_ext. intros f Hf. do 3 f_equal. rewrite minus_IZR, <- ! INR_IZR_INZ. field. lra. }
  rewrite csum_rot. apply csum_ext. intros g Hg. rewrite csum_rot, <- nsum_csum. apply csum_ext. intros f Hf.
  rewrite (RtoC_mul (x f * x g)), (abs2_double v (fun i => - (2 * PI * INR i / INR n * (INR f - INR g)))), csum_swap, <- csum_mul_l. apply csum_ext. intros j Hj. rewrite <- csum_mul_l. apply csum_ext. intros i Hi.
  replace (- (2 * PI * INR i / INR n * (INR f - INR g)) - - (2 * PI * INR j / INR n * (INR f - INR g)))%R with (- (2 * PI * (INR i - INR j) / INR n * (INR f - INR g)))%R by (field; lra).
  rewrite ! RtoC_mul. ring.
Qed.
Theorem corr_positive_semidefinite : forall m v, 0 <= quad m v (corr_matrix n w).
Proof.
  intros m v. pose proof cov0_pos as P.
  assert (E : quad m v (corr_matrix n w) = quad m v (fun i j => delay_cov n w (Z.of_nat i - Z.of_nat j)) * / delay_cov n w 0).
  { unfold quad. rewrite <- nsum_scal. assert (X : forall k f g, (forall i, f i = g i) -> nsum k f = nsum k g) by (intros k f g H; induction k; cbn; [reflexivity | rewrite IHk, H; reflexivity]).
    apply X. intros i. rewrite <- nsum_scal. apply X. intros j. rewrite corr_value. unfold Rdiv. ring. }
  rewrite E, quad_cov. apply Rmult_le_pos; [| apply Rlt_le, Rinv_0_lt_compat; assumption].
  apply nsum_nonneg. intros g Hg. apply nsum_nonneg. intros f Hf. apply Rmult_le_pos; [apply Rmult_le_pos; apply xpos | apply Cabs2_nonneg].
Qed.
(** The covariance added to an object: the variances are the squares of the error bars, it is symmetric and positive semi-definite,
    and no covariance exceeds what the two error bars allow. *)
Theorem approx_covariance :
  forall pn c, approx_cov n n w pn = Ok c ->
    forall i j, c i i = pn i ^ 2 /\ c i j = c j i /\ Rabs (c i j) <= Rabs (pn i) * Rabs (pn j) /\ forall m v, 0 <= quad m v c.
Proof.
  intros pn c H i j. unfold approx_cov in H. rewrite Nat.eqb_refl in H. cbn in H. injection H as <-. destruct (corr_is_correlation i j) as (_ & D & B & S). split; [rewrite D; ring |]. split; [rewrite S; ring |]. split.
  - rewrite ! Rabs_mult, (Rabs_pos_eq (corr_matrix n w i j)) by tauto. rewrite <- (Rmult_1_r (Rabs (pn i) * Rabs (pn j))) at 2. apply Rmult_le_compat_l; [apply Rmult_le_pos; apply Rabs_pos | tauto].
  - intros m v. assert (E : quad m v (fun i j => pn i * pn j * corr_matrix n w i j) = quad m (fun i => v i * pn i) (corr_matrix n w)).
    { unfold quad. assert (X : forall k f g, (forall i, f i = g i) -> nsum k f = nsum k g) by (intros k f g H; induction k; cbn; [reflexivity | rewrite IHk, H; reflexivity]).
      apply X. intros a. apply X. intros b. ring. }
    rewrite E. apply corr_positive_semidefinite.
Qed.
End NZ.
End W.
(** It can be added exactly when there are as many delays as channels; a folded object (about half the delays) is refused. *)
Theorem approx_covariance_accepts : forall nf nd w pn, (exists c, approx_cov nf nd w pn = Ok c) <-> nf = nd.
Proof.
  intros. unfold approx_cov. destruct (Nat.eqb_spec nf nd) as [-> | N]; cbn; split; try tauto; [eauto |]. intros (c & H). discriminate.
Qed.
Theorem approx_covariance_folded_refuted : exists nf w pn, (2 <= nf)%nat /\ approx_cov nf (nf / 2 - 1) w pn = Err ValueError.
Proof. exists 8%nat, (fun _ => 1), (fun _ => 1). split; [lia | reflexivity]. Qed.

(** ** System temperatures: each polarization slot is scaled by the factor of its own polarization *)
Lemma index_of_spec p l : NoDup l -> forall i, index_of p l = Some i <-> nth_error l i = Some p.
Proof.
  induction 1 as [| y l N ND IH]; intros i; cbn; [destruct i; split; discriminate |]. destruct (string_dec p y) as [-> | NE].
  - split; [intros E; injection E as <-; reflexivity |]. destruct i as [| i]; [reflexivity |]. cbn. intros E. exfalso. apply N, (nth_error_In l i), E.
  - destruct i as [| i]; cbn.
    + split; [destruct (index_of p l); discriminate | intros E; injection E as ->; congruence].
    + rewrite <- (IH i). destruct (index_of p l) as [k |]; split; intros E; try discriminate; injection E as ->; reflexivity.
Qed.
Theorem tsys_own_factor_sorted :
  forall leb pols, NoDup pols -> sorted_s leb pols = pols ->
    forall p i, tsys_slot leb pols p = Some i <-> nth_error pols i = Some p.
Proof. intros leb pols ND S p i. unfold tsys_slot. rewrite S. apply index_of_spec. assumption. Qed.
(** for data with x_orientation north the polarization order is nn, ee, which is not alphabetical: the two factors are exchanged *)
Definition str_leb (a b : string) : bool := match String.compare a b with Gt => false | _ => true end.
Theorem tsys_own_factor_refuted :
  let pols := ["nn"; "ee"]%string in nth_error pols 0 = Some "nn"%string /\ tsys_slot str_leb pols "nn" = Some 1%nat /\ tsys_slot str_leb pols "ee" = Some 0%nat.
Proof. cbn. repeat split; reflexivity. Qed.
Example tsys_example : sorted_s str_leb ["ee"; "nn"]%string = ["ee"; "nn"]%string. Proof. reflexivity. Qed.

Print Assumptions corr_is_correlation. Print Assumptions corr_positive_semidefinite. Print Assumptions approx_covariance. Print Assumptions tsys_own_factor_sorted.
(** the hypotheses of the correlation theorems: a taper that is not identically zero *)
Example approx_example : exists c, approx_cov 4 4 (fun f => INR f) (fun i => INR i + 1) = Ok c /\ c 2%nat 2%nat = (INR 2 + 1) ^ 2.
Proof.
  destruct (proj2 (approx_covariance_accepts 4 4 (fun f => INR f) (fun i => INR i + 1)) eq_refl) as [c E]. exists c. split; [exact E |].
  refine (proj1 (approx_covariance 4 (fun f => INR f) ltac:(lia) 1 ltac:(lia) _ (fun i => INR i + 1) c E 2%nat 2%nat)). cbn. lra.
Qed.
