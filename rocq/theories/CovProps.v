(** C35, C64-C68: covariances of the data and of the band powers. *)
From Coq Require Import Reals Lra Lia.
From Verif Require Import Prelude CNum OqeModel OqeProofs CovModel.
Open Scope R_scope.
Open Scope C_scope.

(** ** utils.cov *)
Lemma rsum_ext n f g : (forall i, (i < n)%nat -> f i = g i) -> rsum n f = rsum n g.
Proof. induction n; cbn; intros; [reflexivity |]. rewrite IHn, H by auto. reflexivity. Qed.
Lemma cov_ok m n d1 w1 d2 w2 c1 c2 :
  (forall i t, (i < m)%nat -> (t < n)%nat -> (0 <= w1 i t)%R /\ (0 <= w2 i t)%R) ->
  exists c, cov m n d1 w1 d2 w2 c1 c2 = Ok c.
Proof.
  intros H. unfold cov. destruct (existsb _ _) eqn:E; [| eauto]. exfalso.
  apply existsb_exists in E. destruct E as (i & Hi & E). apply existsb_exists in E. destruct E as (t & Ht & E).
  rewrite in_seq in Hi, Ht. specialize (H i t ltac:(lia) ltac:(lia)).
  destruct (Rlt_dec (w1 i t) 0); [lra |]. destruct (Rlt_dec (w2 i t) 0); [lra |]. discriminate.
Qed.
Theorem cov_accepts :
  forall m n d1 w1 d2 w2 c1 c2,
    (exists c, cov m n d1 w1 d2 w2 c1 c2 = Ok c) <->
    (forall i t, (i < m)%nat -> (t < n)%nat -> (0 <= w1 i t)%R /\ (0 <= w2 i t)%R).
Proof.
  intros. split; [| apply cov_ok].
  intros (c & Hc) i t Hi Ht. unfold cov in Hc. destruct (existsb _ _) eqn:E; [discriminate |].
  destruct (Rlt_dec (w1 i t) 0) as [L | L]; [| destruct (Rlt_dec (w2 i t) 0) as [L' | L']; [| lra]]; exfalso.
  - rewrite <- Bool.not_true_iff_false in E. apply E. apply existsb_exists. exists i. rewrite in_seq. split; [lia |].
    apply existsb_exists. exists t. rewrite in_seq. split; [lia |]. destruct (Rlt_dec (w1 i t) 0); [reflexivity | contradiction].
  - rewrite <- Bool.not_true_iff_false in E. apply E. apply existsb_exists. exists i. rewrite in_seq. split; [lia |].
    apply existsb_exists. exists t. rewrite in_seq. split; [lia |]. destruct (Rlt_dec (w1 i t) 0); [reflexivity |].
    destruct (Rlt_dec (w2 i t) 0); [reflexivity | contradiction].
Qed.

Ltac cov_inv H := unfold cov in H; destruct (existsb _ _); [discriminate |]; injection H as <-.

Theorem cov_exchange :
  forall m n d1 w1 d2 w2 c12 c21,
    cov m n d1 w1 d2 w2 false true = Ok c12 -> cov m n d2 w2 d1 w1 false true = Ok c21 ->
    forall i j, c21 j i = Cconj (c12 i j).
Proof.
  intros m n d1 w1 d2 w2 c12 c21 H H' i j. cov_inv H. cov_inv H'. cbv beta zeta.
  unfold Csub. change (mkC (re ?x - re ?y) (im ?x - im ?y)) with (x - y).
  set (P := fun x => if Rlt_dec 0 x then x else 1%R).
  transitivity (csum n (fun t => RtoC (w2 j t) * d2 j t * Cconj (RtoC (w1 i t) * d1 i t)) / RtoC (P (rsum n (fun t => (w2 j t * w1 i t)%R)))
    - csum n (fun t => RtoC (w2 j t) * d2 j t) / RtoC (P (rsum n (w2 j))) * Cconj (csum n (fun t => RtoC (w1 i t) * d1 i t) / RtoC (P (rsum n (w1 i))))); [reflexivity |].
  transitivity (Cconj (csum n (fun t => RtoC (w1 i t) * d1 i t * Cconj (RtoC (w2 j t) * d2 j t)) / RtoC (P (rsum n (fun t => (w1 i t * w2 j t)%R)))
    - csum n (fun t => RtoC (w1 i t) * d1 i t) / RtoC (P (rsum n (w1 i))) * Cconj (csum n (fun t => RtoC (w2 j t) * d2 j t) / RtoC (P (rsum n (w2 j)))))); [| reflexivity].
  assert (S : forall a b, Cconj (a - b) = Cconj a - Cconj b) by (intros; apply Ceq; cbn; ring).
  rewrite S, Cconj_mul, Cconj_conj.
  rewrite (Cconj_div (csum n (fun t => RtoC (w1 i t) * d1 i t * Cconj (RtoC (w2 j t) * d2 j t)))), Cconj_R, csum_conj.
  rewrite (rsum_ext n (fun t => (w2 j t * w1 i t)%R) (fun t => (w1 i t * w2 j t)%R)) by (intros; ring).
  rewrite (csum_ext n (fun t => Cconj (RtoC (w1 i t) * d1 i t * Cconj (RtoC (w2 j t) * d2 j t)))
     (fun t => RtoC (w2 j t) * d2 j t * Cconj (RtoC (w1 i t) * d1 i t))) by (intros; rewrite !Cconj_mul, !Cconj_conj, ?Cconj_R; ring).
  ring.
Qed.
Theorem cov_hermitian :
  forall m n d w c, cov m n d w d w false true = Ok c -> forall i j, c j i = Cconj (c i j).
Proof. intros m n d w c H i j. exact (cov_exchange m n d w d w c c H H i j). Qed.

(** the pseudo-covariances: S = <x^* x^*> is the conjugate of P = <x x>, and P12 is the transpose of P21 *)
Theorem cov_pseudo :
  forall m n d1 w1 d2 w2 p12 s12 p21,
    cov m n d1 w1 d2 w2 false false = Ok p12 -> cov m n d1 w1 d2 w2 true true = Ok s12 ->
    cov m n d2 w2 d1 w1 false false = Ok p21 ->
    forall i j, s12 i j = Cconj (p12 i j) /\ p21 j i = p12 i j.
Proof.
  intros m n d1 w1 d2 w2 p12 s12 p21 H1 H2 H3 i j. cov_inv H1. cov_inv H2. cov_inv H3. cbv beta zeta.
  assert (S : forall a b, Cconj (a - b) = Cconj a - Cconj b) by (intros; apply Ceq; cbn; ring).
  set (P := fun x => if Rlt_dec 0 x then x else 1%R).
  split.
  - rewrite S, Cconj_mul, (Cconj_div (csum n (fun t => RtoC (w1 i t) * d1 i t * (RtoC (w2 j t) * d2 j t)))), Cconj_R, csum_conj.
    f_equal. f_equal. apply csum_ext. intros. rewrite !Cconj_mul. reflexivity.
  - rewrite (rsum_ext n (fun t => (w2 j t * w1 i t)%R) (fun t => (w1 i t * w2 j t)%R)) by (intros; ring).
    rewrite (csum_ext n (fun t => RtoC (w2 j t) * d2 j t * (RtoC (w1 i t) * d1 i t)) (fun t => RtoC (w1 i t) * d1 i t * (RtoC (w2 j t) * d2 j t))) by (intros; ring).
    ring.
Qed.

(** with unit weights it is the textbook covariance *)
Theorem cov_unit_weights :
  forall m n (d1 d2 : mat), (0 < n)%nat ->
  exists c, cov m n d1 (fun _ _ => 1%R) d2 (fun _ _ => 1%R) false true = Ok c /\
    let mean (d : mat) i := csum n (fun t => d i t) / RtoC (INR n) in
    forall i j, c i j = csum n (fun t => (d1 i t - mean d1 i) * Cconj (d2 j t - mean d2 j)) / RtoC (INR n).
Proof.
  intros m n d1 d2 Hn. destruct (cov_ok m n d1 (fun _ _ => 1%R) d2 (fun _ _ => 1%R) false true) as (c & Hc).
  { intros. lra. }
  exists c. split; [assumption |]. cbv zeta. intros i j. cov_inv Hc. cbv beta zeta.
  assert (Hne : INR n <> 0%R) by (apply not_0_INR; lia).
  assert (HI : (0 < INR n)%R) by (apply lt_0_INR; lia).
  assert (R1' : rsum n (fun _ => 1%R) = INR n).
  { clear. induction n; [reflexivity |]. cbn [rsum]. rewrite IHn, S_INR. reflexivity. }
  assert (R2' : rsum n (fun _ => (1 * 1)%R) = INR n).
  { rewrite (rsum_ext n (fun _ => (1 * 1)%R) (fun _ => 1%R)) by (intros; ring). exact R1'. }
  rewrite R1', R2'. destruct (Rlt_dec 0 (INR n)); [| contradiction].
  change (RtoC 1) with C1. set (N := RtoC (INR n)).
  assert (HN : N <> C0) by (apply RtoC_neq0; assumption).
  set (A := csum n (fun t => d1 i t)). set (B := csum n (fun t => d2 j t)).
  assert (E1 : csum n (fun t => C1 * d1 i t) = A) by (apply csum_ext; intros; ring).
  assert (E2 : csum n (fun t => C1 * d2 j t) = B) by (apply csum_ext; intros; ring).
  rewrite E1, E2.
  set (D := csum n (fun t => d1 i t * Cconj (d2 j t))).
  assert (E3 : csum n (fun t => C1 * d1 i t * Cconj (C1 * d2 j t)) = D).
  { apply csum_ext. intros. rewrite Cconj_mul, Cconj_1. ring. }
  rewrite E3.
  set (a := A / N). set (b := B / N).
  assert (E4 : csum n (fun t => (d1 i t - a) * Cconj (d2 j t - b)) = D - A * Cconj b - a * Cconj B + N * (a * Cconj b)).
  { assert (S : forall u v, Cconj (u - v) = Cconj u - Cconj v) by (intros; apply Ceq; cbn; ring).
    rewrite (csum_ext n _ (fun t => d1 i t * Cconj (d2 j t) + (- Cconj b) * d1 i t + (- a) * Cconj (d2 j t) + a * Cconj b)).
    2:{ intros. rewrite S. ring. }
    rewrite !csum_add, !csum_mul_l, csum_const, <- csum_conj. change (csum n (d1 i)) with A. change (csum n (d2 j)) with B. fold D N. ring. }
  rewrite E4.
  assert (HA : A = a * N) by (unfold a; rewrite Cdiv_mul by assumption; reflexivity).
  assert (HB : Cconj B = Cconj b * N).
  { unfold b. rewrite Cconj_div. unfold N at 1. rewrite Cconj_R. fold N. rewrite Cdiv_mul by assumption. reflexivity. }
  rewrite HB. rewrite HA at 1. unfold Cdiv.
  transitivity (D * Cinv N - a * Cconj b * (N * Cinv N)); [rewrite Cinv_r by assumption; ring | ring].
Qed.

(** ** second moments of q for independent noise: the 'dsets' and 'autos' models *)
Section Noise.
Variables (ne ns nr : nat) (pr1 pr2 : nat -> R) (X1 X2 : nat -> vec) (E : nat -> mat) (C11 C22 : mat).
(** ensemble average over independent draws of the two data vectors *)
Definition mean2 (f : nat -> nat -> C) : C :=
  csum ns (fun s => csum nr (fun r => RtoC (pr1 s * pr2 r) * f s r)).
(** q_b = x1^dagger E_b x2 *)
Definition qf (s r b : nat) : C := csum ne (fun i => csum ne (fun j => Cconj (X1 s i) * E b i j * X2 r j)).
Hypothesis H11 : forall k i, (k < ne)%nat -> (i < ne)%nat ->
  csum ns (fun s => RtoC (pr1 s) * (X1 s k * Cconj (X1 s i))) = if Nat.eqb k i then C11 i i else C0.
Hypothesis H22 : forall j l, (j < ne)%nat -> (l < ne)%nat ->
  csum nr (fun r => RtoC (pr2 r) * (X2 r j * Cconj (X2 r l))) = if Nat.eqb j l then C22 j j else C0.
(** circular noise *)
Hypothesis P11 : forall k i, (k < ne)%nat -> (i < ne)%nat ->
  csum ns (fun s => RtoC (pr1 s) * (X1 s k * X1 s i)) = C0.

Lemma mean2_factor (u : nat -> C) (v : nat -> C) (w : nat -> nat -> C) :
  (forall s r, w s r = u s * v r) ->
  mean2 w = csum ns (fun s => RtoC (pr1 s) * u s) * csum nr (fun r => RtoC (pr2 r) * v r).
Proof.
  intros H. unfold mean2. rewrite csum_prod. apply csum_ext. intros s _. apply csum_ext. intros r _.
  rewrite H, RtoC_mul. ring.
Qed.
Lemma mean2_sum n (w : nat -> nat -> nat -> C) : mean2 (fun s r => csum n (fun i => w i s r)) = csum n (fun i => mean2 (w i)).
Proof.
  unfold mean2. transitivity (csum ns (fun s => csum n (fun i => csum nr (fun r => RtoC (pr1 s * pr2 r) * w i s r)))).
  - apply csum_ext. intros s _. rewrite csum_swap. apply csum_ext. intros r _. symmetry. apply csum_mul_l.
  - apply csum_swap.
Qed.
Lemma mean2_scale c w : mean2 (fun s r => c * w s r) = c * mean2 w.
Proof.
  unfold mean2. rewrite <- csum_mul_l. apply csum_ext. intros s _. rewrite <- csum_mul_l. apply csum_ext. intros r _. ring.
Qed.
Lemma mean2_ext w w' : (forall s r, w s r = w' s r) -> mean2 w = mean2 w'.
Proof. intros H. unfold mean2. apply csum_ext. intros s _. apply csum_ext. intros r _. rewrite H. reflexivity. Qed.
Lemma mean2_add w w' : mean2 (fun s r => w s r + w' s r) = mean2 w + mean2 w'.
Proof.
  unfold mean2. rewrite <- csum_add. apply csum_ext. intros s _. rewrite <- csum_add. apply csum_ext. intros r _. ring.
Qed.
Lemma mean2_conj w : mean2 (fun s r => Cconj (w s r)) = Cconj (mean2 w).
Proof.
  unfold mean2. rewrite csum_conj. apply csum_ext. intros s _. rewrite csum_conj. apply csum_ext. intros r _.
  rewrite Cconj_mul, Cconj_R. reflexivity.
Qed.

Lemma noise_qqd b c : mean2 (fun s r => qf s r b * Cconj (qf s r c)) = q_qd (mom_diag ne E C11 C22) b c.
Proof.
  transitivity (csum ne (fun i => csum ne (fun j => csum ne (fun k => csum ne (fun l =>
     E b i j * Cconj (E c k l) * ((if Nat.eqb k i then C11 i i else C0) * (if Nat.eqb j l then C22 j j else C0))))))).
  - transitivity (mean2 (fun s r => csum ne (fun i => csum ne (fun j => csum ne (fun k => csum ne (fun l =>
       E b i j * Cconj (E c k l) * ((X1 s k * Cconj (X1 s i)) * (X2 r j * Cconj (X2 r l))))))))).
    + apply mean2_ext. intros s r. unfold qf. rewrite csum_conj, csum_prod.
      transitivity (csum ne (fun i => csum ne (fun k => csum ne (fun j => csum ne (fun l =>
        E b i j * Cconj (E c k l) * ((X1 s k * Cconj (X1 s i)) * (X2 r j * Cconj (X2 r l)))))))).
      * apply csum_ext. intros i _. apply csum_ext. intros k _. rewrite csum_conj, csum_prod.
        apply csum_ext. intros j _. apply csum_ext. intros l _. rewrite !Cconj_mul, Cconj_conj. ring.
      * apply csum_ext. intros i _. apply csum_swap.
    + rewrite mean2_sum. apply csum_ext. intros i Hi. rewrite mean2_sum. apply csum_ext. intros j Hj.
      rewrite mean2_sum. apply csum_ext. intros k Hk. rewrite mean2_sum. apply csum_ext. intros l Hl.
      rewrite mean2_scale. f_equal.
      rewrite (mean2_factor (fun s => X1 s k * Cconj (X1 s i)) (fun r => X2 r j * Cconj (X2 r l))) by reflexivity.
      rewrite H11, H22 by assumption. reflexivity.
  - cbn [q_qd mom_diag]. apply csum_ext. intros i Hi. apply csum_ext. intros j Hj.
    rewrite (csum_ext ne _ (fun k => if Nat.eqb k i then E b i j * Cconj (E c k j) * C11 i i * C22 j j else C0)).
    + rewrite (csum_single_r ne (fun k => E b i j * Cconj (E c k j) * C11 i i * C22 j j)) by assumption. ring.
    + intros k Hk. destruct (Nat.eqb k i).
      * rewrite (csum_ext ne _ (fun l => if Nat.eqb j l then E b i j * Cconj (E c k l) * C11 i i * C22 j j else C0)).
        -- apply (csum_single_l ne (fun l => E b i j * Cconj (E c k l) * C11 i i * C22 j j)). assumption.
        -- intros l Hl. destruct (Nat.eqb j l); ring.
      * apply csum_zero. intros. ring.
Qed.
Lemma noise_qq b c : mean2 (fun s r => qf s r b * qf s r c) = C0.
Proof.
  transitivity (mean2 (fun s r => csum ne (fun i => csum ne (fun k => csum ne (fun j => csum ne (fun l =>
        E b i j * E c k l * (Cconj (X1 s k * X1 s i) * (X2 r j * X2 r l)))))))).
  - apply mean2_ext. intros s r. unfold qf. rewrite csum_prod. apply csum_ext. intros i _. apply csum_ext. intros k _.
    rewrite csum_prod. apply csum_ext. intros j _. apply csum_ext. intros l _. rewrite Cconj_mul. ring.
  - rewrite mean2_sum. apply csum_zero. intros i Hi. rewrite mean2_sum. apply csum_zero. intros k Hk.
    rewrite mean2_sum. apply csum_zero. intros j Hj. rewrite mean2_sum. apply csum_zero. intros l Hl.
    rewrite mean2_scale.
    rewrite (mean2_factor (fun s => Cconj (X1 s k * X1 s i)) (fun r => X2 r j * X2 r l)) by reflexivity.
    rewrite (csum_ext ns _ (fun s => Cconj (RtoC (pr1 s) * (X1 s k * X1 s i)))) by (intros; rewrite !Cconj_mul, Cconj_R; reflexivity).
    rewrite <- csum_conj, P11, Cconj_0 by assumption. ring.
Qed.
Lemma noise_real b c :
  mean2 (fun s r => RtoC (re (qf s r b) * re (qf s r c))) = cov_q_real (mom_diag ne E C11 C22) b c /\
  mean2 (fun s r => RtoC (im (qf s r b) * im (qf s r c))) = cov_q_imag (mom_diag ne E C11 C22) b c.
Proof.
  assert (A : forall a d, RtoC (re a * re d) = quarter * (a * d + Cconj (a * d) + a * Cconj d + Cconj (a * Cconj d))).
  { intros. apply Ceq; cbn; field. }
  assert (B : forall a d, RtoC (im a * im d) = quarter * ((- C1) * (a * d) + (- C1) * Cconj (a * d) + a * Cconj d + Cconj (a * Cconj d))).
  { intros. apply Ceq; cbn; field. }
  split.
  - rewrite (mean2_ext _ (fun s r => quarter * (qf s r b * qf s r c + Cconj (qf s r b * qf s r c)
       + qf s r b * Cconj (qf s r c) + Cconj (qf s r b * Cconj (qf s r c))))) by (intros; apply A).
    rewrite mean2_scale, !mean2_add, !mean2_conj, noise_qq, noise_qqd. unfold cov_q_real.
    cbn [q_q qd_qd mom_diag]. unfold zero. rewrite Cconj_0. ring.
  - rewrite (mean2_ext _ (fun s r => quarter * ((- C1) * (qf s r b * qf s r c) + (- C1) * Cconj (qf s r b * qf s r c)
       + qf s r b * Cconj (qf s r c) + Cconj (qf s r b * Cconj (qf s r c))))) by (intros; apply B).
    rewrite mean2_scale, !mean2_add, !mean2_scale, !mean2_conj, noise_qq, noise_qqd. unfold cov_q_imag.
    cbn [q_q qd_qd mom_diag]. unfold zero. rewrite Cconj_0. ring.
Qed.
End Noise.

(** The covariances reported by the 'dsets' and 'autos' models are the ensemble covariances of the real and
    imaginary parts of q, for every pair of independent, circular, channel-uncorrelated noise ensembles. *)
Theorem analytic_noise_covariance_correct :
  forall ne ns nr (pr1 pr2 : nat -> R) (X1 X2 : nat -> vec) (E : nat -> mat) (C11 C22 : mat),
    (forall k i, (k < ne)%nat -> (i < ne)%nat ->
       csum ns (fun s => RtoC (pr1 s) * (X1 s k * Cconj (X1 s i))) = if Nat.eqb k i then C11 i i else C0) ->
    (forall j l, (j < ne)%nat -> (l < ne)%nat ->
       csum nr (fun r => RtoC (pr2 r) * (X2 r j * Cconj (X2 r l))) = if Nat.eqb j l then C22 j j else C0) ->
    (forall k i, (k < ne)%nat -> (i < ne)%nat -> csum ns (fun s => RtoC (pr1 s) * (X1 s k * X1 s i)) = C0) ->
    let q := qf ne X1 X2 E in
    let avg := mean2 ns nr pr1 pr2 in
    forall b c,
      avg (fun s r => RtoC (re (q s r b) * re (q s r c))) = cov_q_real (mom_diag ne E C11 C22) b c /\
      avg (fun s r => RtoC (im (q s r b) * im (q s r c))) = cov_q_imag (mom_diag ne E C11 C22) b c.
Proof. intros. apply noise_real; assumption. Qed.
Print Assumptions analytic_noise_covariance_correct.

(** a concrete ensemble: one channel, x = 1, i, -1, -i with probability 1/4 each *)
Definition turn (s : nat) : C := match s with O => C1 | 1%nat => Ci | 2%nat => - C1 | _ => - Ci end.
Example circular_noise :
  (forall k i, (k < 1)%nat -> (i < 1)%nat ->
     csum 4 (fun s => RtoC (/ 4) * (turn s * Cconj (turn s))) = if Nat.eqb k i then C1 else C0) /\
  csum 4 (fun s => RtoC (/ 4) * (turn s * turn s)) = C0.
Proof.
  split.
  - intros k i Hk Hi. assert (k = O) by lia. assert (i = O) by lia. subst. cbn [Nat.eqb csum turn]. apply Ceq; cbn; field.
  - cbn [csum turn]. apply Ceq; cbn; field.
Qed.

(** ** structure of the returned covariances ('dsets', 'autos') *)
Definition psd (n : nat) (A : mat) : Prop :=
  forall v : nat -> R, (0 <= re (csum n (fun b => csum n (fun c => RtoC (v b) * A b c * RtoC (v c))))%C)%R.
Definition diag_nonneg (n : nat) (A : mat) : Prop := forall i, (i < n)%nat -> im (A i i) = 0%R /\ (0 <= re (A i i))%R.

Lemma re_csum_nonneg n f : (forall i, (i < n)%nat -> (0 <= re (f i))%R) -> (0 <= re (csum n f)%C)%R.
Proof. induction n; cbn; intros H; [lra |]. pose proof (IHn ltac:(auto)). pose proof (H n ltac:(lia)). lra. Qed.
Lemma diag_form ne nd (E : nat -> mat) C11 C22 (u : vec) :
  diag_nonneg ne C11 -> diag_nonneg ne C22 ->
  (0 <= re (csum nd (fun b => csum nd (fun c => u b * q_qd (mom_diag ne E C11 C22) b c * Cconj (u c))))%C)%R.
Proof.
  intros H1 H2.
  replace (csum nd (fun b => csum nd (fun c => u b * q_qd (mom_diag ne E C11 C22) b c * Cconj (u c))))
    with (csum ne (fun i => csum ne (fun j => C11 i i * C22 j j *
      (csum nd (fun b => u b * E b i j) * Cconj (csum nd (fun c => u c * E c i j)))))).
  - apply re_csum_nonneg. intros i Hi. apply re_csum_nonneg. intros j Hj.
    destruct (H1 i Hi) as [I1 N1], (H2 j Hj) as [I2 N2].
    set (z := csum nd (fun b => u b * E b i j)).
    replace (z * Cconj z) with (RtoC (Cabs2 z)) by (rewrite <- Cmul_conj; ring).
    replace (C11 i i) with (RtoC (re (C11 i i))) by (apply Ceq; cbn; lra).
    replace (C22 j j) with (RtoC (re (C22 j j))) by (apply Ceq; cbn; lra).
    rewrite <- !RtoC_mul. cbn [re RtoC]. pose proof (Cabs2_nonneg z). apply Rmult_le_pos; [apply Rmult_le_pos |]; assumption.
  - cbn [q_qd mom_diag].
    transitivity (csum ne (fun i => csum ne (fun j => csum nd (fun b => csum nd (fun c =>
       u b * (E b i j * C22 j j * (Cconj (E c i j) * C11 i i)) * Cconj (u c)))))).
    + apply csum_ext. intros i _. apply csum_ext. intros j _. rewrite csum_conj, csum_prod, <- csum_mul_l.
      apply csum_ext. intros b _. rewrite <- csum_mul_l. apply csum_ext. intros c _. rewrite Cconj_mul. ring.
    + transitivity (csum ne (fun i => csum nd (fun b => csum nd (fun c => csum ne (fun j =>
         u b * (E b i j * C22 j j * (Cconj (E c i j) * C11 i i)) * Cconj (u c)))))).
      { apply csum_ext. intros i _. rewrite csum_swap. apply csum_ext. intros b _. apply csum_swap. }
      rewrite csum_swap. apply csum_ext. intros b _. rewrite csum_swap. apply csum_ext. intros c _.
      transitivity (csum ne (fun i => u b * csum ne (fun j => E b i j * C22 j j * (Cconj (E c i j) * C11 i i)) * Cconj (u c))).
      * apply csum_ext. intros i _. rewrite <- csum_mul_l, <- csum_mul_r. reflexivity.
      * rewrite !csum_mul_r, csum_mul_l. reflexivity.
Qed.
Lemma diag_herm ne E C11 C22 b c : diag_nonneg ne C11 -> diag_nonneg ne C22 ->
  q_qd (mom_diag ne E C11 C22) c b = Cconj (q_qd (mom_diag ne E C11 C22) b c).
Proof.
  intros H1 H2. cbn [q_qd mom_diag]. rewrite csum_conj. apply csum_ext. intros i Hi. rewrite csum_conj. apply csum_ext. intros j Hj.
  destruct (H1 i Hi) as [I1 _], (H2 j Hj) as [I2 _].
  replace (C11 i i) with (RtoC (re (C11 i i))) by (apply Ceq; cbn; lra).
  replace (C22 j j) with (RtoC (re (C22 j j))) by (apply Ceq; cbn; lra).
  rewrite !Cconj_mul, !Cconj_conj, !Cconj_R. ring.
Qed.

(** real, symmetric, positive semi-definite and the same for the real and imaginary parts: q *)
Theorem cov_q_structure :
  forall ne nd E C11 C22, diag_nonneg ne C11 -> diag_nonneg ne C22 ->
    let m := mom_diag ne E C11 C22 in
    psd nd (cov_q_real m) /\
    forall b c, cov_q_real m b c = cov_q_imag m b c /\ im (cov_q_real m b c) = 0%R /\
                cov_q_real m c b = cov_q_real m b c.
Proof.
  intros ne nd E C11 C22 H1 H2 m.
  assert (Q : forall b c, cov_q_real m b c = RtoC (re (q_qd m b c) / 2)).
  { intros. unfold cov_q_real, m. cbn [q_q qd_qd mom_diag]. unfold zero. apply Ceq; cbn; field. }
  split.
  - intros v. pose proof (diag_form ne nd E C11 C22 (fun b => RtoC (v b)) H1 H2) as D.
    enough (Hq : re (csum nd (fun b => csum nd (fun c => RtoC (v b) * cov_q_real m b c * RtoC (v c))))%C
            = (/ 2 * re (csum nd (fun b => csum nd (fun c => RtoC (v b) * q_qd m b c * Cconj (RtoC (v c)))))%C)%R).
    { rewrite Hq. unfold m. lra. }
    assert (RS : forall n f g, (forall i, (i < n)%nat -> re (f i) = (/ 2 * re (g i))%R) -> re (csum n f)%C = (/ 2 * re (csum n g)%C)%R).
    { clear. induction n; cbn; intros f g H; [ring |]. rewrite (IHn f g), H by auto. ring. }
    apply RS. intros b _. apply RS. intros c _. rewrite Q, Cconj_R. cbn. field.
  - intros b c. rewrite !Q. split; [| split].
    + unfold cov_q_imag, m. cbn [q_q qd_qd mom_diag]. unfold zero. apply Ceq; cbn; field.
    + reflexivity.
    + unfold m. rewrite (diag_herm ne E C11 C22 b c H1 H2). reflexivity.
Qed.

Lemma einsum3_herm nd M q a c : (forall b d, q d b = Cconj (q b d)) ->
  einsum3 nd M (mconj M) q c a = Cconj (einsum3 nd M (mconj M) q a c).
Proof.
  intros H. unfold einsum3, mconj. rewrite csum_conj, csum_swap. apply csum_ext. intros b _. rewrite csum_conj.
  apply csum_ext. intros d _. rewrite !Cconj_mul, Cconj_conj, <- H. ring.
Qed.
(** ... and p, for any complex normalisation M *)
Theorem cov_p_structure :
  forall ne nd M E C11 C22, diag_nonneg ne C11 -> diag_nonneg ne C22 ->
    let m := mom_diag ne E C11 C22 in
    psd nd (cov_p_real nd M m) /\
    forall b c, cov_p_real nd M m b c = cov_p_imag nd M m b c /\ im (cov_p_real nd M m b c) = 0%R /\
                cov_p_real nd M m c b = cov_p_real nd M m b c.
Proof.
  intros ne nd M E C11 C22 H1 H2 m.
  assert (G : forall b c, MMqq nd M m b c = C0 /\ MMqdqd nd M m b c = C0).
  { intros. unfold MMqq, MMqdqd, gated, m. cbn [q_q qd_qd mom_diag].
    replace (all_close0 nd zero) with true; [split; reflexivity |]. symmetry. unfold all_close0.
    apply forallb_forall. intros i _. apply forallb_forall. intros j _. unfold close0, zero.
    destruct (Rle_dec _ _); [reflexivity |]. exfalso. apply n. unfold Cabs2, C0. cbn [re im].
    assert (0 < tiny8)%R by (unfold tiny8; apply Rinv_0_lt_compat; apply pow_lt; lra). nra. }
  assert (C : forall b c, MMqqd' nd M m b c = Cconj (MMqqd nd M m b c)).
  { intros. unfold MMqqd, MMqqd', gated. destruct (all_close0 _ _); [symmetry; apply Cconj_0 |].
    unfold einsum3, mconj. rewrite csum_conj. apply csum_ext. intros. rewrite csum_conj. apply csum_ext. intros.
    rewrite !Cconj_mul, Cconj_conj. reflexivity. }
  assert (P : forall b c, cov_p_real nd M m b c = RtoC (re (MMqqd nd M m b c) / 2)).
  { intros. unfold cov_p_real. destruct (G b c) as [-> ->]. rewrite C. apply Ceq; cbn; field. }
  split.
  - intros v.
    enough (Hq : re (csum nd (fun b => csum nd (fun c => RtoC (v b) * cov_p_real nd M m b c * RtoC (v c))))%C
            = (/ 2 * re (csum nd (fun b => csum nd (fun c => RtoC (v b) * MMqqd nd M m b c * RtoC (v c))))%C)%R).
    { rewrite Hq. enough (0 <= re (csum nd (fun b => csum nd (fun c => RtoC (v b) * MMqqd nd M m b c * RtoC (v c))))%C)%R by lra.
      unfold MMqqd, gated. destruct (all_close0 _ _).
      - rewrite csum_zero; [cbn; lra |]. intros. apply csum_zero. intros. unfold zero. ring.
      - pose proof (diag_form ne nd E C11 C22 (fun b => csum nd (fun a => RtoC (v a) * M a b)) H1 H2) as D.
        fold m in D.
        replace (csum nd (fun b => csum nd (fun c => RtoC (v b) * einsum3 nd M (mconj M) (q_qd m) b c * RtoC (v c))))
          with (csum nd (fun b => csum nd (fun c => csum nd (fun a => RtoC (v a) * M a b) * q_qd m b c * Cconj (csum nd (fun a => RtoC (v a) * M a c))))); [exact D |].
        unfold einsum3, mconj.
        transitivity (csum nd (fun b => csum nd (fun d => csum nd (fun a => csum nd (fun c =>
           RtoC (v a) * (M a b * Cconj (M c d) * q_qd m b d) * RtoC (v c)))))).
        + apply csum_ext. intros b _. apply csum_ext. intros d _. rewrite csum_conj.
          transitivity (csum nd (fun a => RtoC (v a) * M a b) * csum nd (fun a => Cconj (RtoC (v a) * M a d)) * q_qd m b d); [ring |].
          rewrite csum_prod, <- csum_mul_r. apply csum_ext. intros a _. rewrite <- csum_mul_r. apply csum_ext. intros c _.
          rewrite Cconj_mul, Cconj_R. ring.
        + transitivity (csum nd (fun b => csum nd (fun a => csum nd (fun c => csum nd (fun d =>
           RtoC (v a) * (M a b * Cconj (M c d) * q_qd m b d) * RtoC (v c)))))).
          { apply csum_ext. intros b _. rewrite csum_swap. apply csum_ext. intros a _. apply csum_swap. }
          rewrite csum_swap. apply csum_ext. intros a _. rewrite csum_swap. apply csum_ext. intros c _.
          transitivity (csum nd (fun b => RtoC (v a) * csum nd (fun d => M a b * Cconj (M c d) * q_qd m b d) * RtoC (v c))).
          * apply csum_ext. intros b _. rewrite <- csum_mul_l, <- csum_mul_r. reflexivity.
          * rewrite csum_mul_r, csum_mul_l. reflexivity. }
    assert (RS : forall n f g, (forall i, (i < n)%nat -> re (f i) = (/ 2 * re (g i))%R) -> re (csum n f)%C = (/ 2 * re (csum n g)%C)%R).
    { clear. induction n; cbn; intros f g H; [ring |]. rewrite (IHn f g), H by auto. ring. }
    apply RS. intros b _. apply RS. intros c _. rewrite P. cbn. field.
  - intros b c. rewrite !P. split; [| split].
    + unfold cov_p_imag. destruct (G b c) as [-> ->]. rewrite C. apply Ceq; cbn; field.
    + reflexivity.
    + f_equal. f_equal. unfold MMqqd, gated. destruct (all_close0 _ _); [reflexivity |].
      rewrite (einsum3_herm nd M (q_qd m) b c); [reflexivity |]. intros. apply diag_herm; assumption.
Qed.

(** the p-covariance is the q-covariance propagated with M, unless all second moments of q are below 1e-8 *)
Theorem cov_p_propagates_above_threshold :
  forall ne nd M E C11 C22,
    let m := mom_diag ne E C11 C22 in
    (exists b c, (b < nd)%nat /\ (c < nd)%nat /\ (Cabs2 (q_qd m b c) > tiny8 * tiny8)%R) ->
    forall a c, cov_p_real nd M m a c = RtoC (re (csum nd (fun b => csum nd (fun d => M a b * q_qd m b d * Cconj (M c d))))%C / 2).
Proof.
  intros ne nd M E C11 C22 m (b0 & c0 & Hb0 & Hc0 & Hbig) a c.
  assert (G : all_close0 nd zero = true).
  { unfold all_close0.
    apply forallb_forall. intros i _. apply forallb_forall. intros j _. unfold close0, zero.
    destruct (Rle_dec _ _); [reflexivity |]. exfalso. apply n. unfold Cabs2, C0. cbn [re im].
    assert (0 < tiny8)%R by (unfold tiny8; apply Rinv_0_lt_compat; apply pow_lt; lra). nra. }
  assert (F : all_close0 nd (q_qd m) = false).
  { destruct (all_close0 nd (q_qd m)) eqn:E'; auto. unfold all_close0 in E'. rewrite forallb_forall in E'.
    specialize (E' b0). rewrite in_seq in E'. specialize (E' ltac:(lia)). rewrite forallb_forall in E'.
    specialize (E' c0). rewrite in_seq in E'. specialize (E' ltac:(lia)). unfold close0 in E'.
    destruct (Rle_dec (Cabs2 (q_qd m b0 c0)) (tiny8 * tiny8)); [lra | discriminate]. }
  unfold cov_p_real, MMqq, MMqqd, MMqqd', MMqdqd, gated.
  change (q_q m) with zero. change (qd_qd m) with zero. rewrite G, F.
  set (z := csum nd (fun b => csum nd (fun d => M a b * q_qd m b d * Cconj (M c d)))).
  replace (einsum3 nd M (mconj M) (q_qd m) a c) with z.
  2:{ unfold z, einsum3, mconj. apply csum_ext. intros. apply csum_ext. intros. ring. }
  replace (einsum3 nd (mconj M) M (mconj (q_qd m)) a c) with (Cconj z).
  2:{ unfold z, einsum3, mconj. rewrite csum_conj. apply csum_ext. intros. rewrite csum_conj. apply csum_ext. intros.
      rewrite !Cconj_mul, Cconj_conj. ring. }
  unfold zero. apply Ceq; cbn; field.
Qed.
(** Small covariances are dropped: all variances of q are 1e-9, M = 1, and the reported variance of p is 0. *)
Theorem cov_p_small_refuted :
  exists ne nd M E C11 C22, diag_nonneg ne C11 /\ diag_nonneg ne C22 /\
    let m := mom_diag ne E C11 C22 in
    (0 < re (csum nd (fun b => csum nd (fun d => M 0%nat b * q_qd m b d * Cconj (M 0%nat d))))%C)%R /\
    cov_p_real nd M m 0%nat 0%nat = C0.
Proof.
  exists 1%nat, 1%nat, ones, (fun _ => ones), (fun _ _ => RtoC (/ 10 ^ 9)), ones.
  split; [intros i _; cbn [im re RtoC]; split; [reflexivity |]; apply Rlt_le, Rinv_0_lt_compat, pow_lt; lra |].
  split; [intros i _; unfold ones; cbn; split; [reflexivity | lra] |].
  intros m.
  assert (Q : forall b c, q_qd m b c = RtoC (/ 10 ^ 9)).
  { intros. unfold m. cbn [q_qd mom_diag csum]. unfold ones. rewrite Cconj_1. ring. }
  split.
  - cbn [csum]. rewrite Q. unfold ones. rewrite Cconj_1. cbn [re im Cadd Cmul C0 C1 RtoC].
    assert (0 < / 10 ^ 9)%R by (apply Rinv_0_lt_compat, pow_lt; lra). lra.
  - assert (T : forall g : mat, (forall b c, Cabs2 (g b c) <= tiny8 * tiny8)%R -> all_close0 1 g = true).
    { intros g Hg. unfold all_close0. apply forallb_forall. intros i _. apply forallb_forall. intros j _. unfold close0.
      destruct (Rle_dec _ _); [reflexivity | exfalso; auto]. }
    assert (Ht : (0 < tiny8)%R) by (unfold tiny8; apply Rinv_0_lt_compat, pow_lt; lra).
    assert (T0 : all_close0 1 zero = true).
    { apply T. intros. unfold zero, Cabs2, C0. cbn [re im]. nra. }
    assert (T1 : all_close0 1 (q_qd m) = true).
    { apply T. intros. rewrite Q, Cabs2_R.
      assert (H : (/ 10 ^ 9 <= tiny8)%R).
      { unfold tiny8. apply Rinv_le_contravar; [apply pow_lt; lra |]. apply Rle_pow; [lra | lia]. }
      assert (0 < / 10 ^ 9)%R by (apply Rinv_0_lt_compat, pow_lt; lra). nra. }
    unfold cov_p_real, MMqq, MMqqd, MMqqd', MMqdqd, gated.
    change (q_q m) with zero. change (qd_qd m) with zero. rewrite T0, T1. unfold zero. ring.
Qed.

(** ** the loop over times *)
Theorem analytic_covariance_times :
  forall ne nd nt fg C11 M mom, List.length (analytic_covariance ne nd nt fg C11 M mom) = nt.
Proof.
  intros. unfold analytic_covariance. destruct (_ && Nat.ltb 0 nt)%bool.
  - apply repeat_length.
  - rewrite map_length. apply seq_length.
Qed.
(** each integration gets its own covariance: when the first and last C11 differ, for the foreground model,
    or when nothing depends on time *)
Lemma forallb_false_ex {A} (f : A -> bool) l : forallb f l = false -> exists x, In x l /\ f x = false.
Proof. induction l as [|x l IH]; cbn; [discriminate|]. destruct (f x) eqn:E; [intros H; destruct (IH H) as (y & Y1 & Y2); eauto|eauto]. Qed.
Definition differ (n : nat) (a b : mat) : Prop :=
  exists i j, (i < n)%nat /\ (j < n)%nat /\ (/ 10 ^ 8 + sqrt (Cabs2 (b i j)) / 10 ^ 5 < sqrt (Cabs2 (a i j - b i j)))%R.
Lemma all_close_differ n a b : all_close n a b = false <-> differ n a b.
Proof.
  assert (S : forall i j, isclose (a i j) (b i j) = false <-> (/ 10 ^ 8 + sqrt (Cabs2 (b i j)) / 10 ^ 5 < sqrt (Cabs2 (a i j - b i j)))%R).
  { intros i j. unfold isclose, tiny8, Cmod. destruct (Rle_dec _ _) as [H|H]; split; intros Q; try discriminate; try reflexivity; [exfalso; exact (Rlt_not_le _ _ Q H)|apply Rnot_le_lt; exact H]. }
  unfold all_close, differ. split.
  - intros H. destruct (forallb_false_ex _ _ H) as (i & Hi & Fi). destruct (forallb_false_ex _ _ Fi) as (j & Hj & Fj). apply in_seq in Hi, Hj. exists i, j. split; [lia|]. split; [lia|]. apply S; exact Fj.
  - intros (i & j & Hi & Hj & D). apply S in D. apply Bool.not_true_iff_false. intros H. rewrite forallb_forall in H. specialize (H i ltac:(apply in_seq; lia)). rewrite forallb_forall in H. specialize (H j ltac:(apply in_seq; lia)). congruence.
Qed.
(** otherwise every integration gets the covariance of the first *)
Theorem analytic_covariance_uniform : forall ne nd nt C11 M mom, ~ differ ne (C11 0%nat) (C11 (nt - 1)%nat) ->
  forall t, (t < nt)%nat -> nth_error (analytic_covariance ne nd nt false C11 M mom) t = Some (covs_at nd (M 0%nat) (mom 0%nat)).
Proof.
  intros ne nd nt C11 M mom H t Ht. unfold analytic_covariance. destruct (all_close ne (C11 0%nat) (C11 (nt - 1)%nat)) eqn:A; [|exfalso; apply H, all_close_differ, A].
  cbn [negb andb]. destruct (Nat.ltb_spec 0 nt); [|lia]. rewrite (nth_error_nth' _ (covs_at nd (M 0%nat) (mom 0%nat))) by (rewrite repeat_length; assumption). f_equal. apply nth_repeat.
Qed.
Print Assumptions analytic_covariance_uniform.
Theorem analytic_covariance_per_time :
  forall ne nd nt fg C11 M mom,
    (fg = true \/ differ ne (C11 0%nat) (C11 (nt - 1)%nat) \/
     (forall t, (t < nt)%nat -> M t = M 0%nat /\ mom t = mom 0%nat)) ->
    forall t, (t < nt)%nat ->
      nth_error (analytic_covariance ne nd nt fg C11 M mom) t = Some (covs_at nd (M t) (mom t)).
Proof.
  intros ne nd nt fg C11 M mom H t Ht. unfold analytic_covariance.
  destruct ((negb fg && all_close ne (C11 0%nat) (C11 (nt - 1)%nat)) && Nat.ltb 0 nt)%bool eqn:U.
  - assert (HT : forall t, (t < nt)%nat -> M t = M 0%nat /\ mom t = mom 0%nat).
    { destruct H as [-> | [H | H]]; [discriminate U | apply all_close_differ in H; rewrite H in U; rewrite Bool.andb_false_r in U; discriminate U | assumption]. }
    destruct (HT t Ht) as [-> ->].
    rewrite (nth_error_nth' _ (covs_at nd (M 0%nat) (mom 0%nat))) by (rewrite repeat_length; assumption).
    f_equal. apply nth_repeat.
  - rewrite nth_error_map. rewrite (nth_error_nth' _ 0%nat) by (rewrite seq_length; assumption).
    rewrite seq_nth by assumption. reflexivity.
Qed.
Lemma all_close_refl n a : all_close n a a = true.
Proof.
  unfold all_close. apply forallb_forall. intros i _. apply forallb_forall. intros j _. unfold isclose.
  replace (a i j - a i j) with C0 by ring. destruct (Rle_dec _ _); [reflexivity |]. exfalso. apply n0.
  unfold Cmod at 1. replace (Cabs2 C0) with 0%R by (unfold Cabs2, C0; cbn; ring). rewrite sqrt_0.
  assert (0 < tiny8)%R by (unfold tiny8; apply Rinv_0_lt_compat, pow_lt; lra).
  assert (0 <= Cmod (a i j) / 10 ^ 5)%R.
  { unfold Rdiv. apply Rmult_le_pos; [apply sqrt_pos |]. apply Rlt_le, Rinv_0_lt_compat, pow_lt. lra. }
  lra.
Qed.
(** The shortcut looks only at the first and last C11: if the second visibility's noise (C22) changes with time, an
    interior C11 changes, or the normalisation M changes, the reported covariances are those of the first time. *)
Theorem analytic_covariance_shortcut_refuted :
  (exists ne nd nt (C11 C22 : nat -> mat) (E : nat -> mat) M t c,
     (t < nt)%nat /\ (forall t', C11 t' = C11 0%nat) /\
     nth_error (analytic_covariance ne nd nt false C11 M (fun t => mom_diag ne E (C11 t) (C22 t))) t = Some c /\
     c_qr c 0%nat 0%nat <> cov_q_real (mom_diag ne E (C11 t) (C22 t)) 0%nat 0%nat) /\
  (exists ne nd nt (C11 C22 : nat -> mat) (E : nat -> mat) M t c,
     (t < nt)%nat /\ (forall t', C22 t' = C22 0%nat) /\
     nth_error (analytic_covariance ne nd nt false C11 M (fun t => mom_diag ne E (C11 t) (C22 t))) t = Some c /\
     c_qr c 0%nat 0%nat <> cov_q_real (mom_diag ne E (C11 t) (C22 t)) 0%nat 0%nat) /\
  (exists ne nd nt (C11 C22 : nat -> mat) (E : nat -> mat) M t c,
     (t < nt)%nat /\ (forall t', C11 t' = C11 0%nat /\ C22 t' = C22 0%nat) /\
     nth_error (analytic_covariance ne nd nt false C11 M (fun t => mom_diag ne E (C11 t) (C22 t))) t = Some c /\
     c_pr c 0%nat 0%nat <> cov_p_real nd (M t) (mom_diag ne E (C11 t) (C22 t)) 0%nat 0%nat).
Proof.
  set (cst := (fun x => fun _ _ => RtoC x) : R -> mat).
  set (var := (fun t => match t with 1%nat => cst 2%R | _ => cst 1%R end) : nat -> mat).
  assert (Q : forall x y, q_qd (mom_diag 1 (fun _ => ones) (cst x) (cst y)) 0%nat 0%nat = RtoC (x * y)).
  { intros. cbn [q_qd mom_diag csum]. unfold ones, cst. rewrite Cconj_1, RtoC_mul. ring. }
  assert (K : forall x y, cov_q_real (mom_diag 1 (fun _ => ones) (cst x) (cst y)) 0%nat 0%nat = RtoC (x * y / 2)).
  { intros. unfold cov_q_real. rewrite Q. cbn [q_q qd_qd mom_diag]. unfold zero. apply Ceq; cbn; field. }
  split; [| split].
  - exists 1%nat, 1%nat, 2%nat, (fun _ => cst 1%R), var, (fun _ => ones), (fun _ => ones), 1%nat. eexists.
    split; [lia |]. split; [reflexivity |]. split.
    + unfold analytic_covariance. rewrite all_close_refl. cbn [negb andb Nat.ltb Nat.leb repeat nth_error]. reflexivity.
    + cbn [covs_at c_qr]. unfold var. rewrite !K. intros E. apply RtoC_inj in E. lra.
  - exists 1%nat, 1%nat, 3%nat, var, (fun _ => cst 1%R), (fun _ => ones), (fun _ => ones), 1%nat. eexists.
    split; [lia |]. split; [reflexivity |]. split.
    + unfold analytic_covariance. replace (var (3 - 1)%nat) with (var 0%nat) by reflexivity. rewrite all_close_refl.
      cbn [negb andb Nat.ltb Nat.leb repeat nth_error]. reflexivity.
    + cbn [covs_at c_qr]. unfold var. rewrite !K. intros E. apply RtoC_inj in E. lra.
  - exists 1%nat, 1%nat, 2%nat, (fun _ => cst 1%R), (fun _ => cst 1%R), (fun _ => ones), var, 1%nat. eexists.
    split; [lia |]. split; [auto |]. split.
    + unfold analytic_covariance. rewrite all_close_refl. cbn [negb andb Nat.ltb Nat.leb repeat nth_error]. reflexivity.
    + cbn [covs_at c_pr].
      assert (Ht : (tiny8 < 1)%R).
      { unfold tiny8. apply (Rmult_lt_reg_r (10 ^ 8)); [apply pow_lt; lra |]. rewrite Rinv_l by (apply pow_nonzero; lra). cbn. lra. }
      assert (Ht0 : (0 < tiny8)%R) by (unfold tiny8; apply Rinv_0_lt_compat, pow_lt; lra).
      assert (W : exists b c, (b < 1)%nat /\ (c < 1)%nat /\ (Cabs2 (q_qd (mom_diag 1 (fun _ => ones) (cst 1) (cst 1)) b c) > tiny8 * tiny8)%R).
      { exists 0%nat, 0%nat. split; [lia |]. split; [lia |]. rewrite Q, Cabs2_R. nra. }
      rewrite !(cov_p_propagates_above_threshold 1 1 _ (fun _ => ones) (cst 1%R) (cst 1%R) W).
      intros E. apply RtoC_inj in E. revert E. cbn [csum]. rewrite Q. cbn. lra.
Qed.

(** ** the foreground-dependent model *)
(** signal covariance Cs_ij = half of (x1_i conj x2_j + x2_i conj x1_j); the signal-noise term is
    tr(E_b Cs E_c^dagger Cn11) + tr(E_b Cn22 E_c^dagger Cs), for diagonal noise *)
Definition Cs (x1 x2 : vec) : mat := fun i j => RtoC (/ 2) * (x1 i * Cconj (x2 j) + x2 i * Cconj (x1 j)).
Definition tr4 (n : nat) (A B C' D : mat) : C :=
  csum n (fun i => csum n (fun j => csum n (fun k => csum n (fun l => A i j * B j k * C' k l * D l i)))).
Theorem foreground_term_is_trace :
  forall ne E C11 C22 x1 x2,
    (forall i j, (i < ne)%nat -> (j < ne)%nat -> i <> j -> C11 i j = C0 /\ C22 i j = C0) ->
    forall b c, sn_raw ne E C11 C22 x1 x2 b c
      = tr4 ne (E b) (Cs x1 x2) (ctrans (E c)) C11 + tr4 ne (E b) C22 (ctrans (E c)) (Cs x1 x2).
Proof.
  intros ne E C11 C22 x1 x2 HD b c. unfold sn_raw, tr4, ctrans.
  transitivity
   ((csum ne (fun i => csum ne (fun j => csum ne (fun k => E b i j * Cs x1 x2 j k * Cconj (E c i k) * C11 i i))))
    + csum ne (fun i => csum ne (fun j => csum ne (fun l => E b i j * C22 j j * Cconj (E c l j) * Cs x1 x2 l i)))).
  - assert (Hf : forall z, z / RtoC 2 = RtoC (/ 2) * z) by (intros; apply Cdiv_R; lra). rewrite !Hf.
    transitivity (RtoC (/ 2) * (csum ne (fun i => csum ne (fun j => E b i j * x1 j) * Cconj (csum ne (fun j => E c i j * x2 j)) * C11 i i)
        + csum ne (fun i => csum ne (fun j => E b i j * x2 j) * Cconj (csum ne (fun j => E c i j * x1 j)) * C11 i i))
      + RtoC (/ 2) * (csum ne (fun j => csum ne (fun i => E b i j * Cconj (x2 i)) * Cconj (csum ne (fun i => E c i j * Cconj (x1 i))) * C22 j j)
        + csum ne (fun j => csum ne (fun i => E b i j * Cconj (x1 i)) * Cconj (csum ne (fun i => E c i j * Cconj (x2 i))) * C22 j j))).
    { ring. }
    f_equal.
    + rewrite <- csum_add, <- csum_mul_l. apply csum_ext. intros i Hi.
      rewrite !csum_conj, !csum_prod.
      transitivity (csum ne (fun j => csum ne (fun k => RtoC (/ 2) * (E b i j * x1 j * Cconj (E c i k * x2 k) + E b i j * x2 j * Cconj (E c i k * x1 k)) * C11 i i))).
      * transitivity (RtoC (/ 2) * C11 i i * (csum ne (fun j => csum ne (fun k => E b i j * x1 j * Cconj (E c i k * x2 k)))
           + csum ne (fun j => csum ne (fun k => E b i j * x2 j * Cconj (E c i k * x1 k))))); [ring |].
        rewrite <- csum_add, <- csum_mul_l. apply csum_ext. intros j _. rewrite <- csum_add, <- csum_mul_l. apply csum_ext. intros k _. ring.
      * apply csum_ext. intros j _. apply csum_ext. intros k _. unfold Cs. rewrite !Cconj_mul. ring.
    + transitivity (csum ne (fun j => csum ne (fun i => csum ne (fun l => E b i j * C22 j j * Cconj (E c l j) * Cs x1 x2 l i)))); [| apply csum_swap].
      rewrite <- csum_add, <- csum_mul_l. apply csum_ext. intros j Hj.
      rewrite !csum_conj, !csum_prod.
      transitivity (csum ne (fun i => csum ne (fun l => RtoC (/ 2) * (E b i j * Cconj (x2 i) * Cconj (E c l j * Cconj (x1 l)) + E b i j * Cconj (x1 i) * Cconj (E c l j * Cconj (x2 l))) * C22 j j))).
      * transitivity (RtoC (/ 2) * C22 j j * (csum ne (fun i => csum ne (fun l => E b i j * Cconj (x2 i) * Cconj (E c l j * Cconj (x1 l))))
           + csum ne (fun i => csum ne (fun l => E b i j * Cconj (x1 i) * Cconj (E c l j * Cconj (x2 l)))))); [ring |].
        rewrite <- csum_add, <- csum_mul_l. apply csum_ext. intros i _. rewrite <- csum_add, <- csum_mul_l. apply csum_ext. intros l _. ring.
      * apply csum_ext. intros i _. apply csum_ext. intros l _. unfold Cs. rewrite !Cconj_mul, !Cconj_conj. ring.
  - f_equal.
    + apply csum_ext. intros i Hi. apply csum_ext. intros j Hj. apply csum_ext. intros k Hk.
      symmetry. rewrite (csum_single ne _ i Hi); [reflexivity |]. intros l Hl Hne. rewrite (proj1 (HD l i Hl Hi Hne)). ring.
    + apply csum_ext. intros i Hi. apply csum_ext. intros j Hj.
      symmetry. rewrite (csum_single ne _ j Hj); [reflexivity |]. intros k Hk Hne.
      apply csum_zero. intros l Hl. rewrite (proj2 (HD j k Hj Hk ltac:(auto))). ring.
Qed.
(** clipping: entries of rows and columns with non-positive variance become zero, the others are kept; the result is
    Hermitian when the input is, and its diagonal is never negative *)
Theorem clip_sn_spec :
  forall s b c, (forall i, im (s i i) = 0%R) ->
    clip_sn s b c = (if (nonpos (s b b) || nonpos (s c c))%bool then C0 else s b c) /\
    (0 <= re (clip_sn s b b))%R /\
    (Cconj (s b c) = s c b -> Cconj (clip_sn s b c) = clip_sn s c b).
Proof.
  intros s b c Him.
  assert (F : forall b c, clip_sn s b c = if (nonpos (s b b) || nonpos (s c c))%bool then C0 else s b c).
  { intros x y. unfold clip_sn. destruct (nonpos (s y y)) eqn:Ey.
    - assert (nonpos C0 = true) by (unfold nonpos, C0; cbn; destruct (Rle_dec 0 0); [reflexivity | lra]). rewrite H.
      rewrite Bool.orb_true_r. reflexivity.
    - rewrite Ey, Bool.orb_false_r. reflexivity. }
  split; [apply F |]. split.
  - rewrite F. rewrite Bool.orb_diag. unfold nonpos. destruct (Rle_dec (re (s b b)) 0); [cbn; lra |]. lra.
  - intros H. rewrite !F, (Bool.orb_comm (nonpos (s c c))). destruct (_ || _)%bool; [apply Cconj_0 | assumption].
Qed.

(** ** the general model: with Hermitian-consistent inputs the covariances are real and symmetric *)
Definition consistent (n : nat) (g : gmodel) : Prop :=
  forall i j, (i < n)%nat -> (j < n)%nat ->
    Cconj (gC11 g i j) = gC11 g j i /\ Cconj (gC22 g i j) = gC22 g j i /\ Cconj (gC21 g i j) = gC12 g j i /\
    gP11 g i j = gP11 g j i /\ gP22 g i j = gP22 g j i /\
    gS11 g i j = Cconj (gP11 g i j) /\ gS22 g i j = Cconj (gP22 g i j) /\ gS21 g i j = Cconj (gP21 g i j).

Lemma trace2_comm n A B : trace2 n n A B = trace2 n n B A.
Proof. unfold trace2. rewrite csum_swap. apply csum_ext. intros. apply csum_ext. intros. ring. Qed.
Lemma trace2_ext n A B A' B' : (forall i j, (i < n)%nat -> (j < n)%nat -> A i j = A' i j) ->
  (forall i j, (i < n)%nat -> (j < n)%nat -> B i j = B' i j) -> trace2 n n A B = trace2 n n A' B'.
Proof. intros H H'. unfold trace2. apply csum_ext. intros. apply csum_ext. intros. rewrite H, H' by assumption. reflexivity. Qed.
Lemma trace2_conj n A B : Cconj (trace2 n n A B) = trace2 n n (mconj A) (mconj B).
Proof. unfold trace2, mconj. rewrite csum_conj. apply csum_ext. intros. rewrite csum_conj. apply csum_ext. intros. rewrite Cconj_mul. reflexivity. Qed.
Lemma trace2_trans n A B : trace2 n n A B = trace2 n n (trans B) (trans A).
Proof. unfold trace2, trans. apply csum_ext. intros. apply csum_ext. intros. ring. Qed.
Lemma trace2_assoc n A B C' D : trace2 n n (mmul n A B) (mmul n C' D) = trace2 n n (mmul n B C') (mmul n D A).
Proof.
  unfold trace2, mmul.
  transitivity (csum n (fun i => csum n (fun j => csum n (fun k => csum n (fun l => A i k * B k j * (C' j l * D l i)))))).
  - apply csum_ext. intros. apply csum_ext. intros. apply csum_prod.
  - transitivity (csum n (fun i => csum n (fun k => csum n (fun l => csum n (fun j => B k j * C' j l * (D l i * A i k)))))).
    + apply csum_ext. intros i _. rewrite csum_swap. apply csum_ext. intros k _. rewrite csum_swap. apply csum_ext. intros l _.
      apply csum_ext. intros. ring.
    + rewrite csum_swap. apply csum_ext. intros k _. rewrite csum_swap. apply csum_ext. intros l _.
      rewrite csum_swap. symmetry. apply csum_prod.
Qed.

Definition T4 (n : nat) (A B C' D : mat) : C := trace2 n n (mmul n A B) (mmul n C' D).
Lemma T4_ext n A B C' D A' B' C'' D' :
  (forall i j, (i < n)%nat -> (j < n)%nat -> A i j = A' i j /\ B i j = B' i j /\ C' i j = C'' i j /\ D i j = D' i j) ->
  T4 n A B C' D = T4 n A' B' C'' D'.
Proof.
  intros H. unfold T4. apply trace2_ext; intros i j Hi Hj; unfold mmul; apply csum_ext; intros k Hk.
  - rewrite (proj1 (H i k Hi Hk)), (proj1 (proj2 (H k j Hk Hj))). reflexivity.
  - rewrite (proj1 (proj2 (proj2 (H i k Hi Hk)))), (proj2 (proj2 (proj2 (H k j Hk Hj)))). reflexivity.
Qed.
Lemma T4_conj n A B C' D : Cconj (T4 n A B C' D) = T4 n (mconj A) (mconj B) (mconj C') (mconj D).
Proof.
  unfold T4. rewrite trace2_conj. apply trace2_ext; intros i j _ _; unfold mconj, mmul; rewrite csum_conj; apply csum_ext;
    intros; apply Cconj_mul.
Qed.
Lemma T4_trans n A B C' D : T4 n A B C' D = T4 n (trans D) (trans C') (trans B) (trans A).
Proof.
  unfold T4. rewrite trace2_trans. apply trace2_ext; intros i j _ _; unfold trans, mmul; apply csum_ext; intros; ring.
Qed.
Lemma T4_cyc n A B C' D : T4 n A B C' D = T4 n B C' D A.
Proof. apply trace2_assoc. Qed.

Lemma close0_conj n g g' : (forall i j, (i < n)%nat -> (j < n)%nat -> g' i j = Cconj (g i j)) -> all_close0 n g' = all_close0 n g.
Proof.
  intros H. unfold all_close0.
  assert (E : forall f f' : nat -> bool, (forall i, (i < n)%nat -> f i = f' i) -> forallb f (seq 0 n) = forallb f' (seq 0 n)).
  { intros f f' Hf. apply Bool.eq_iff_eq_true. rewrite !forallb_forall.
    split; intros G i Hi; specialize (G i Hi); rewrite in_seq in Hi; rewrite Hf in * by lia; assumption. }
  apply E. intros i Hi. apply E. intros j Hj. unfold close0. rewrite H, Cabs2_conj by assumption. reflexivity.
Qed.
Lemma close0_trans n g : all_close0 n (trans g) = all_close0 n g.
Proof.
  unfold all_close0, trans. apply Bool.eq_iff_eq_true. rewrite !forallb_forall. split; intros G i Hi; apply forallb_forall; intros j Hj.
  - specialize (G j Hj). rewrite forallb_forall in G. apply (G i Hi).
  - specialize (G j Hj). rewrite forallb_forall in G. apply (G i Hi).
Qed.

Lemma general_moments ne E g : consistent ne g ->
  let m := mom_general ne E g in
  forall b c, q_q m c b = q_q m b c /\ qd_qd m b c = Cconj (q_q m b c) /\ q_qd m c b = Cconj (q_qd m b c).
Proof.
  intros H m b c.
  assert (X : forall i j, (i < ne)%nat -> (j < ne)%nat ->
    Cconj (gC11 g i j) = gC11 g j i /\ Cconj (gC22 g i j) = gC22 g j i /\ Cconj (gC21 g i j) = gC12 g j i /\
    gP11 g i j = gP11 g j i /\ gP22 g i j = gP22 g j i /\
    gS11 g i j = Cconj (gP11 g i j) /\ gS22 g i j = Cconj (gP22 g i j) /\ gS21 g i j = Cconj (gP21 g i j)) by exact H.
  assert (G1 : all_close0 ne (gS11 g) = all_close0 ne (gP11 g)) by (apply close0_conj; intros i j Hi Hj; apply (X i j Hi Hj)).
  assert (G2 : all_close0 ne (gS22 g) = all_close0 ne (gP22 g)) by (apply close0_conj; intros i j Hi Hj; apply (X i j Hi Hj)).
  assert (G3 : all_close0 ne (gC12 g) = all_close0 ne (gC21 g)).
  { rewrite <- (close0_trans ne (gC21 g)). apply close0_conj. intros i j Hi Hj. unfold trans.
    destruct (X j i Hj Hi) as (_ & _ & E3 & _). symmetry. exact E3. }
  unfold m, mom_general. cbn [q_q qd_qd q_qd].
  assert (F : forall A B C' D, trace2 ne ne (mmul ne A B) (mmul ne C' D) = T4 ne A B C' D) by reflexivity.
  rewrite !F, G1, G2, G3. clear F. split; [| split].
  - apply (f_equal2 Cadd).
    + destruct (all_close0 ne (gP22 g) || all_close0 ne (gP11 g))%bool; [reflexivity |].
      transitivity (T4 ne (trans (gS11 g)) (trans (trans (E c))) (trans (gP22 g)) (trans (E b))); [| symmetry; apply T4_trans].
      rewrite (T4_cyc ne (trans (gS11 g))). apply T4_ext. intros i j Hi Hj. unfold trans.
      destruct (X i j Hi Hj) as (_ & _ & _ & e1 & e2 & e3 & _). destruct (X j i Hj Hi) as (_ & _ & _ & _ & _ & e3' & _).
      rewrite e3, e3', <- e1. auto.
    + destruct (all_close0 ne (gC21 g)); [reflexivity |].
      transitivity (T4 ne (gC21 g) (E b) (gC21 g) (E c)); apply T4_cyc.
  - rewrite Cconj_add. rewrite (Bool.orb_comm (all_close0 ne (gP11 g))).
    assert (AC : forall x y z w : C, x = w -> y = z -> (x + y = z + w)%C) by (intros x y z w -> ->; ring).
    apply AC.
    + destruct (all_close0 ne (gC21 g)); [symmetry; apply Cconj_0 |].
      rewrite T4_conj. rewrite (T4_trans ne (mconj (E b))). rewrite (T4_cyc ne (ctrans (E b))).
      apply T4_ext. intros i j Hi Hj. unfold trans, ctrans, mconj.
      destruct (X j i Hj Hi) as (_ & _ & e & _). rewrite e. auto.
    + destruct (all_close0 ne (gP22 g) || all_close0 ne (gP11 g))%bool; [symmetry; apply Cconj_0 |].
      rewrite T4_conj. transitivity (T4 ne (gP11 g) (mconj (E c)) (gS22 g) (ctrans (E b))); [apply T4_cyc |].
      rewrite (T4_trans ne (mconj (E b))). apply T4_ext. intros i j Hi Hj. unfold trans, ctrans, mconj.
      destruct (X i j Hi Hj) as (_ & _ & _ & e1 & e2 & e3 & e4 & _). destruct (X j i Hj Hi) as (_ & _ & _ & _ & _ & e3' & e4' & _).
      rewrite e3', e4, Cconj_conj, <- e1, <- e2. auto.
  - rewrite Cconj_add. apply (f_equal2 Cadd).
    + rewrite T4_conj. rewrite (T4_trans ne (mconj (E b))). rewrite (T4_cyc ne (trans (mconj (gC11 g)))).
      apply T4_ext. intros i j Hi Hj. unfold trans, ctrans, mconj.
      destruct (X j i Hj Hi) as (e1 & e2 & _). rewrite e1, e2, Cconj_conj. auto.
    + destruct (all_close0 ne (gP21 g) || all_close0 ne (gS21 g))%bool; [symmetry; apply Cconj_0 |].
      rewrite T4_conj. rewrite (T4_cyc ne (mconj (E b))). rewrite (T4_cyc ne (mconj (gP21 g))).
      apply T4_ext. intros i j Hi Hj. unfold mconj.
      destruct (X i j Hi Hj) as (_ & _ & _ & _ & _ & _ & _ & e). rewrite e, !Cconj_conj. auto.
Qed.

(** the empirical (and any Hermitian-consistent) model: all four returned matrices are real and symmetric, for any
    complex normalisation M *)
Theorem general_covariance_real_symmetric :
  forall ne nd E g M, consistent ne g ->
    let r := covs_at nd M (mom_general ne E g) in
    forall b c,
      im (c_qr r b c) = 0%R /\ c_qr r c b = c_qr r b c /\ im (c_qi r b c) = 0%R /\ c_qi r c b = c_qi r b c /\
      im (c_pr r b c) = 0%R /\ c_pr r c b = c_pr r b c /\ im (c_pi r b c) = 0%R /\ c_pi r c b = c_pi r b c.
Proof.
  intros ne nd E g M H r b c. unfold r. clear r. set (m := mom_general ne E g).
  pose proof (general_moments ne E g H) as K. cbv zeta in K. fold m in K.
  assert (S : forall b c, q_q m c b = q_q m b c) by (intros x y; apply (K x y)).
  assert (D : forall b c, qd_qd m b c = Cconj (q_q m b c)) by (intros x y; apply (K x y)).
  assert (Hm : forall b c, q_qd m c b = Cconj (q_qd m b c)) by (intros x y; apply (K x y)).
  assert (P1 : forall a c, MMqq nd M m c a = MMqq nd M m a c).
  { intros a c'. unfold MMqq, gated. destruct (all_close0 _ _); [reflexivity |]. unfold einsum3.
    rewrite csum_swap. apply csum_ext. intros x _. apply csum_ext. intros y _. rewrite S. ring. }
  assert (P2 : forall a c, MMqdqd nd M m a c = Cconj (MMqq nd M m a c)).
  { intros a c'. unfold MMqq, MMqdqd, gated. rewrite (close0_conj nd (q_q m) (qd_qd m)) by (intros; apply D).
    destruct (all_close0 _ _); [symmetry; apply Cconj_0 |]. unfold einsum3, mconj. rewrite csum_conj.
    apply csum_ext. intros x _. rewrite csum_conj. apply csum_ext. intros y _. rewrite D, !Cconj_mul. reflexivity. }
  assert (P3 : forall a c, MMqqd' nd M m a c = Cconj (MMqqd nd M m a c)).
  { intros a c'. unfold MMqqd, MMqqd', gated. destruct (all_close0 _ _); [symmetry; apply Cconj_0 |].
    unfold einsum3, mconj. rewrite csum_conj. apply csum_ext. intros. rewrite csum_conj. apply csum_ext. intros.
    rewrite !Cconj_mul, Cconj_conj. reflexivity. }
  assert (P4 : forall a c, MMqqd nd M m c a = Cconj (MMqqd nd M m a c)).
  { intros a c'. unfold MMqqd, gated. destruct (all_close0 _ _); [symmetry; apply Cconj_0 |].
    apply einsum3_herm. intros. apply Hm. }
  unfold covs_at. cbn [c_qr c_qi c_pr c_pi].
  unfold cov_q_real, cov_q_imag, cov_p_real, cov_p_imag.
  rewrite !D, !P2, !P3, (S b c), (Hm b c), (P1 b c), (P4 b c), !Cconj_conj.
  repeat split; try (cbn; ring); f_equal; ring.
Qed.

(** empirical covariances are consistent in this sense *)
Theorem empirical_model_consistent :
  forall ne n d1 w1 d2 w2 c11 c22 c21 c12 p11 s11 p22 s22 p21 s21,
    cov ne n d1 w1 d1 w1 false true = Ok c11 -> cov ne n d2 w2 d2 w2 false true = Ok c22 ->
    cov ne n d2 w2 d1 w1 false true = Ok c21 -> cov ne n d1 w1 d2 w2 false true = Ok c12 ->
    cov ne n d1 w1 d1 w1 false false = Ok p11 -> cov ne n d1 w1 d1 w1 true true = Ok s11 ->
    cov ne n d2 w2 d2 w2 false false = Ok p22 -> cov ne n d2 w2 d2 w2 true true = Ok s22 ->
    cov ne n d2 w2 d1 w1 false false = Ok p21 -> cov ne n d2 w2 d1 w1 true true = Ok s21 ->
    consistent ne (mkgm c11 c22 c21 c12 p11 s11 p22 s22 p21 s21).
Proof.
  intros ne n d1 w1 d2 w2 c11 c22 c21 c12 p11 s11 p22 s22 p21 s21 H1 H2 H3 H4 H5 H6 H7 H8 H9 H10 i j Hi Hj. cbn.
  assert (P12 : exists p12, cov ne n d1 w1 d2 w2 false false = Ok p12).
  { unfold cov in *. destruct (existsb _ (seq 0 ne)) in H4 |- *; [discriminate | eauto]. }
  destruct P12 as (p12 & H11).
  repeat split.
  - symmetry. apply (cov_hermitian _ _ _ _ _ H1).
  - symmetry. apply (cov_hermitian _ _ _ _ _ H2).
  - symmetry. apply (cov_exchange _ _ _ _ _ _ _ _ H3 H4).
  - symmetry. apply (cov_pseudo _ _ _ _ _ _ _ _ _ H5 H6 H5).
  - symmetry. apply (cov_pseudo _ _ _ _ _ _ _ _ _ H7 H8 H7).
  - apply (cov_pseudo _ _ _ _ _ _ _ _ _ H5 H6 H5).
  - apply (cov_pseudo _ _ _ _ _ _ _ _ _ H7 H8 H7).
  - apply (cov_pseudo _ _ _ _ _ _ _ _ _ H9 H10 H11).
Qed.
Print Assumptions cov_unit_weights.
Print Assumptions general_covariance_real_symmetric.
