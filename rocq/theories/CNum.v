(** Complex numbers as pairs of reals, finite sums and complex exponentials (the numpy complex arithmetic
    of the estimator, without rounding). *)
From Coq Require Import Reals Lra Lia Ring ZArith.
From Verif Require Import Prelude.
Open Scope R_scope.

Record C : Set := mkC { re : R; im : R }.
Declare Scope C_scope.
Delimit Scope C_scope with C.
Bind Scope C_scope with C.
Definition C0 := mkC 0 0.
Definition C1 := mkC 1 0.
Definition Ci := mkC 0 1.
Definition RtoC (x : R) := mkC x 0.
Definition Cadd (a b : C) := mkC (re a + re b) (im a + im b).
Definition Copp (a : C) := mkC (- re a) (- im a).
Definition Csub (a b : C) := mkC (re a - re b) (im a - im b).
Definition Cmul (a b : C) := mkC (re a * re b - im a * im b) (re a * im b + im a * re b).
Definition Cconj (a : C) := mkC (re a) (- im a).
Definition Cabs2 (a : C) : R := re a * re a + im a * im a.
Definition Cinv (a : C) := mkC (re a / Cabs2 a) (- im a / Cabs2 a).
Definition Cdiv (a b : C) := Cmul a (Cinv b).
(** exp(i t) *)
Definition Cexpi (t : R) : C := mkC (cos t) (sin t).
Infix "+" := Cadd : C_scope.
Infix "*" := Cmul : C_scope.
Infix "-" := Csub : C_scope.
Infix "/" := Cdiv : C_scope.
Notation "- a" := (Copp a) : C_scope.

Lemma Ceq a b : re a = re b -> im a = im b -> a = b.
Proof. destruct a, b. cbn. intros -> ->. reflexivity. Qed.
Ltac Cby := apply Ceq; cbn; ring.

Lemma C_ring : ring_theory C0 C1 Cadd Cmul Csub Copp eq.
Proof. constructor; intros; Cby. Qed.
Add Ring Cring : C_ring.
Open Scope C_scope.

Lemma Cconj_add a b : Cconj (a + b) = Cconj a + Cconj b. Proof. Cby. Qed.
Lemma Cconj_mul a b : Cconj (a * b) = Cconj a * Cconj b. Proof. Cby. Qed.
Lemma Cconj_conj a : Cconj (Cconj a) = a. Proof. Cby. Qed.
Lemma Cconj_0 : Cconj C0 = C0. Proof. Cby. Qed.
Lemma Cconj_1 : Cconj C1 = C1. Proof. Cby. Qed.
Lemma Cconj_R x : Cconj (RtoC x) = RtoC x. Proof. Cby. Qed.
Lemma RtoC_add x y : RtoC (x + y) = RtoC x + RtoC y. Proof. Cby. Qed.
Lemma RtoC_mul x y : RtoC (x * y) = RtoC x * RtoC y. Proof. Cby. Qed.
Lemma Cabs2_nonneg a : (0 <= Cabs2 a)%R.
Proof. unfold Cabs2. pose proof (Rle_0_sqr (re a)). pose proof (Rle_0_sqr (im a)). unfold Rsqr in *. lra. Qed.
Lemma Cabs2_zero a : Cabs2 a = 0%R -> a = C0.
Proof.
  unfold Cabs2. intro H. pose proof (Rle_0_sqr (re a)). pose proof (Rle_0_sqr (im a)). unfold Rsqr in *.
  apply Ceq; cbn; apply Rsqr_0_uniq; unfold Rsqr; lra.
Qed.
Lemma Cmul_conj a : Cconj a * a = RtoC (Cabs2 a).
Proof. unfold Cabs2. Cby. Qed.
Lemma Cinv_l a : a <> C0 -> Cinv a * a = C1.
Proof.
  intro H. assert (N : Cabs2 a <> 0%R) by (intro E; apply H, Cabs2_zero, E). apply Ceq; cbn; unfold Cabs2 in *; field; exact N.
Qed.
Lemma Cinv_r a : a <> C0 -> a * Cinv a = C1.
Proof. intro H. rewrite (Rmul_comm C_ring). apply Cinv_l, H. Qed.
Lemma Cconj_inv a : Cconj (Cinv a) = Cinv (Cconj a).
Proof.
  assert (E : Cabs2 (Cconj a) = Cabs2 a) by (unfold Cabs2; cbn; ring). apply Ceq; cbn; rewrite E; [reflexivity | unfold Rdiv; ring].
Qed.
Lemma Cconj_div a b : Cconj (a / b) = Cconj a / Cconj b.
Proof. unfold Cdiv. rewrite Cconj_mul, Cconj_inv. reflexivity. Qed.
Lemma Cinv_0 : Cinv C0 = C0.
Proof. apply Ceq; cbn; unfold Rdiv; ring. Qed.
Lemma Cmul_0_inv a b : a * b = C0 -> a = C0 \/ b = C0.
Proof.
  intro H. destruct (Req_dec (Cabs2 a) 0) as [E|E]; [left; apply Cabs2_zero, E|]. right.
  assert (N : a <> C0) by (intros ->; apply E; unfold Cabs2; cbn; ring).
  replace b with (Cinv a * (a * b)) by (rewrite (Rmul_assoc C_ring), (Cinv_l a N); ring). rewrite H. ring.
Qed.

(** exponentials *)
Lemma Cexpi_0 : Cexpi 0 = C1. Proof. unfold Cexpi. rewrite cos_0, sin_0. reflexivity. Qed.
Lemma Cexpi_add a b : Cexpi (a + b) = Cexpi a * Cexpi b.
Proof. apply Ceq; cbn; [rewrite cos_plus | rewrite sin_plus]; ring. Qed.
Lemma Cexpi_opp a : Cexpi (- a) = Cconj (Cexpi a).
Proof. apply Ceq; cbn; [apply cos_neg | apply sin_neg]. Qed.
Lemma Cexpi_abs a : Cabs2 (Cexpi a) = 1%R.
Proof. unfold Cabs2. cbn. pose proof (sin2_cos2 a). unfold Rsqr in *. lra. Qed.
Lemma Cexpi_conj a : Cconj (Cexpi a) * Cexpi a = C1.
Proof. rewrite Cmul_conj, Cexpi_abs. reflexivity. Qed.
Lemma Cexpi_2PI (k : Z) : Cexpi (2 * PI * IZR k) = C1.
Proof.
  assert (N : forall n : nat, Cexpi (2 * PI * INR n) = C1).
  { intro n. induction n as [|n IH]; [cbn [INR]; rewrite Rmult_0_r; apply Cexpi_0|].
    rewrite S_INR, Rmult_plus_distr_l, Cexpi_add, IH, Rmult_1_r. unfold Cexpi. rewrite cos_2PI, sin_2PI. Cby. }
  destruct (Z_le_gt_dec 0 k) as [H|H].
  - rewrite <- (Z2Nat.id k H), <- INR_IZR_INZ. apply N.
  - replace (2 * PI * IZR k)%R with (- (2 * PI * INR (Z.to_nat (- k))))%R.
    + rewrite Cexpi_opp, N. apply Cconj_1.
    + rewrite INR_IZR_INZ, Z2Nat.id by lia. rewrite opp_IZR. ring.
Qed.
Lemma Cexpi_period a (k : Z) : Cexpi (a + 2 * PI * IZR k) = Cexpi a.
Proof. rewrite Cexpi_add, Cexpi_2PI. ring. Qed.
Lemma Cexpi_neq_1 a : (0 < a < 2 * PI)%R -> Cexpi a <> C1.
Proof.
  intros H E. assert (Ec : cos a = 1%R) by exact (f_equal re E).
  assert (S : (0 < sin (a / 2))%R) by (apply sin_gt_0; lra).
  assert (D : cos a = (1 - 2 * sin (a / 2) * sin (a / 2))%R) by (replace a with (2 * (a / 2))%R at 1 by lra; apply cos_2a_sin).
  assert (Q : (0 < sin (a / 2) * sin (a / 2))%R) by (apply Rmult_lt_0_compat; exact S). lra.
Qed.

(** finite sums *)
Fixpoint csum (n : nat) (f : nat -> C) : C := match n with O => C0 | S m => csum m f + f m end.
Lemma csum_ext n f g : (forall i, (i < n)%nat -> f i = g i) -> csum n f = csum n g.
Proof. induction n as [|n IH]; intro H; [reflexivity|]. cbn. rewrite IH by (intros; apply H; lia). rewrite H by lia. reflexivity. Qed.
Lemma csum_zero n f : (forall i, (i < n)%nat -> f i = C0) -> csum n f = C0.
Proof. induction n as [|n IH]; intro H; [reflexivity|]. cbn. rewrite IH by (intros; apply H; lia). rewrite H by lia. ring. Qed.
Lemma csum_add n f g : csum n (fun i => f i + g i) = csum n f + csum n g.
Proof. induction n as [|n IH]; cbn; [ring|]. rewrite IH. ring. Qed.
Lemma csum_mul_l n c f : csum n (fun i => c * f i) = c * csum n f.
Proof. induction n as [|n IH]; cbn; [ring|]. rewrite IH. ring. Qed.
Lemma csum_mul_r n c f : csum n (fun i => f i * c) = csum n f * c.
Proof. induction n as [|n IH]; cbn; [ring|]. rewrite IH. ring. Qed.
Lemma csum_conj n f : Cconj (csum n f) = csum n (fun i => Cconj (f i)).
Proof. induction n as [|n IH]; cbn [csum]; [apply Cconj_0|]. rewrite Cconj_add, IH. reflexivity. Qed.
Lemma csum_swap n m f : csum n (fun i => csum m (fun j => f i j)) = csum m (fun j => csum n (fun i => f i j)).
Proof. induction n as [|n IH]; cbn; [rewrite csum_zero; reflexivity|]. rewrite IH, <- csum_add. reflexivity. Qed.
Lemma csum_single n f j : (j < n)%nat -> (forall i, (i < n)%nat -> i <> j -> f i = C0) -> csum n f = f j.
Proof.
  induction n as [|n IH]; intros Hj H; [lia|]. cbn. destruct (Nat.eq_dec j n) as [->|Ne].
  - rewrite csum_zero by (intros; apply H; lia). ring.
  - rewrite IH by (try lia; intros; apply H; lia). rewrite (H n) by lia. ring.
Qed.
Lemma csum_const n c : csum n (fun _ => c) = RtoC (INR n) * c.
Proof. induction n as [|n IH]; [cbn; Cby|]. cbn [csum]. rewrite IH, S_INR, RtoC_add. change (RtoC 1) with C1. ring. Qed.
Lemma csum_S_l n f : csum (S n) f = f 0%nat + csum n (fun i => f (S i)).
Proof. induction n as [|n IH]; [cbn; ring|]. cbn [csum] in *. rewrite IH. ring. Qed.
Lemma csum_re n f : re (csum n f) = fold_right Rplus 0%R (map (fun i => re (f i)) (rev (seq 0 n))).
Proof. induction n as [|n IH]; [reflexivity|]. rewrite seq_S, rev_app_distr. cbn [csum rev app map fold_right Nat.add]. cbn [re Cadd]. rewrite IH. ring. Qed.
(** sums over a rotated range *)
Lemma csum_app n m f : csum (n + m) f = csum n f + csum m (fun i => f (n + i)%nat).
Proof. induction m as [|m IH]; [rewrite Nat.add_0_r; cbn; ring|]. rewrite Nat.add_succ_r. cbn [csum]. rewrite IH. ring. Qed.

(** the roots of unity sum to zero *)
Fixpoint Cpow (w : C) (k : nat) : C := match k with O => C1 | S m => w * Cpow w m end.
Lemma csum_geom n w : (C1 - w) * csum n (Cpow w) = C1 - Cpow w n.
Proof. induction n as [|n IH]; [cbn; ring|]. cbn [csum Cpow]. replace ((C1 - w) * (csum n (Cpow w) + Cpow w n)) with ((C1 - w) * csum n (Cpow w) + (C1 - w) * Cpow w n) by ring. rewrite IH. ring. Qed.
Lemma Cpow_expi a k : Cpow (Cexpi a) k = Cexpi (a * INR k).
Proof. induction k as [|k IH]; [cbn [Cpow INR]; rewrite Rmult_0_r, Cexpi_0; reflexivity|]. cbn [Cpow]. rewrite IH, <- Cexpi_add. f_equal. rewrite S_INR. ring. Qed.
Lemma Cexpi_root_neq n d : (0 < n)%nat -> (Z.of_nat n * (d / Z.of_nat n) <> d)%Z -> Cexpi (2 * PI * IZR d / INR n) <> C1.
Proof.
  intros Hn Hd. set (r := (d mod Z.of_nat n)%Z). set (q := (d / Z.of_nat n)%Z) in *.
  assert (D : d = (Z.of_nat n * q + r)%Z) by (apply Z_div_mod_eq_full). assert (B : (0 <= r < Z.of_nat n)%Z) by (apply Z.mod_pos_bound; lia).
  assert (Np : (0 < INR n)%R) by (apply lt_0_INR; lia).
  replace (2 * PI * IZR d / INR n)%R with (2 * PI * IZR r / INR n + 2 * PI * IZR q)%R.
  2:{ rewrite D, plus_IZR, mult_IZR, <- INR_IZR_INZ. field. lra. }
  rewrite Cexpi_period. apply Cexpi_neq_1. assert (R1 : (1 <= IZR r)%R) by (apply IZR_le; lia). assert (R2 : (IZR r < INR n)%R) by (rewrite INR_IZR_INZ; apply IZR_lt; lia).
  pose proof PI_RGT_0. split.
  - apply Rmult_lt_0_compat; [|apply Rinv_0_lt_compat, Np]. apply Rmult_lt_0_compat; lra.
  - apply (Rmult_lt_reg_r (INR n)); [exact Np|]. unfold Rdiv. rewrite Rmult_assoc, Rinv_l, Rmult_1_r by lra. apply Rmult_lt_compat_l; lra.
Qed.
Lemma roots_sum n d : (0 < n)%nat -> (Z.of_nat n * (d / Z.of_nat n) <> d)%Z -> csum n (fun k => Cexpi (2 * PI * IZR d / INR n * INR k)) = C0.
Proof.
  intros Hn Hd. set (a := (2 * PI * IZR d / INR n)%R). assert (E : csum n (fun k => Cexpi (a * INR k)) = csum n (Cpow (Cexpi a))) by (apply csum_ext; intros; rewrite Cpow_expi; reflexivity).
  rewrite E. pose proof (csum_geom n (Cexpi a)) as G. rewrite Cpow_expi in G.
  assert (P : Cexpi (a * INR n) = C1). { unfold a. replace (2 * PI * IZR d / INR n * INR n)%R with (2 * PI * IZR d)%R by (field; apply not_0_INR; lia). apply Cexpi_2PI. }
  rewrite P in G. replace (C1 - C1) with C0 in G by ring. apply Cmul_0_inv in G as [G|G]; [|exact G].
  exfalso. apply (Cexpi_root_neq n d Hn Hd). fold a. replace (Cexpi a) with (C1 - (C1 - Cexpi a)) by ring. rewrite G. ring.
Qed.
