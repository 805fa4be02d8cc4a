From Coq Require Import Reals Lra Sorting.Sorted.
From Verif Require Import Prelude CombineModel CombineProofs SphModel.
Open Scope R_scope.

Lemma sum_ext n f g : (forall i, (i < n)%nat -> f i = g i) -> sum n f = sum n g.
Proof. induction n as [|n IH]; intro E; [reflexivity|]. cbn. rewrite IH by (intros; apply E; lia). rewrite E by lia. reflexivity. Qed.
Lemma sum_zero n f : (forall i, (i < n)%nat -> f i = 0) -> sum n f = 0.
Proof. induction n as [|n IH]; intro E; [reflexivity|]. cbn. rewrite IH by (intros; apply E; lia). rewrite E by lia. lra. Qed.
Lemma sum_plus n f g : sum n (fun i => f i + g i) = sum n f + sum n g.
Proof. induction n as [|n IH]; cbn; [lra|]. rewrite IH. lra. Qed.
Lemma sum_mult_l n c f : sum n (fun i => c * f i) = c * sum n f.
Proof. induction n as [|n IH]; cbn; [lra|]. rewrite IH. lra. Qed.
Lemma sum_mult_r n c f : sum n (fun i => f i * c) = sum n f * c.
Proof. induction n as [|n IH]; cbn; [lra|]. rewrite IH. lra. Qed.
Lemma sum_swap n m f : sum n (fun i => sum m (fun j => f i j)) = sum m (fun j => sum n (fun i => f i j)).
Proof.
  induction n as [|n IH]; cbn; [symmetry; apply sum_zero; reflexivity|]. rewrite IH, <- sum_plus. reflexivity.
Qed.
Lemma sum_single n f j : (j < n)%nat -> (forall i, (i < n)%nat -> i <> j -> f i = 0) -> sum n f = f j.
Proof.
  induction n as [|n IH]; intros L E; [lia|]. cbn. destruct (Nat.eq_dec j n) as [->|N].
  - rewrite sum_zero by (intros i Hi; apply E; lia). lra.
  - rewrite IH by (try lia; intros; apply E; lia). rewrite (E n) by lia. lra.
Qed.
Lemma sum_nonneg n f : (forall i, (i < n)%nat -> 0 <= f i) -> 0 <= sum n f.
Proof. induction n as [|n IH]; intro E; cbn; [lra|]. assert (0 <= sum n f) by (apply IH; intros; apply E; lia). pose proof (E n ltac:(lia)). lra. Qed.

Section P.
Variable bins : list kbin.
Variables Nb Nd : nat.
Variables kperp kpara : nat -> R.
Notation A := (A bins Nd kperp kpara).
Notation Nm := (Nm Nb Nd).
Notation Nk := (Nk bins).
Notation mode_k := (mode_k Nd kperp kpara).

Lemma bin_index_from_spec bs i0 k j : bin_index_from i0 bs k = Some j <->
  exists i b, j = (i0 + i)%nat /\ nth_error bs i = Some b /\ in_bin b k = true /\ forall i' b', (i' < i)%nat -> nth_error bs i' = Some b' -> in_bin b' k = false.
Proof.
  revert i0. induction bs as [|b bs IH]; intro i0; cbn [bin_index_from].
  - split; [discriminate|]. intros (i & b & _ & C & _). destruct i; discriminate.
  - destruct (in_bin b k) eqn:E.
    + split.
      * intro Q. injection Q as <-. exists 0%nat, b. split; [lia|]. split; [reflexivity|]. split; [exact E|]. intros; lia.
      * intros (i & b' & -> & Hn & Hb & F). destruct i as [|i]; [f_equal; lia|]. specialize (F 0%nat b ltac:(lia) eq_refl). congruence.
    + rewrite IH. split.
      * intros (i & b' & -> & Hn & Hb & F). exists (S i), b'. split; [lia|]. split; [exact Hn|]. split; [exact Hb|]. intros [|i'] b'' L Hi; [injection Hi as <-; exact E | apply (F i'); [lia | exact Hi]].
      * intros (i & b' & -> & Hn & Hb & F). destruct i as [|i]; [injection Hn as <-; congruence|]. exists i, b'. split; [lia|]. split; [exact Hn|]. split; [exact Hb|]. intros i' b'' L Hi. apply (F (S i') b''); [lia | exact Hi].
Qed.
Lemma bin_index_spec k j : bin_index bins k = Some j <->
  exists b, nth_error bins j = Some b /\ in_bin b k = true /\ forall i b', (i < j)%nat -> nth_error bins i = Some b' -> in_bin b' k = false.
Proof.
  unfold bin_index. rewrite bin_index_from_spec. split.
  - intros (i & b & -> & S). exists b. exact S.
  - intros (b & S). exists j, b. split; [reflexivity | exact S].
Qed.
Lemma in_bin_spec b k : in_bin b k = true <-> left_edge b < k <= right_edge b.
Proof. unfold in_bin. destruct (Rlt_dec (left_edge b) k); [destruct (Rle_dec k (right_edge b))|]; split; intro; try lra; try discriminate; reflexivity. Qed.
Lemma bin_index_lt k j : bin_index bins k = Some j -> (j < Nk)%nat.
Proof. rewrite bin_index_spec. intros (b & Hb & _). apply nth_error_Some. congruence. Qed.
Lemma bin_index_none k : bin_index bins k = None <-> forall b, In b bins -> ~ (left_edge b < k <= right_edge b).
Proof.
  split.
  - intros E b Hb C. apply in_bin_spec in C. unfold bin_index in E. revert E. generalize 0%nat. induction bins as [|b0 bs IH]; [destruct Hb|]. cbn. intros i E. destruct (in_bin b0 k) eqn:E0; [discriminate|]. destruct Hb as [->|Hb]; [congruence | apply (IH Hb (S i) E)].
  - intro F. destruct (bin_index bins k) as [j|] eqn:E; [|reflexivity]. apply bin_index_spec in E. destruct E as (b & Hb & C & _). exfalso. apply (F b); [apply (nth_error_In _ j), Hb | apply in_bin_spec, C].
Qed.
Lemma A_cases i k : A i k = 0 \/ A i k = 1.
Proof. unfold SphModel.A. destruct (bin_index _ _) as [j|]; [destruct (Nat.eqb j k)|]; auto. Qed.
Lemma A_one i k : A i k = 1 <-> bin_index bins (mode_k i) = Some k.
Proof.
  unfold SphModel.A. destruct (bin_index _ _) as [j|]; [destruct (Nat.eqb_spec j k) as [->|N]|]; split; intro E; try reflexivity; try lra; try discriminate. injection E as ->. congruence.
Qed.
Lemma A_disjoint i k l : k <> l -> A i k * A i l = 0.
Proof.
  intro N. destruct (A_cases i k) as [->|E1]; [lra|]. destruct (A_cases i l) as [->|E2]; [lra|]. apply A_one in E1. apply A_one in E2. congruence.
Qed.
Lemma A_idem i k : A i k * A i k = A i k.
Proof. destruct (A_cases i k) as [->| ->]; lra. Qed.

(** with diagonal weights *)
Variable w : nat -> R.
Notation E := (diagE Nd w).
Lemma EA_diag i k : (0 < Nd)%nat -> EA bins Nd kperp kpara E i k = w i * A i k.
Proof.
  intro Hd. unfold EA. rewrite (sum_single Nd _ (i mod Nd)).
  - unfold diagE. rewrite Nat.eqb_refl. f_equal. f_equal. rewrite (Nat.div_mod i Nd) at 3 by lia. lia.
  - apply Nat.mod_upper_bound. lia.
  - intros d Hd' N. unfold diagE. rewrite (proj2 (Nat.eqb_neq d (i mod Nd)) N). lra.
Qed.
(** total weight in a bin *)
Definition binw (k : nat) : R := sum Nm (fun i => w i * A i k).
Lemma gram_diag k l : (0 < Nd)%nat -> gram bins Nb Nd kperp kpara E k l = if Nat.eqb k l then binw k else 0.
Proof.
  intro Hd. unfold gram. destruct (Nat.eqb_spec k l) as [->|N].
  - apply sum_ext. intros i _. rewrite EA_diag by exact Hd. replace (A i l * (w i * A i l)) with (w i * (A i l * A i l)) by ring. rewrite A_idem. ring.
  - apply sum_zero. intros i _. rewrite EA_diag by exact Hd. replace (A i k * (w i * A i l)) with (w i * (A i k * A i l)) by ring. rewrite A_disjoint by exact N. ring.
Qed.
End P.

(** [np.linalg.pinv] of a diagonal matrix with non-negative entries: entries not above
    1e-15 times the largest are treated as 0 *)
Definition above_cutoff (n : nat) (g : nat -> R) (i : nat) : Prop := forall j, (j < n)%nat -> g j * / IZR (10 ^ 15) < g i.
Definition pinv_diagonal (pinv : nat -> matrix -> matrix) : Prop := forall n (M : matrix) (g : nat -> R),
  (forall i j, (i < n)%nat -> (j < n)%nat -> M i j = if Nat.eqb i j then g i else 0) -> (forall i, (i < n)%nat -> 0 <= g i) ->
  forall i j, (i < n)%nat -> (j < n)%nat ->
    (i <> j -> pinv n M i j = 0) /\ (i = j -> above_cutoff n g i -> pinv n M i i = / g i) /\ (i = j -> ~ above_cutoff n g i -> pinv n M i i = 0).

Section Q.
Variable bins : list kbin.
Variables Nb Nd : nat.
Variables kperp kpara : nat -> R.
Variable pinv : nat -> matrix -> matrix.
Notation A := (A bins Nd kperp kpara).
Notation Nm := (Nm Nb Nd).
Notation Nk := (Nk bins).
Hypothesis PD : pinv_diagonal pinv.
Hypothesis Hd : (0 < Nd)%nat.
Variable w : nat -> R.
Hypothesis Wpos : forall i, (i < Nm)%nat -> 0 <= w i.
Notation E := (diagE Nd w).
Notation Sw := (binw bins Nb Nd kperp kpara w).

Lemma S_nonneg k : 0 <= Sw k.
Proof. apply sum_nonneg. intros i Hi. pose proof (Wpos i Hi). destruct (A_cases bins Nd kperp kpara i k) as [->| ->]; lra. Qed.
Lemma pinv_gram m k : (m < Nk)%nat -> (k < Nk)%nat -> 
  (m <> k -> pinv Nk (gram bins Nb Nd kperp kpara E) m k = 0) /\
  (m = k -> above_cutoff Nk Sw m -> pinv Nk (gram bins Nb Nd kperp kpara E) m m = / Sw m) /\
  (m = k -> ~ above_cutoff Nk Sw m -> pinv Nk (gram bins Nb Nd kperp kpara E) m m = 0).
Proof.
  intros Hm Hk. apply (PD Nk (gram bins Nb Nd kperp kpara E) Sw); try assumption.
  - intros i j _ _. apply gram_diag, Hd.
  - intros i _. apply S_nonneg.
Qed.
Lemma H_diag i k : (k < Nk)%nat -> H bins Nb Nd kperp kpara pinv E i k = w i * A i k * pinv Nk (gram bins Nb Nd kperp kpara E) k k.
Proof.
  intro Hk. unfold H, mmul. rewrite (sum_single Nk _ k Hk).
  - rewrite EA_diag by exact Hd. reflexivity.
  - intros m Hm N. rewrite (proj1 (pinv_gram m k Hm Hk) N). ring.
Qed.
Lemma sph_data_mean data k : (k < Nk)%nat -> above_cutoff Nk Sw k ->
  sph_data bins Nb Nd kperp kpara pinv E data k = sum Nm (fun i => w i * A i k * data i) / Sw k.
Proof.
  intros Hk C. unfold sph_data, Rdiv. rewrite <- sum_mult_r. apply sum_ext. intros i _. rewrite H_diag by exact Hk.
  rewrite (proj1 (proj2 (pinv_gram k k Hk Hk)) eq_refl C). ring.
Qed.
Lemma sph_data_cut data k : (k < Nk)%nat -> ~ above_cutoff Nk Sw k -> sph_data bins Nb Nd kperp kpara pinv E data k = 0.
Proof.
  intros Hk C. apply sum_zero. intros i _. rewrite H_diag by exact Hk. rewrite (proj2 (proj2 (pinv_gram k k Hk Hk)) eq_refl C). ring.
Qed.
Lemma cutoff_pos k : (k < Nk)%nat -> above_cutoff Nk Sw k -> 0 < Sw k.
Proof.
  intros Hk C. specialize (C k Hk). pose proof (S_nonneg k). assert (0 < / IZR (10 ^ 15)) by (apply Rinv_0_lt_compat, IZR_lt; reflexivity). nra.
Qed.
End Q.

(** unit response for any weight matrix *)
Lemma sph_unit bins Nb Nd kperp kpara pinv E p k :
  (forall i, (i < Nk bins)%nat -> (k < Nk bins)%nat -> mmul (Nk bins) (gram bins Nb Nd kperp kpara E) (pinv (Nk bins) (gram bins Nb Nd kperp kpara E)) i k = if Nat.eqb i k then 1 else 0) ->
  (k < Nk bins)%nat ->
  sph_data bins Nb Nd kperp kpara pinv E (fun i => sum (Nk bins) (fun l => A bins Nd kperp kpara i l * p l)) k = p k.
Proof.
  intros G Hk. unfold sph_data.
  transitivity (sum (Nk bins) (fun l => p l * mmul (Nk bins) (gram bins Nb Nd kperp kpara E) (pinv (Nk bins) (gram bins Nb Nd kperp kpara E)) l k)).
  - transitivity (sum (Nm Nb Nd) (fun i => sum (Nk bins) (fun l => H bins Nb Nd kperp kpara pinv E i k * (A bins Nd kperp kpara i l * p l)))).
    { apply sum_ext. intros i _. symmetry. apply sum_mult_l. }
    rewrite sum_swap. apply sum_ext. intros l _. unfold H, mmul. set (P := pinv (Nk bins) (gram bins Nb Nd kperp kpara E)). clearbody P. rewrite <- sum_mult_l. unfold gram.
    transitivity (sum (Nm Nb Nd) (fun i => sum (Nk bins) (fun m => p l * (A bins Nd kperp kpara i l * EA bins Nd kperp kpara E i m * P m k)))).
    { apply sum_ext. intros i _. rewrite <- sum_mult_r. apply sum_ext. intros m _. ring. }
    rewrite sum_swap. apply sum_ext. intros m _. rewrite <- sum_mult_r, <- sum_mult_l. apply sum_ext. intros i _. ring.
  - rewrite (sum_single _ _ k Hk); [rewrite (G k Hk Hk), Nat.eqb_refl; ring|]. intros i Hi N. rewrite (G i Hi Hk), (proj2 (Nat.eqb_neq i k) N). ring.
Qed.
