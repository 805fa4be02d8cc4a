(** C22, C50-C53: spherical averaging. Matrices and modes are those of one window, time and
    polarization; the mode (b, d) has index b * Nd + d. *)
From Coq Require Import Reals Lra Sorting.Sorted.
From Verif Require Import Prelude ListLemmas CombineModel CombineProofs SphModel SphProofs.
Open Scope R_scope.

(** a function with the assumed behaviour of [np.linalg.pinv] on diagonal matrices exists *)
Definition cutoff_b (n : nat) (M : matrix) (i : nat) : bool := forallb (fun j => if Rlt_dec (M j j * / IZR (10 ^ 15)) (M i i) then true else false) (seq 0 n).
Definition pinv0 (n : nat) (M : matrix) : matrix := fun i j => if Nat.eqb i j then if cutoff_b n M i then / M i i else 0 else 0.
Lemma pinv0_diagonal : pinv_diagonal pinv0.
Proof.
  intros n M g HM Hg i j Hi Hj. unfold pinv0.
  assert (C : cutoff_b n M i = true <-> above_cutoff n g i).
  { unfold cutoff_b, above_cutoff. rewrite forallb_forall. split.
    - intros F j0 Hj0. specialize (F j0 ltac:(apply in_seq; lia)). rewrite (HM j0 j0), (HM i i), !Nat.eqb_refl in F by assumption. destruct (Rlt_dec _ _); [assumption | discriminate].
    - intros F j0 Hj0. apply in_seq in Hj0. rewrite (HM j0 j0), (HM i i), !Nat.eqb_refl by (assumption || lia). destruct (Rlt_dec _ _) as [|N]; [reflexivity|]. exfalso. apply N, F. lia. }
  split; [intro N; rewrite (proj2 (Nat.eqb_neq i j) N); reflexivity|]. rewrite Nat.eqb_refl. split; intros <- Q.
  - rewrite (proj2 C Q), (HM i i), Nat.eqb_refl by assumption. reflexivity.
  - destruct (cutoff_b n M i); [exfalso; apply Q, C; reflexivity | reflexivity].
Qed.

(** every mode enters at most one bin, whose interval (left, right] contains its |k|; a mode in
    the interval of some bin enters exactly one; a mode outside all bins enters none *)
Theorem C22_assignment : forall bins Nd kperp kpara i,
  (forall k, A bins Nd kperp kpara i k = 0 \/ A bins Nd kperp kpara i k = 1) /\
  (forall k, A bins Nd kperp kpara i k = 1 -> exists b, nth_error bins k = Some b /\
     centre b - width b / 2 < sqrt (kperp (i / Nd)%nat ^ 2 + kpara (i mod Nd)%nat ^ 2) <= centre b + width b / 2) /\
  (forall k l, A bins Nd kperp kpara i k = 1 -> A bins Nd kperp kpara i l = 1 -> k = l) /\
  ((exists k, (k < length bins)%nat /\ A bins Nd kperp kpara i k = 1) <->
   exists b, In b bins /\ centre b - width b / 2 < sqrt (kperp (i / Nd)%nat ^ 2 + kpara (i mod Nd)%nat ^ 2) <= centre b + width b / 2).
Proof.
  intros bins Nd kperp kpara i. split; [apply A_cases|]. split; [|split].
  - intros k E. apply A_one, bin_index_spec in E. destruct E as (b & Hb & C & _). exists b. split; [exact Hb | apply in_bin_spec, C].
  - intros k l E1 E2. apply A_one in E1. apply A_one in E2. congruence.
  - split.
    + intros (k & Hk & E). apply A_one, bin_index_spec in E. destruct E as (b & Hb & C & _). exists b. split; [apply (nth_error_In _ k), Hb | apply in_bin_spec, C].
    + intros (b & Hb & C). destruct (bin_index bins (mode_k Nd kperp kpara i)) as [k|] eqn:E.
      * exists k. split; [apply (bin_index_lt _ _ _ E) | apply A_one, E].
      * exfalso. apply (proj1 (bin_index_none _ _) E b Hb C).
Qed.
Print Assumptions C22_assignment.

(** with diagonal weights w >= 0 the binned power is the weighted mean of the modes in the bin,
    for every bin whose total weight is more than 1e-15 of the largest total weight *)
Theorem C22_mean : forall pinv, pinv_diagonal pinv -> forall bins Nb Nd kperp kpara w data k, (0 < Nd)%nat ->
  (forall i, (i < Nb * Nd)%nat -> 0 <= w i) -> (k < length bins)%nat ->
  let W l := sum (Nb * Nd) (fun i => w i * A bins Nd kperp kpara i l) in
  (forall l, (l < length bins)%nat -> W l * / IZR (10 ^ 15) < W k) ->
  0 < W k /\ sph_data bins Nb Nd kperp kpara pinv (diagE Nd w) data k = sum (Nb * Nd) (fun i => w i * A bins Nd kperp kpara i k * data i) / W k.
Proof.
  intros pinv PD bins Nb Nd kperp kpara w data k Hd Wp Hk W C. split.
  - apply (cutoff_pos bins Nb Nd kperp kpara w Wp k Hk C).
  - apply sph_data_mean; assumption.
Qed.
Print Assumptions C22_mean.
(** below that, the bin is 0 *)
Theorem C22_cutoff : forall pinv, pinv_diagonal pinv -> forall bins Nb Nd kperp kpara w data k, (0 < Nd)%nat ->
  (forall i, (i < Nb * Nd)%nat -> 0 <= w i) -> (k < length bins)%nat ->
  let W l := sum (Nb * Nd) (fun i => w i * A bins Nd kperp kpara i l) in
  (exists l, (l < length bins)%nat /\ W k <= W l * / IZR (10 ^ 15)) ->
  sph_data bins Nb Nd kperp kpara pinv (diagE Nd w) data k = 0.
Proof.
  intros pinv PD bins Nb Nd kperp kpara w data k Hd Wp Hk W (l & Hl & C). apply sph_data_cut; try assumption.
  intro Q. specialize (Q l Hl). unfold W in C. change (sum (Nb * Nd) (fun i => w i * A bins Nd kperp kpara i k)) with (binw bins Nb Nd kperp kpara w k) in C. change (sum (Nb * Nd) (fun i => w i * A bins Nd kperp kpara i l)) with (binw bins Nb Nd kperp kpara w l) in C. lra.
Qed.
Print Assumptions C22_cutoff.
(** a spectrum that is constant in every bin is recovered exactly, for any weight matrix (in
    particular inverse covariances) whose normal matrix the pseudo-inverse inverts *)
Theorem C22_unit_response : forall pinv bins Nb Nd kperp kpara E p k, (k < length bins)%nat ->
  let G := gram bins Nb Nd kperp kpara E in
  (forall i, (i < length bins)%nat -> sum (length bins) (fun m => G i m * pinv (length bins) G m k) = if Nat.eqb i k then 1 else 0) ->
  sph_data bins Nb Nd kperp kpara pinv E (fun i => sum (length bins) (fun l => A bins Nd kperp kpara i l * p l)) k = p k.
Proof. intros pinv bins Nb Nd kperp kpara E p k Hk G HG. apply sph_unit; [intros i Hi _; apply HG, Hi | exact Hk]. Qed.
Print Assumptions C22_unit_response.

(** a concrete case: two baseline-pairs with k_perp 1 and 2, one delay, two bins *)
Definition ex_bins := [mkbin 1 1; mkbin 2 1].
Definition ex_kperp (b : nat) : R := INR (S b).
Lemma ex_k b : kmag (ex_kperp b) 0 = ex_kperp b.
Proof. unfold kmag, ex_kperp. replace (INR (S b) ^ 2 + 0 ^ 2) with (INR (S b) ^ 2) by ring. apply sqrt_pow2, pos_INR. Qed.
Lemma ex_A i k : (i < 2)%nat -> A ex_bins 1 ex_kperp (fun _ => 0) i k = if Nat.eqb i k then 1 else 0.
Proof.
  intro Hi. unfold A, mode_k. rewrite ex_k. rewrite Nat.div_1_r. destruct i as [|[|i]]; [| | lia]; unfold bin_index, bin_index_from, ex_bins, in_bin, left_edge, right_edge, ex_kperp; cbn [centre width INR].
  - destruct (Rlt_dec _ _) as [_|N]; [|exfalso; lra]. destruct (Rle_dec _ _) as [_|N]; [|exfalso; lra]. reflexivity.
  - destruct (Rlt_dec _ _) as [_|N]; [|exfalso; lra]. destruct (Rle_dec _ _) as [N|_]; [exfalso; lra|]. destruct (Rlt_dec _ _) as [_|N]; [|exfalso; lra]. destruct (Rle_dec _ _) as [_|N]; [|exfalso; lra]. reflexivity.
Qed.
Lemma ex_W w l : (l < 2)%nat -> sum (2 * 1) (fun i => w i * A ex_bins 1 ex_kperp (fun _ => 0) i l) = w l.
Proof. intro Hl. cbn [Nat.mul Nat.add sum]. rewrite !ex_A by lia. destruct l as [|[|l]]; [| | lia]; cbn; ring. Qed.
Example C22_applies : sph_data ex_bins 2 1 ex_kperp (fun _ => 0) pinv0 (diagE 1 (w_uniform 1 (fun _ => false))) (fun i => INR (5 + i)) 1 = 6.
Proof.
  destruct (C22_mean pinv0 pinv0_diagonal ex_bins 2 1 ex_kperp (fun _ => 0) (w_uniform 1 (fun _ => false)) (fun i => INR (5 + i)) 1) as [_ E].
  - lia.
  - intros i _. unfold w_uniform. lra.
  - cbn; lia.
  - intros l Hl. cbn in Hl. rewrite !ex_W by lia. unfold w_uniform. assert (/ IZR (10 ^ 15) < 1); [|lra]. rewrite <- Rinv_1. apply Rinv_lt_contravar; [|apply IZR_lt, Z.ltb_lt; vm_compute; reflexivity]. rewrite Rmult_1_l. apply IZR_lt, Z.ltb_lt; vm_compute; reflexivity.
  - rewrite E. cbn [Nat.mul Nat.add sum]. rewrite !ex_A by lia. cbn [Nat.eqb]. unfold w_uniform. cbn [INR]. field.
Qed.

(** * C50: error bars *)
(** baseline-pairs that are flagged (integration time times number of samples 0) do not enter, whatever their data *)
Theorem C22_flagged_ignored : forall pinv bins Nb Nd kperp kpara flagged data data' k, (0 < Nd)%nat ->
  (forall i, (i < Nb * Nd)%nat -> flagged (i / Nd)%nat = false -> data i = data' i) ->
  sph_data bins Nb Nd kperp kpara pinv (diagE Nd (w_uniform Nd flagged)) data k = sph_data bins Nb Nd kperp kpara pinv (diagE Nd (w_uniform Nd flagged)) data' k.
Proof.
  intros pinv bins Nb Nd kperp kpara flagged data data' k Hd D. unfold sph_data. apply sum_ext. intros i Hi. unfold Nm in Hi.
  destruct (flagged (i / Nd)%nat) eqn:F; [|rewrite (D i Hi F); reflexivity].
  enough (Z : H bins Nb Nd kperp kpara pinv (diagE Nd (w_uniform Nd flagged)) i k = 0) by (rewrite Z; ring).
  unfold H, mmul. apply sum_zero. intros m _. rewrite EA_diag by exact Hd. unfold w_uniform. rewrite F. ring.
Qed.
Print Assumptions C22_flagged_ignored.
(** unflagged ones all have the same weight *)
Theorem C22_uniform_mean : forall pinv, pinv_diagonal pinv -> forall bins Nb Nd kperp kpara (flagged : nat -> bool) data k, (0 < Nd)%nat -> (k < length bins)%nat ->
  let N l := sum (Nb * Nd) (fun i => (if flagged (i / Nd)%nat then 0 else 1) * A bins Nd kperp kpara i l) in
  (forall l, (l < length bins)%nat -> N l * / IZR (10 ^ 15) < N k) ->
  sph_data bins Nb Nd kperp kpara pinv (diagE Nd (w_uniform Nd flagged)) data k =
  sum (Nb * Nd) (fun i => (if flagged (i / Nd)%nat then 0 else 1) * A bins Nd kperp kpara i k * data i) / N k.
Proof.
  intros pinv PD bins Nb Nd kperp kpara flagged data k Hd Hk N C.
  apply (C22_mean pinv PD bins Nb Nd kperp kpara (w_uniform Nd flagged) data k Hd); [|exact Hk|exact C].
  intros i _. unfold w_uniform. destruct (flagged (i / Nd)%nat); lra.
Qed.
Print Assumptions C22_uniform_mean.
(** inverse-variance weights *)
Theorem C22_inverse_variance_mean : forall pinv, pinv_diagonal pinv -> forall bins Nb Nd kperp kpara err data k, (0 < Nd)%nat -> (k < length bins)%nat ->
  (forall i, (i < Nb * Nd)%nat -> / IZR (10 ^ 40) <= err i ^ 2) ->
  let W l := sum (Nb * Nd) (fun i => / err i ^ 2 * A bins Nd kperp kpara i l) in
  (forall l, (l < length bins)%nat -> W l * / IZR (10 ^ 15) < W k) ->
  sph_data bins Nb Nd kperp kpara pinv (diagE Nd (w_error err)) data k =
  sum (Nb * Nd) (fun i => / err i ^ 2 * A bins Nd kperp kpara i k * data i) / W k.
Proof.
  intros pinv PD bins Nb Nd kperp kpara err data k Hd Hk Rg W C.
  assert (T : 0 < / IZR (10 ^ 40)) by (apply Rinv_0_lt_compat, IZR_lt, Z.ltb_lt; vm_compute; reflexivity).
  assert (We : forall i, (i < Nb * Nd)%nat -> w_error err i = / err i ^ 2).
  { intros i Hi. unfold w_error, tiny. rewrite Rmax_right by apply Rg, Hi. unfold Rdiv. apply Rmult_1_l. }
  assert (WS : forall l, sum (Nb * Nd) (fun i => w_error err i * A bins Nd kperp kpara i l) = W l).
  { intro l. apply sum_ext. intros i Hi. rewrite We by exact Hi. reflexivity. }
  destruct (C22_mean pinv PD bins Nb Nd kperp kpara (w_error err) data k Hd) as [_ E]; [|exact Hk| |].
  - intros i Hi. rewrite We by exact Hi. pose proof (Rg i Hi). left. apply Rinv_0_lt_compat. lra.
  - intros l Hl. rewrite !WS. apply C, Hl.
  - rewrite E, WS. f_equal. apply sum_ext. intros i Hi. rewrite We by exact Hi. reflexivity.
Qed.
Print Assumptions C22_inverse_variance_mean.

(** the covariance of two bins: the covariances of all pairs of modes of the same baseline-pair, weighted like the means;
    modes of different baseline-pairs count as uncorrelated, whatever [cov] says *)
Theorem sph_covariance : forall pinv, pinv_diagonal pinv -> forall bins Nb Nd kperp kpara w cov k l, (0 < Nd)%nat ->
  (forall i, (i < Nb * Nd)%nat -> 0 <= w i) -> (k < length bins)%nat -> (l < length bins)%nat ->
  (forall i j, (i < Nb * Nd)%nat -> (j < Nb * Nd)%nat -> Rabs (cov i j) <= IZR (10 ^ 40)) ->
  let W m := sum (Nb * Nd) (fun i => w i * A bins Nd kperp kpara i m) in
  (forall m, (m < length bins)%nat -> W m * / IZR (10 ^ 15) < W k) -> (forall m, (m < length bins)%nat -> W m * / IZR (10 ^ 15) < W l) ->
  sph_cov bins Nb Nd kperp kpara pinv (diagE Nd w) cov k l =
  sum (Nb * Nd) (fun i => sum (Nb * Nd) (fun j => if Nat.eq_dec (i / Nd) (j / Nd) then w i * A bins Nd kperp kpara i k * cov i j * (w j * A bins Nd kperp kpara j l) else 0))
  / (W k * W l).
Proof.
  intros pinv PD bins Nb Nd kperp kpara w cov k l Hd Wp Hk Hl Rg W Ck Cl.
  pose proof (cutoff_pos bins Nb Nd kperp kpara w Wp k Hk Ck) as Pk. pose proof (cutoff_pos bins Nb Nd kperp kpara w Wp l Hl Cl) as Pl.
  change (binw bins Nb Nd kperp kpara w k) with (W k) in Pk. change (binw bins Nb Nd kperp kpara w l) with (W l) in Pl.
  assert (G : forall i m, (m < length bins)%nat -> (forall p, (p < length bins)%nat -> W p * / IZR (10 ^ 15) < W m) ->
    H bins Nb Nd kperp kpara pinv (diagE Nd w) i m = w i * A bins Nd kperp kpara i m * / W m).
  { intros i m Hm Cm. rewrite (H_diag bins Nb Nd kperp kpara pinv PD Hd w Wp) by exact Hm.
    rewrite (proj1 (proj2 (pinv_gram bins Nb Nd kperp kpara pinv PD Hd w Wp m m Hm Hm)) eq_refl Cm). reflexivity. }
  unfold sph_cov. change (Nm Nb Nd) with (Nb * Nd)%nat. unfold Rdiv. rewrite <- sum_mult_r. apply sum_ext. intros i Hi.
  rewrite <- sum_mult_r. apply sum_ext. intros j Hj. rewrite !G by assumption.
  destruct (Nat.eq_dec (i / Nd) (j / Nd)) as [E|E].
  - rewrite (proj2 (Nat.eqb_eq _ _) E). pose proof (Rg i j Hi Hj) as B. unfold huge. pose proof (Rle_abs (cov i j)) as B1. pose proof (Rle_abs (- cov i j)) as B2. rewrite Rabs_Ropp in B2.
    rewrite Rmin_right by lra. rewrite Rmax_right by lra. field. lra.
  - rewrite (proj2 (Nat.eqb_neq _ _) E). ring.
Qed.
Print Assumptions sph_covariance.

Lemma sph_stat_value pinv bins Nb Nd kperp kpara w stat k : pinv_diagonal pinv -> (0 < Nd)%nat -> (forall i, (i < Nb * Nd)%nat -> 0 <= w i) -> (k < length bins)%nat ->
  above_cutoff (length bins) (binw bins Nb Nd kperp kpara w) k ->
  sum (Nb * Nd) (fun i => H bins Nb Nd kperp kpara pinv (diagE Nd w) i k * clip_sq (stat i) * H bins Nb Nd kperp kpara pinv (diagE Nd w) i k)
  = sum (Nb * Nd) (fun i => w i ^ 2 * A bins Nd kperp kpara i k * clip_sq (stat i)) / (binw bins Nb Nd kperp kpara w k) ^ 2.
Proof.
  intros PD Hd Wp Hk C. unfold Rdiv. rewrite <- sum_mult_r. apply sum_ext. intros i _. rewrite (H_diag bins Nb Nd kperp kpara pinv PD Hd w Wp) by exact Hk.
  rewrite (proj1 (proj2 (pinv_gram bins Nb Nd kperp kpara pinv PD Hd w Wp k k Hk Hk)) eq_refl C). rewrite <- (A_idem bins Nd kperp kpara i k) at 3.
  pose proof (cutoff_pos bins Nb Nd kperp kpara w Wp k Hk C). field. lra.
Qed.
(** weighting by the errors themselves: the error of a bin is 1/sqrt(sum of 1/error^2) over the
    modes in it, as long as that is above 1e-8 and the squared errors are within [1e-40, 1e40] *)
Theorem C50_errors : forall pinv, pinv_diagonal pinv -> forall bins Nb Nd kperp kpara stat k, (0 < Nd)%nat -> (k < length bins)%nat ->
  (forall i, (i < Nb * Nd)%nat -> / IZR (10 ^ 40) <= stat i ^ 2 <= IZR (10 ^ 40)) ->
  let W l := sum (Nb * Nd) (fun i => / stat i ^ 2 * A bins Nd kperp kpara i l) in
  (forall l, (l < length bins)%nat -> W l * / IZR (10 ^ 15) < W k) ->
  / IZR (10 ^ 8) < 1 / sqrt (W k) ->
  sph_stat bins Nb Nd kperp kpara pinv (diagE Nd (w_error stat)) stat k = 1 / sqrt (W k).
Proof.
  intros pinv PD bins Nb Nd kperp kpara stat k Hd Hk Rg W C Big.
  assert (T : 0 < / IZR (10 ^ 40)) by (apply Rinv_0_lt_compat, IZR_lt, Z.ltb_lt; vm_compute; reflexivity).
  assert (We : forall i, (i < Nb * Nd)%nat -> w_error stat i = / stat i ^ 2).
  { intros i Hi. unfold w_error, tiny. rewrite Rmax_right by apply Rg, Hi. unfold Rdiv. apply Rmult_1_l. }
  assert (Wp : forall i, (i < Nb * Nd)%nat -> 0 <= w_error stat i).
  { intros i Hi. rewrite We by exact Hi. pose proof (Rg i Hi). left. apply Rinv_0_lt_compat. lra. }
  assert (WS : forall l, binw bins Nb Nd kperp kpara (w_error stat) l = W l).
  { intro l. apply sum_ext. intros i Hi. rewrite We by exact Hi. reflexivity. }
  assert (C' : above_cutoff (length bins) (binw bins Nb Nd kperp kpara (w_error stat)) k) by (intros l Hl; rewrite !WS; apply C, Hl).
  pose proof (cutoff_pos bins Nb Nd kperp kpara (w_error stat) Wp k Hk C') as P. rewrite WS in P.
  unfold sph_stat. change (Nm Nb Nd) with (Nb * Nd)%nat. rewrite sph_stat_value by assumption. rewrite WS.
  assert (V : sum (Nb * Nd) (fun i => w_error stat i ^ 2 * A bins Nd kperp kpara i k * clip_sq (stat i)) = W k).
  { apply sum_ext. intros i Hi. rewrite We by exact Hi. pose proof (Rg i Hi) as Ri. unfold clip_sq, huge. rewrite Rmax_right by lra. rewrite Rmin_right by lra. field. intro Z. rewrite Z in Ri. lra. }
  rewrite V. replace (W k / W k ^ 2) with (/ W k) by (field; lra).
  assert (Sq : sqrt (/ W k) = 1 / sqrt (W k)). { rewrite sqrt_inv. unfold Rdiv. lra. }
  rewrite Sq. destruct (Rle_dec _ _) as [L|L]; [|reflexivity]. exfalso. assert (0 < 1 / sqrt (W k)) by (unfold Rdiv; rewrite Rmult_1_l; apply Rinv_0_lt_compat, sqrt_lt_R0, P). rewrite Rabs_pos_eq in L by lra. lra.
Qed.
Print Assumptions C50_errors.
(** errors that are small numbers are replaced by 1e40: a single mode with error 1e-9 *)
Theorem C50_small_errors_refuted : forall pinv, pinv_diagonal pinv ->
  exists bins Nb Nd kperp kpara stat k, (k < length bins)%nat /\ (forall i, 0 < stat i <= / IZR (10 ^ 9)) /\
    sph_stat bins Nb Nd kperp kpara pinv (diagE Nd (w_error stat)) stat k = IZR (10 ^ 40).
Proof.
  intros pinv PD. exists [mkbin 1 1], 1%nat, 1%nat, (fun _ => 1), (fun _ => 0), (fun _ => / IZR (10 ^ 9)), 0%nat.
  assert (P9 : 0 < / IZR (10 ^ 9)) by (apply Rinv_0_lt_compat, IZR_lt, Z.ltb_lt; vm_compute; reflexivity).
  split; [cbn; lia|]. split; [intros _; lra|].
  assert (EA1 : A [mkbin 1 1] 1 (fun _ => 1) (fun _ => 0) 0%nat 0%nat = 1).
  { apply A_one. unfold mode_k, kmag. replace (1 ^ 2 + 0 ^ 2) with 1 by ring. rewrite sqrt_1. unfold bin_index, bin_index_from, in_bin, left_edge, right_edge; cbn [centre width].
    destruct (Rlt_dec _ _) as [_|N]; [|exfalso; lra]. destruct (Rle_dec _ _) as [_|N]; [|exfalso; lra]. reflexivity. }
  set (stat := fun _ : nat => / IZR (10 ^ 9)). set (w := w_error stat).
  assert (Sq : stat 0%nat ^ 2 = / IZR (10 ^ 18)). { unfold stat. rewrite pow_inv. f_equal. rewrite pow_IZR. f_equal. }
  assert (L40 : / IZR (10 ^ 40) <= / IZR (10 ^ 18)). { apply Rinv_le_contravar; [apply IZR_lt, Z.ltb_lt; vm_compute; reflexivity | apply IZR_le, Z.leb_le; vm_compute; reflexivity]. }
  assert (Ew : w 0%nat = IZR (10 ^ 18)). { unfold w, w_error, tiny. rewrite Sq, Rmax_right by exact L40. unfold Rdiv. rewrite Rmult_1_l. apply Rinv_inv. }
  assert (P18 : 0 < IZR (10 ^ 18)) by (apply IZR_lt, Z.ltb_lt; vm_compute; reflexivity).
  assert (ES : forall k, (k < 1)%nat -> binw [mkbin 1 1] 1 1 (fun _ => 1) (fun _ => 0) w k = IZR (10 ^ 18)).
  { intros [|k] Hk; [|lia]. unfold binw. change (Nm 1 1) with 1%nat. cbn [sum]. rewrite EA1, Ew. ring. }
  assert (L1 : / IZR (10 ^ 15) < 1). { rewrite <- Rinv_1. apply Rinv_lt_contravar; [rewrite Rmult_1_l|]; apply IZR_lt, Z.ltb_lt; vm_compute; reflexivity. }
  assert (C : above_cutoff (length [mkbin 1 1]) (binw [mkbin 1 1] 1 1 (fun _ => 1) (fun _ => 0) w) 0).
  { intros j Hj. cbn in Hj. rewrite !ES by lia. nra. }
  unfold sph_stat. change (Nm 1 1) with (1 * 1)%nat. fold stat. fold w. assert (Wp : forall i, (i < 1 * 1)%nat -> 0 <= w i).
  { intros i Hi. assert (i = 0%nat) by lia. subst i. rewrite Ew. left. exact P18. }
  rewrite (sph_stat_value pinv [mkbin 1 1] 1 1 (fun _ => 1) (fun _ => 0) w stat 0 PD Nat.lt_0_1 Wp Nat.lt_0_1 C).
  - rewrite ES by lia. change (1 * 1)%nat with 1%nat. cbn [sum]. rewrite EA1, Ew. unfold clip_sq. rewrite Sq.
    assert (Pi : 0 < / IZR (10 ^ 18)) by (apply Rinv_0_lt_compat, P18).
    rewrite Rmax_right by lra. rewrite Rmin_right; [|unfold huge; apply Rle_trans with 1; [rewrite <- Rinv_1; apply Rinv_le_contravar; [lra | apply IZR_le, Z.leb_le; vm_compute; reflexivity] | apply IZR_le, Z.leb_le; vm_compute; reflexivity]].
    replace ((0 + IZR (10 ^ 18) ^ 2 * 1 * / IZR (10 ^ 18)) / IZR (10 ^ 18) ^ 2) with (/ IZR (10 ^ 18)) by (field; lra).
    assert (Sv : sqrt (/ IZR (10 ^ 18)) = / IZR (10 ^ 9)) by (rewrite <- Sq; unfold stat; apply sqrt_pow2; lra). rewrite Sv.
    destruct (Rle_dec _ _) as [_|N]; [reflexivity|]. exfalso. apply N. unfold stat. rewrite Rabs_pos_eq by lra. apply Rinv_le_contravar; [apply IZR_lt, Z.ltb_lt; vm_compute; reflexivity | apply IZR_le, Z.leb_le; vm_compute; reflexivity].
Qed.
Print Assumptions C50_small_errors_refuted.

(** * C51: integration time of the average *)
Theorem C51_one_pair_partial : forall Nd E ints, tiny <= sum Nd (fun d => E d d) -> sph_integration 1 Nd E ints = ints 0%nat.
Proof.
  intros Nd E ints T. unfold sph_integration, Emean, trace, Nm. rewrite Nat.mul_1_l, Nat.min_id. cbn [sum]. replace (sum Nd (fun d => E (0 * Nd + d)%nat d)) with (sum Nd (fun d => E d d)) by (apply sum_ext; intros; f_equal).
  rewrite Rmax_right by exact T. field. assert (0 < tiny) by (apply Rinv_0_lt_compat, IZR_lt, Z.ltb_lt; vm_compute; reflexivity). lra.
Qed.
Print Assumptions C51_one_pair_partial.
(** several baseline-pairs with the same integration time T and uniform weights: not T but Nb * T *)
Theorem C51_integration_refuted : forall Nb Nd T, (0 < Nb)%nat -> (0 < Nd)%nat ->
  sph_integration Nb Nd (diagE Nd (w_uniform Nd (fun _ => false))) (fun _ => T) = INR Nb * T.
Proof.
  intros Nb Nd T HNb HNd. unfold sph_integration, Emean, trace, Nm. replace (Nat.min (Nb * Nd) Nd) with Nd by nia.
  assert (E1 : forall b d, (d < Nd)%nat -> diagE Nd (w_uniform Nd (fun _ => false)) (b * Nd + d)%nat d = 1).
  { intros b d Hd. unfold diagE, w_uniform. replace ((b * Nd + d) mod Nd)%nat with d; [rewrite Nat.eqb_refl; reflexivity|]. rewrite Nat.add_comm, Nat.mod_add by lia. symmetry. apply Nat.mod_small, Hd. }
  assert (Sn : forall n, sum n (fun _ => 1) = INR n). { induction n as [|n IH]; [reflexivity|]. cbn [sum]. rewrite IH, S_INR. reflexivity. }
  assert (S1 : forall b, sum Nd (fun d => diagE Nd (w_uniform Nd (fun _ => false)) (b * Nd + d)%nat d) = INR Nd).
  { intro b. rewrite <- Sn. apply sum_ext. intros d Hd. apply E1, Hd. }
  rewrite (sum_ext Nd _ (fun d => diagE Nd (w_uniform Nd (fun _ => false)) (0 * Nd + d)%nat d)) by (intros; reflexivity). rewrite (S1 0%nat).
  rewrite (sum_ext Nb _ (fun b => T * INR Nd * 1)) by (intros b _; rewrite S1; ring). rewrite sum_mult_l, Sn.
  assert (1 <= INR Nd) by (apply (le_INR 1); lia). rewrite Rmax_right; [field; lra|]. apply Rle_trans with 1; [|assumption]. unfold tiny. rewrite <- Rinv_1. apply Rinv_le_contravar; [lra | apply IZR_le, Z.leb_le; vm_compute; reflexivity].
Qed.
Print Assumptions C51_integration_refuted.

(** * C52: metadata *)
(** without time averaging, when every baseline-pair has the rows of the first one and their
    times and LSTs increase, entry i of the time and LST arrays is that of data row i *)
Theorem C52_metadata : forall rows,
  (forall r, In r rows -> exists r', In r' (first_rows rows) /\ r_time r' = r_time r /\ r_lst r' = r_lst r) ->
  StronglySorted Z.lt (map r_time (first_rows rows)) -> StronglySorted Z.lt (map r_lst (first_rows rows)) ->
  length (sph_times rows) = length (first_rows rows) /\ sph_times rows = map r_time (first_rows rows) /\ sph_lsts rows = map r_lst (first_rows rows).
Proof.
  intros rows Cov S1 S2.
  assert (Sub : forall r, In r (first_rows rows) -> In r rows). { unfold first_rows. destruct rows as [|r0 rs]; [auto|]. intros r Hr. apply filter_In in Hr. apply Hr. }
  assert (OZ : order Z.leb). { constructor; intros; rewrite ?Z.leb_le in *; lia. }
  assert (G : forall f : irow -> Z, (forall r, In r rows -> exists r', In r' (first_rows rows) /\ f r' = f r) -> StronglySorted Z.lt (map f (first_rows rows)) -> sorted_set Z.eq_dec Z.leb (map f rows) = map f (first_rows rows)).
  { intros f Cf Sf. apply sorted_set_fix; [exact OZ | | | ].
    - clear -Sf. induction (map f (first_rows rows)) as [|x l IH]; [constructor|]. apply StronglySorted_inv in Sf. destruct Sf as [Sf F]. constructor; [|apply IH, Sf]. intro C. rewrite Forall_forall in F. specialize (F x C). lia.
    - clear -Sf. induction (map f (first_rows rows)) as [|x l IH]; [constructor|]. apply StronglySorted_inv in Sf. destruct Sf as [Sf F]. constructor; [apply IH, Sf|]. rewrite Forall_forall in *. intros y Hy. specialize (F y Hy). apply Z.leb_le. lia.
    - intro x. rewrite !in_map_iff. split; intros (r & <- & Hr); [destruct (Cf r Hr) as (r' & Hr' & E); exists r'; auto | exists r; auto]. }
  assert (E1 : sph_times rows = map r_time (first_rows rows)). { apply G; [intros r Hr; destruct (Cov r Hr) as (r' & ? & ? & _); eauto | exact S1]. }
  split; [rewrite E1, map_length; reflexivity|]. split; [exact E1|]. apply G; [intros r Hr; destruct (Cov r Hr) as (r' & ? & _ & ?); eauto | exact S2].
Qed.
Print Assumptions C52_metadata.
(** the rows that are kept without time averaging are, in their order, those of the baseline-pair of the first row; there is one data row for each *)
Theorem C52_data_rows : forall b t l rest, sph_data_rows false ((b, t, l) :: rest) = S (length (filter (fun r => Z.eqb (fst (fst r)) b) rest)) /\
  first_rows ((b, t, l) :: rest) = (b, t, l) :: filter (fun r => Z.eqb (fst (fst r)) b) rest /\ sph_data_rows true ((b, t, l) :: rest) = 1%nat.
Proof. intros b t l rest. unfold sph_data_rows, first_rows. cbn [filter]. unfold r_blp. cbn [fst]. rewrite Z.eqb_refl. repeat split. Qed.
Print Assumptions C52_data_rows.
Example C52_applies : let rows := [(1, 10, 100); (2, 10, 100); (1, 20, 200); (2, 20, 200)]%Z in
  first_rows rows = [(1, 10, 100); (1, 20, 200)]%Z /\ sph_times rows = [10; 20]%Z.
Proof. split; reflexivity. Qed.
(** after a time average there is one data row but still all input times *)
Theorem C52_time_average_refuted : exists rows, sph_data_rows true rows = 1%nat /\ length (sph_times rows) = 2%nat.
Proof. exists [(1, 10, 100); (1, 20, 200)]%Z. split; reflexivity. Qed.
(** an LST that wraps around is put first: row 0 of the data gets the LST of row 1 *)
Theorem C52_lst_wrap_refuted : exists rows, StronglySorted Z.lt (map r_time (first_rows rows)) /\
  map r_lst (first_rows rows) = [6283; 5]%Z /\ sph_lsts rows = [5; 6283]%Z.
Proof. exists [(1, 10, 6283); (1, 20, 5)]%Z. split; [repeat constructor | split; reflexivity]. Qed.
Print Assumptions C52_lst_wrap_refuted.

(** * C53: window functions stay normalised *)
(** one baseline length: rows that sum to 1 stay so, when every frequency mode is in a bin *)
Theorem C53_window_one_length : forall pinv, pinv_diagonal pinv -> forall bins Nb Nd kp kpara w k kpara_f Nf (Wf : matrix), (0 < Nb)%nat -> (0 < Nd)%nat ->
  (forall i, (i < Nb * Nd)%nat -> 0 <= w i) -> (k < length bins)%nat ->
  let W l := sum (Nb * Nd) (fun i => w i * A bins Nd (fun _ => kp) kpara i l) in
  (forall l, (l < length bins)%nat -> W l * / IZR (10 ^ 15) < W k) ->
  (forall f, (f < Nf)%nat -> exists b, In b bins /\ centre b - width b / 2 < sqrt (kp ^ 2 + kpara_f f ^ 2) <= centre b + width b / 2) ->
  (forall i, (i < Nb * Nd)%nat -> sum Nf (fun f => Wf i f) = 1) ->
  sum (length bins) (fun l => sph_window bins Nb Nd (fun _ => kp) kpara pinv kpara_f (diagE Nd w) Nf Wf k l) = 1.
Proof.
  intros pinv PD bins Nb Nd kp kpara w k kpara_f Nf Wf HNb Hd Wp Hk W C Cov Wn. unfold sph_window. rewrite sum_swap.
  transitivity (sum Nf (fun f => sum (Nb * Nd) (fun i => H bins Nb Nd (fun _ => kp) kpara pinv (diagE Nd w) i k * Wf i f))).
  - apply sum_ext. intros f Hf. rewrite sum_mult_l. change (Nm Nb Nd) with (Nb * Nd)%nat.
    assert (E1 : sum (length bins) (Aw bins Nb (fun _ => kp) kpara_f f) = 1).
    { destruct (bin_index bins (kmag kp (kpara_f f))) as [j|] eqn:E.
      - assert (V : forall l, Aw bins Nb (fun _ => kp) kpara_f f l = if Nat.eqb j l then 1 else 0).
        { intro l. unfold Aw. rewrite E. destruct Nb as [|n]; [lia|]. cbn [seq existsb]. destruct (Nat.eqb j l); [reflexivity|]. cbn [orb]. replace (existsb (fun _ => false) (seq 1 n)) with false; [reflexivity|]. symmetry. clear. generalize 1%nat. induction n as [|n IH]; intro s; [reflexivity | cbn; apply IH]. }
        rewrite (sum_single _ _ j (bin_index_lt _ _ _ E)); [rewrite V, Nat.eqb_refl; reflexivity|]. intros i _ N. rewrite V, (proj2 (Nat.eqb_neq j i)) by congruence. reflexivity.
      - exfalso. destruct (Cov f Hf) as (b & Hb & Hk'). apply (proj1 (bin_index_none _ _) E b Hb Hk'). }
    rewrite E1. ring.
  - rewrite sum_swap. rewrite (sum_ext (Nb * Nd) _ (fun i => H bins Nb Nd (fun _ => kp) kpara pinv (diagE Nd w) i k * 1)).
    + destruct (C22_mean pinv PD bins Nb Nd (fun _ => kp) kpara w (fun _ => 1) k Hd Wp Hk C) as [P E]. unfold sph_data in E. change (Nm Nb Nd) with (Nb * Nd)%nat in E. rewrite E.
      rewrite (sum_ext (Nb * Nd) _ (fun i => w i * A bins Nd (fun _ => kp) kpara i k)) by (intros; ring). field. lra.
    + intros i Hi. rewrite sum_mult_l, Wn by exact Hi. reflexivity.
Qed.
Print Assumptions C53_window_one_length.
(** two baseline lengths: a window function of 1 (row sum 1) becomes one with row sum 2 *)
Theorem C53_two_lengths_refuted : forall pinv, pinv_diagonal pinv ->
  exists bins kperp, sum 2 (fun l => sph_window bins 2 1 kperp (fun _ => 0) pinv (fun _ => 0) (diagE 1 (w_uniform 1 (fun _ => false))) 1 (fun _ _ => 1) 0%nat l) = 2.
Proof.
  intros pinv PD. exists ex_bins, ex_kperp. unfold sph_window. change (Nm 2 1) with (2 * 1)%nat.
  destruct (C22_mean pinv PD ex_bins 2 1 ex_kperp (fun _ => 0) (w_uniform 1 (fun _ => false)) (fun _ => 1) 0) as [_ E].
  - lia.
  - intros i _. unfold w_uniform. lra.
  - cbn; lia.
  - intros l Hl. cbn in Hl. rewrite !ex_W by lia. unfold w_uniform. assert (/ IZR (10 ^ 15) < 1); [|lra]. rewrite <- Rinv_1. apply Rinv_lt_contravar; [|apply IZR_lt, Z.ltb_lt; vm_compute; reflexivity]. rewrite Rmult_1_l. apply IZR_lt, Z.ltb_lt; vm_compute; reflexivity.
  - unfold sph_data in E. change (Nm 2 1) with (2 * 1)%nat in E. cbn [sum].
    assert (B : forall b, (b < 2)%nat -> bin_index ex_bins (kmag (ex_kperp b) 0) = Some b).
    { intros b Hb. pose proof (ex_A b b Hb) as Q. rewrite Nat.eqb_refl in Q. apply A_one in Q. unfold mode_k in Q. rewrite Nat.div_1_r in Q. exact Q. }
    unfold Aw. cbn [seq existsb]. rewrite !B by lia. cbn [Nat.eqb orb]. rewrite E. cbn [Nat.mul Nat.add sum]. rewrite !ex_A by lia. cbn [Nat.eqb]. unfold w_uniform. field.
Qed.
Print Assumptions C53_two_lengths_refuted.
