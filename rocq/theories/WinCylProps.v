(** Cylindrical and spherical window functions: statements and proofs. *)
From Coq Require Import String.
From Coq Require Import Reals Lra Permutation.
From Verif Require Import Prelude ListLemmas CNum WinModel WinProps.
Open Scope R_scope.

(** ** Bins *)
Lemma rceil_eq x k : IZR (k - 1) < x <= IZR k -> rceil x = k.
Proof.
  intros [H1 H2]. unfold rceil. destruct (base_Int_part (- x)) as [B1 B2]. rewrite minus_IZR in H1.
  assert (IZR (Int_part (- x)) < IZR (- k + 1)) by (rewrite plus_IZR, opp_IZR; lra). assert (IZR (- k - 1) < IZR (Int_part (- x))) by (rewrite minus_IZR, opp_IZR; lra).
  apply lt_IZR in H, H0. lia.
Qed.
Theorem bin_edges_exact :
  forall k0 dk n, 0 < dk -> (1 <= n)%nat -> bin_edges k0 dk n = map (fun m => k0 + (INR m - 1 / 2) * dk) (seq 0 (n + 1)).
Proof.
  intros k0 dk n Hd Hn. unfold bin_edges, arange.
  assert (E : (k0 + INR (n - 1) * dk + dk - (k0 - dk / 2)) / dk = INR n + 1 / 2) by (rewrite minus_INR by lia; cbn [INR]; field; lra).
  rewrite E. assert (C : rceil (INR n + 1 / 2) = Z.of_nat (n + 1)).
  { apply rceil_eq. rewrite minus_IZR, <- INR_IZR_INZ, plus_INR. cbn [INR]. lra. }
  rewrite C, Nat2Z.id. apply map_ext. intros m. field.
Qed.
Lemma edge_nth k0 dk n m : 0 < dk -> (m <= n)%nat -> (1 <= n)%nat -> nth m (bin_edges k0 dk n) 0 = k0 + (INR m - 1 / 2) * dk.
Proof.
  intros Hd Hm Hn. rewrite bin_edges_exact by assumption. set (f := fun m0 : nat => k0 + (INR m0 - 1 / 2) * dk). erewrite nth_indep by (rewrite map_length, seq_length; lia).
  rewrite (map_nth f (seq 0 (n + 1)) 0%nat). rewrite seq_nth by lia. reflexivity.
Qed.
Lemma in_edges_iff k0 dk n m k : 0 < dk -> (m < n)%nat ->
  (in_edges (bin_edges k0 dk n) m k = true <-> k0 + INR m * dk - dk / 2 <= k < k0 + INR m * dk + dk / 2).
Proof.
  intros Hd Hm. unfold in_edges. rewrite ! edge_nth by (assumption || lia). rewrite S_INR.
  destruct (Rle_dec _ k); [| split; [discriminate | intros; exfalso; lra]]. destruct (Rlt_dec k _); split; intros; try reflexivity; try discriminate; lra.
Qed.
(** Each bin is centred on its given centre, and every k between the outer edges falls into exactly one bin. *)
Theorem bins_partition :
  forall k0 dk n k, 0 < dk -> (1 <= n)%nat ->
    (k0 - dk / 2 <= k < k0 + INR (n - 1) * dk + dk / 2 <-> exists m, (m < n)%nat /\ in_edges (bin_edges k0 dk n) m k = true) /\
    (forall m m', (m < n)%nat -> (m' < n)%nat -> in_edges (bin_edges k0 dk n) m k = true -> in_edges (bin_edges k0 dk n) m' k = true -> m = m') /\
    (forall m, (m < n)%nat -> (in_edges (bin_edges k0 dk n) m k = true <-> nth m (linspace k0 dk n) 0 - dk / 2 <= k < nth m (linspace k0 dk n) 0 + dk / 2)).
Proof.
  intros k0 dk n k Hd Hn. split; [| split].
  - split.
    + intros [L U]. set (q := Int_part ((k - (k0 - dk / 2)) / dk)). destruct (base_Int_part ((k - (k0 - dk / 2)) / dk)) as [B1 B2]. fold q in B1, B2.
      set (y := (k - (k0 - dk / 2)) / dk) in *. assert (Y : y * dk = k - (k0 - dk / 2)) by (unfold y; field; lra).
      assert (Y0 : 0 <= y) by (apply (Rmult_le_reg_r dk); lra). assert (Y1 : y < INR n). { apply (Rmult_lt_reg_r dk); [assumption |]. rewrite Y. rewrite minus_INR in U by lia. cbn [INR] in U. lra. }
      assert (Q0 : (0 <= q)%Z). { assert (IZR (-1) < IZR q) by lra. apply lt_IZR in H. lia. }
      exists (Z.to_nat q). assert (QI : INR (Z.to_nat q) = IZR q) by (rewrite INR_IZR_INZ, Z2Nat.id by assumption; reflexivity).
      assert (Qn : (Z.to_nat q < n)%nat) by (apply INR_lt; rewrite QI; lra). split; [assumption |]. apply in_edges_iff; [assumption | assumption |]. rewrite QI.
      assert (IZR q * dk <= y * dk) by (apply Rmult_le_compat_r; lra). assert (y * dk < (IZR q + 1) * dk) by (apply Rmult_lt_compat_r; lra). lra.
    + intros (m & Hm & H). apply in_edges_iff in H; [| assumption | assumption]. assert (INR m <= INR (n - 1)) by (apply le_INR; lia). pose proof (pos_INR m).
      assert (INR m * dk <= INR (n - 1) * dk) by (apply Rmult_le_compat_r; lra). assert (0 <= INR m * dk) by (apply Rmult_le_pos; lra). lra.
  - intros m m' Hm Hm' H H'. apply in_edges_iff in H, H'; try assumption.
    assert (T : forall a b, k0 + INR a * dk - dk / 2 <= k -> k < k0 + INR b * dk + dk / 2 -> (a <= b)%nat).
    { intros a b Ha Hb. assert (INR a * dk < (INR b + 1) * dk) by lra. apply Rmult_lt_reg_r in H0; [| assumption]. rewrite <- S_INR in H0. apply INR_lt in H0. lia. }
    pose proof (T m m' ltac:(tauto) ltac:(tauto)). pose proof (T m' m ltac:(tauto) ltac:(tauto)). lia.
  - intros m Hm. rewrite in_edges_iff by assumption. unfold linspace. set (f := fun i : nat => k0 + INR i * dk). erewrite nth_indep by (rewrite map_length, seq_length; lia).
    rewrite (map_nth f (seq 0 n) 0%nat), seq_nth by lia. reflexivity.
Qed.
(** The default k_parallel bins: centres k1, 2 k1, ..., (n/2 + 9) k1. *)
Theorem kpara_bins_exact :
  forall k1 n, 0 < k1 -> kpara_bins k1 n = linspace k1 k1 (n / 2 + 9).
Proof.
  intros k1 n Hk. unfold kpara_bins, arange. set (N := (n / 2)%nat).
  assert (E : (k1 * INR N + 10 * k1 - k1 / 2) / k1 = INR N + 9 + 1 / 2) by (field; lra). rewrite E.
  assert (C : rceil (INR N + 9 + 1 / 2) = Z.of_nat (S (N + 9))).
  { apply rceil_eq. rewrite minus_IZR, <- INR_IZR_INZ, S_INR, plus_INR. replace (INR 9) with 9 by (cbn; lra). lra. }
  rewrite C, Nat2Z.id. set (M := (N + 9)%nat). unfold linspace.
  set (g := fun i => k1 / 2 + INR i * k1).
  assert (TL : tl (map g (seq 0 (S M))) = map g (seq 1 M)) by reflexivity. rewrite TL.
  assert (RL : removelast (map g (seq 0 (S M))) = map g (seq 0 M)). { rewrite seq_S, map_app. cbn [map app]. apply removelast_last. } rewrite RL.
  rewrite <- seq_shift, map_map. clear. generalize (seq 0 M). induction l as [| i l IH]; [reflexivity |]. cbn [map combine fst snd]. rewrite IH. f_equal. unfold g. rewrite S_INR. field.
Qed.
(** Every non-zero delay of the window lands in a default bin, centred on it ... *)
Theorem kpara_bins_cover_nonzero :
  forall k1 n i, 0 < k1 -> (i < n)%nat -> dly n i <> 0 ->
    exists m, (m < n / 2 + 9)%nat /\ in_edges (bin_edges k1 k1 (n / 2 + 9)) m (Rabs (k1 * dly n i)) = true /\ nth m (kpara_bins k1 n) 0 = Rabs (k1 * dly n i).
Proof.
  intros k1 n i Hk Hi D. unfold dly in *. pose proof (Nat.div_mod n 2 ltac:(lia)) as DM. pose proof (Nat.mod_upper_bound n 2 ltac:(lia)).
  assert (V : exists j, (1 <= j <= n / 2)%nat /\ Rabs (k1 * (INR i - INR (n / 2))) = INR j * k1).
  { destruct (le_lt_dec i (n / 2)) as [L | L].
    - exists (n / 2 - i)%nat. assert (i <> n / 2)%nat by (intros ->; apply D; ring). split; [lia |]. rewrite minus_INR by lia. rewrite Rabs_left1; [ring |]. apply le_INR in L.
      assert (0 <= k1 * (INR (n / 2) - INR i)) by (apply Rmult_le_pos; lra). lra.
    - exists (i - n / 2)%nat. split; [lia |]. rewrite minus_INR by lia. rewrite Rabs_pos_eq; [ring |]. apply lt_INR in L. apply Rmult_le_pos; lra. }
  destruct V as (j & Hj & ->). exists (j - 1)%nat. split; [lia |]. assert (J : INR (j - 1) = INR j - 1) by (rewrite minus_INR by lia; reflexivity). split.
  - apply in_edges_iff; [assumption | lia |]. rewrite J. lra.
  - rewrite kpara_bins_exact by assumption. unfold linspace. set (f := fun i0 : nat => k1 + INR i0 * k1). erewrite nth_indep by (rewrite map_length, seq_length; lia).
    rewrite (map_nth f (seq 0 (n / 2 + 9)) 0%nat), seq_nth by lia. unfold f. cbn [Nat.add]. rewrite J. ring.
Qed.
(** ... but delay 0, which is a delay of every window, lands in none. *)
Theorem kpara_bins_cover_refuted :
  forall k1 n, 0 < k1 -> (1 <= n)%nat -> (n / 2 < n)%nat /\ dly n (n / 2) = 0 /\
    forall m, (m < n / 2 + 9)%nat -> in_edges (bin_edges k1 k1 (n / 2 + 9)) m (Rabs (k1 * dly n (n / 2))) = false.
Proof.
  intros k1 n Hk Hn. split; [apply Nat.div_lt; lia |]. assert (D : dly n (n / 2) = 0) by (unfold dly; ring). split; [assumption |]. intros m Hm. rewrite D, Rmult_0_r, Rabs_R0.
  destruct (in_edges _ m 0) eqn:E; [| reflexivity]. apply in_edges_iff in E; [| assumption | assumption]. pose proof (pos_INR m). assert (0 <= INR m * k1) by (apply Rmult_le_pos; lra). lra.
Qed.

(** ** Cross power of the two beams *)
(** the Fourier component of x at signed frequency q *)
Definition dft (n : nat) (x : nat -> R) (q : Z) : C := csum n (fun j => RtoC (x j) * Cexpi (- (2 * PI * IZR q / INR n * INR j)))%C.
Lemma zmod_lt z n : (0 < n)%nat -> (zmod_nat z n < n)%nat.
Proof. intros H. unfold zmod_nat. pose proof (Z.mod_pos_bound z (Z.of_nat n) ltac:(lia)). lia. Qed.
Lemma csum_roll n s f : (s <= n)%nat -> csum n (fun j => f (zmod_nat (Z.of_nat j - Z.of_nat s) n)) = csum n f.
Proof.
  intros Hs. replace n with (s + (n - s))%nat at 1 by lia. rewrite csum_app.
  rewrite (csum_ext s _ (fun i => f ((n - s) + i)%nat)).
  2: { intros i Hi. f_equal. unfold zmod_nat. replace (Z.of_nat i - Z.of_nat s)%Z with (Z.of_nat (n - s + i) + (-1) * Z.of_nat n)%Z by lia. rewrite Z_mod_plus_full, Z.mod_small by lia. lia. }
  rewrite (csum_ext (n - s) _ f). 2: { intros i Hi. f_equal. unfold zmod_nat. rewrite Z.mod_small by lia. lia. }
  rewrite (Radd_comm C_ring), <- csum_app. f_equal. lia.
Qed.
Lemma expi_mod n (k : Z) z : (0 < n)%nat -> Cexpi (- (2 * PI * IZR k / INR n * INR (zmod_nat z n))) = Cexpi (- (2 * PI * IZR k / INR n * IZR z)).
Proof.
  intros Hn. assert (Np : 0 < INR n) by (apply lt_0_INR; assumption). set (q := (z / Z.of_nat n)%Z).
  assert (E : INR (zmod_nat z n) = IZR z - INR n * IZR q).
  { unfold zmod_nat. rewrite INR_IZR_INZ, Z2Nat.id by (apply Z.mod_pos_bound; lia). rewrite Z.mod_eq by lia. fold q. rewrite minus_IZR, mult_IZR, <- INR_IZR_INZ. reflexivity. }
  rewrite E. replace (- (2 * PI * IZR k / INR n * (IZR z - INR n * IZR q))) with (- (2 * PI * IZR k / INR n * IZR z) + 2 * PI * IZR (k * q)) by (rewrite mult_IZR; field; lra).
  apply Cexpi_period.
Qed.
Lemma dft_shift n x k : (0 < n)%nat -> fft n (fftshift n x) k = (Cexpi (- (2 * PI * IZR (Z.of_nat k) / INR n * INR (n / 2))) * dft n x (Z.of_nat k))%C.
Proof.
  intros Hn. assert (Np : 0 < INR n) by (apply lt_0_INR; assumption). unfold fft, dft, fftshift.
  rewrite <- csum_mul_l.
  rewrite <- (csum_roll n (n / 2) (fun j => Cexpi (- (2 * PI * IZR (Z.of_nat k) / INR n * INR (n / 2))) * (RtoC (x j) * Cexpi (- (2 * PI * IZR (Z.of_nat k) / INR n * INR j))))%C) by (apply Nat.lt_le_incl, Nat.div_lt; lia).
  apply csum_ext. intros j Hj. rewrite expi_mod by assumption.
  replace (- (2 * PI * INR k / INR n * INR j)) with (- (2 * PI * IZR (Z.of_nat k) / INR n * INR (n / 2)) + - (2 * PI * IZR (Z.of_nat k) / INR n * IZR (Z.of_nat j - Z.of_nat (n / 2)))) by (rewrite minus_IZR, <- ! INR_IZR_INZ; field; lra).
  rewrite Cexpi_add. ring.
Qed.
Lemma dft_mod n x z : (0 < n)%nat -> dft n x (Z.of_nat (zmod_nat z n)) = dft n x z.
Proof.
  intros Hn. unfold dft. apply csum_ext. intros j Hj. f_equal. assert (Np : 0 < INR n) by (apply lt_0_INR; assumption).
  replace (- (2 * PI * IZR (Z.of_nat (zmod_nat z n)) / INR n * INR j)) with (- (2 * PI * IZR (Z.of_nat j) / INR n * INR (zmod_nat z n))) by (rewrite <- ! INR_IZR_INZ; field; lra).
  rewrite expi_mod by assumption. f_equal. rewrite <- INR_IZR_INZ. field. lra.
Qed.
Lemma dft_conj n x z : dft n x (- z) = Cconj (dft n x z).
Proof.
  unfold dft. rewrite csum_conj. apply csum_ext. intros j Hj. rewrite Cconj_mul, Cconj_R, <- Cexpi_opp. do 2 f_equal. rewrite opp_IZR. unfold Rdiv. ring.
Qed.
(** signed frequency of entry i of the shifted axis *)
Definition sfreq (n i : nat) : Z := (Z.of_nat i - Z.of_nat (n / 2))%Z.
Definition tapered (t x : nat -> R) : nat -> R := fun j => x j * t j.
(** The quantity averaged over the sky plane is the cross power of the two tapered beams at the signed frequency of the entry,
    in the normalisation dnu / n: the shifts of the input axis leave no trace. *)
Theorem cross_power :
  forall n t dnu b0 b1 i, (0 < n)%nat -> 0 <= dnu ->
    re (Cconj (freq_FT n t dnu b1 i) * freq_FT n t dnu b0 i)%C =
    dnu / INR n * re (Cconj (dft n (tapered t b1) (sfreq n i)) * dft n (tapered t b0) (sfreq n i))%C.
Proof.
  intros n t dnu b0 b1 i Hn Hd. assert (Np : 0 < INR n) by (apply lt_0_INR; assumption). unfold freq_FT.
  unfold fftshift at 1 3. rewrite ! dft_shift by assumption. fold (sfreq n i). rewrite ! dft_mod by assumption. fold (tapered t b0) (tapered t b1).
  set (e := Cexpi _). set (D0 := dft n (tapered t b0) _). set (D1 := dft n (tapered t b1) _).
  assert (Ee : (Cconj e * e)%C = C1) by apply Cexpi_conj.
  replace (Cconj (e * D1 * RtoC (/ sqrt (INR n)) * RtoC (sqrt dnu)) * (e * D0 * RtoC (/ sqrt (INR n)) * RtoC (sqrt dnu)))%C
    with ((Cconj e * e) * (RtoC (/ sqrt (INR n) * / sqrt (INR n)) * RtoC (sqrt dnu * sqrt dnu)) * (Cconj D1 * D0))%C.
  2: { rewrite ! Cconj_mul, ! Cconj_R, ! RtoC_mul. ring. }
  rewrite Ee, sqrt_sqrt by assumption. rewrite <- Rinv_mult, sqrt_sqrt by lra. cbn. unfold Rdiv. ring.
Qed.
Lemma cross_power_opp n t dnu b0 b1 i i' : (0 < n)%nat -> 0 <= dnu -> sfreq n i' = (- sfreq n i)%Z ->
  re (Cconj (freq_FT n t dnu b1 i') * freq_FT n t dnu b0 i')%C = re (Cconj (freq_FT n t dnu b1 i) * freq_FT n t dnu b0 i)%C.
Proof. intros Hn Hd E. rewrite ! cross_power by assumption. rewrite E, ! dft_conj. f_equal. cbn. ring. Qed.
Lemma bin_mean_ext {A} edges m (k v v' : A -> R) l : (forall a, In a l -> v a = v' a) -> bin_mean edges m k v l = bin_mean edges m k v' l.
Proof.
  intros H. unfold bin_mean. destruct (filter _ l) as [| a s] eqn:E; [reflexivity |]. f_equal. apply map_ext_in. intros b Hb. apply H. rewrite <- E in Hb. apply filter_In in Hb. tauto.
Qed.
(** It does not change under reversal of the sign of the frequency: the beams are real. *)
Theorem cross_power_symmetric :
  forall P pixels kp (b0 b1 : P -> nat -> R) n t dnu edges m i i', (0 < n)%nat -> 0 <= dnu -> sfreq n i' = (- sfreq n i)%Z ->
    wf_array1 P pixels kp b0 b1 n t dnu edges m i' = wf_array1 P pixels kp b0 b1 n t dnu edges m i.
Proof. intros. unfold wf_array1. apply bin_mean_ext. intros p _. apply cross_power_opp; assumption. Qed.
Theorem cross_power_nonneg :
  forall P pixels kp (b : P -> nat -> R) n t dnu edges m i, 0 <= wf_array1 P pixels kp b b n t dnu edges m i.
Proof.
  intros. unfold wf_array1, bin_mean. destruct (filter _ _) as [| p s]; [lra |]. unfold mean. apply Rmult_le_pos; [| apply Rlt_le, Rinv_0_lt_compat, lt_0_INR; cbn; lia].
  generalize (p :: s). intros l. induction l as [| q l IH]; cbn; [lra |]. set (z := freq_FT n t dnu (b q) i). pose proof (Cabs2_nonneg z). unfold Cabs2 in H. unfold rsum in IH. cbn in *. lra.
Qed.

(** ** The delay rows *)
Lemma filter_map_comm {A B} (f : A -> B) (p : B -> bool) l : filter p (map f l) = map f (filter (fun a => p (f a)) l).
Proof. induction l as [| a l IH]; [reflexivity |]. cbn. destruct (p (f a)); cbn; rewrite IH; reflexivity. Qed.
Lemma rsum_perm l l' : Permutation l l' -> rsum l = rsum l'.
Proof. unfold rsum. induction 1; cbn; lra. Qed.
Lemma bin_mean_perm {A} edges m (k v : A -> R) l l' : Permutation l l' -> bin_mean edges m k v l = bin_mean edges m k v l'.
Proof.
  intros P. unfold bin_mean. assert (F : Permutation (filter (fun a => in_edges edges m (k a)) l) (filter (fun a => in_edges edges m (k a)) l')).
  { clear v. induction P; cbn; repeat (destruct (in_edges _ _ _)); try constructor; try assumption; try apply Permutation_refl. eapply perm_trans; eassumption. }
  assert (M : forall s s', Permutation s s' -> mean (map v s) = mean (map v s')).
  { intros s s' H. unfold mean. rewrite (rsum_perm _ _ (Permutation_map v H)), ! map_length, (Permutation_length H). reflexivity. }
  destruct (filter _ l) as [| a s], (filter _ l') as [| a' s']; [reflexivity | apply Permutation_length in F; discriminate | apply Permutation_length in F; discriminate | apply M, F].
Qed.
Lemma bin_mean_map {A B} edges m (f : A -> B) k v l : bin_mean edges m k v (map f l) = bin_mean edges m (fun a => k (f a)) (fun a => v (f a)) l.
Proof. unfold bin_mean. rewrite filter_map_comm. destruct (filter _ l); [reflexivity |]. cbn [map]. rewrite map_map. reflexivity. Qed.
Lemma seq_rev n : map (fun i => n - 1 - i)%nat (seq 0 n) = rev (seq 0 n).
Proof.
  apply nth_ext with (d := 0%nat) (d' := 0%nat); [rewrite rev_length, map_length; reflexivity |]. rewrite map_length, seq_length. intros i Hi.
  rewrite rev_nth by (rewrite seq_length; assumption). rewrite seq_length, seq_nth by lia. erewrite nth_indep by (rewrite map_length, seq_length; assumption).
  rewrite (map_nth (fun i => n - 1 - i)%nat (seq 0 n) 0%nat), seq_nth by lia. lia.
Qed.
Lemma bin_mean_keyext {A} edges m (k k' v : A -> R) l : (forall a, In a l -> k a = k' a) -> bin_mean edges m k v l = bin_mean edges m k' v l.
Proof. intros H. unfold bin_mean. rewrite (filter_ext_in _ (fun a => in_edges edges m (k' a)) l); [reflexivity |]. intros a Ha. rewrite H by assumption. reflexivity. Qed.
Section Rows.
Variables (n : nat) (kfac : R) (w1 : nat -> nat -> R) (edges : list R).
(** mirrored rows have the opposite delay, for both parities *)
Lemma mirror_delay i : (n / 2 < i < n)%nat -> (mirror n i < n / 2 + 1)%nat /\ dly n (mirror n i) = - dly n i.
Proof.
  intros H. pose proof (Nat.div_mod n 2 ltac:(lia)) as DM. unfold mirror, dly. destruct (Nat.even n) eqn:Ev.
  - apply Nat.even_spec in Ev. destruct Ev as [h Hh]. assert (n / 2 = h)%nat by (subst n; rewrite Nat.mul_comm; apply Nat.div_mul; lia).
    split; [lia |]. replace (n - 1 - (n / 2 + (i - (n / 2 + 1))))%nat with (n - i)%nat by lia. rewrite minus_INR by lia. rewrite H0, Hh, mult_INR. cbn. ring.
  - assert (Od : Nat.odd n = true) by (rewrite <- Nat.negb_even, Ev; reflexivity). apply Nat.odd_spec in Od. destruct Od as [h Hh]. assert (n / 2 = h)%nat by (subst n; symmetry; apply (Nat.div_unique _ _ h 1); lia).
    split; [lia |]. replace (n - 1 - (n / 2 + 1 + (i - (n / 2 + 1))))%nat with (2 * h - i)%nat by lia. rewrite minus_INR by lia. rewrite H0, mult_INR. cbn. ring.
Qed.
(** Outside the row at three quarters, the stored row of a delay is the window function of that delay for delays up to 0, and of the opposite delay otherwise. *)
Theorem rows_mirrored :
  forall i, (i < n)%nat -> i <> (n - n / 4)%nat ->
    (dly n i <= 0 -> cyl_rows n kfac w1 edges i = wf_for_tau n kfac w1 edges (dly n i)) /\
    (0 < dly n i -> cyl_rows n kfac w1 edges i = wf_for_tau n kfac w1 edges (- dly n i)).
Proof.
  intros i Hi N. unfold cyl_rows. destruct (Nat.eqb_spec i (n - n / 4)) as [E | _]; [contradiction |]. destruct (Nat.leb_spec i (n / 2)) as [L | L].
  - split; [reflexivity |]. intros D. exfalso. unfold dly in D. apply le_INR in L. lra.
  - split; [intros D; exfalso; unfold dly in D; apply lt_INR in L; lra |]. intros _. unfold first_half. rewrite (proj2 (mirror_delay i ltac:(lia))). reflexivity.
Qed.
(** For an even number of channels the row at three quarters is the window function of its own delay. *)
Theorem quarter_row_even : Nat.even n = true -> (0 < n)%nat -> cyl_rows n kfac w1 edges (n - n / 4) = wf_for_tau n kfac w1 edges (dly n (n - n / 4)).
Proof.
  intros Ev Hn. unfold cyl_rows. rewrite Nat.eqb_refl. f_equal. unfold dly. apply Nat.even_spec in Ev. destruct Ev as [h Hh]. assert (E : (n / 2 = h)%nat) by (subst n; rewrite Nat.mul_comm; apply Nat.div_mul; lia).
  assert (n / 4 <= n)%nat by (apply Nat.div_le_upper_bound; lia). rewrite minus_INR, E by assumption. replace (INR n) with (2 * INR h) by (rewrite Hh, mult_INR; cbn; ring). ring.
Qed.
(** For an odd number it is the one of the delay before it. *)
Theorem quarter_row_odd : Nat.odd n = true -> cyl_rows n kfac w1 edges (n - n / 4) = wf_for_tau n kfac w1 edges (dly n (n - n / 4) - 1).
Proof.
  intros Od. unfold cyl_rows. rewrite Nat.eqb_refl. f_equal. unfold dly. apply Nat.odd_spec in Od. destruct Od as [h Hh]. assert (E : (n / 2 = h)%nat) by (subst n; symmetry; apply (Nat.div_unique _ _ h 1); lia).
  assert (n / 4 <= n)%nat by (apply Nat.div_le_upper_bound; lia). rewrite minus_INR, E by assumption. replace (INR n) with (2 * INR h + 1) by (rewrite Hh, plus_INR, mult_INR; cbn; ring). ring.
Qed.
(** For an odd number of channels and real beams the mirrored rows are exact. *)
Theorem odd_rows_exact :
  Nat.odd n = true -> (forall j i i', sfreq n i' = (- sfreq n i)%Z -> w1 j i' = w1 j i) ->
  forall i, (i < n)%nat -> i <> (n - n / 4)%nat -> forall j m, cyl_rows n kfac w1 edges i j m = wf_for_tau n kfac w1 edges (dly n i) j m.
Proof.
  intros Od Sym i Hi N j m. apply Nat.odd_spec in Od. destruct Od as [h Hh]. assert (E : (n / 2 = h)%nat) by (subst n; symmetry; apply (Nat.div_unique _ _ h 1); lia).
  destruct (rows_mirrored i Hi N) as [A B]. destruct (Rle_dec (dly n i) 0) as [L | L]; [rewrite (A L); reflexivity |]. rewrite (B ltac:(lra)). unfold wf_for_tau.
  rewrite (bin_mean_perm edges m _ _ (seq 0 n) (rev (seq 0 n)) (Permutation_rev (seq 0 n))) at 1. rewrite <- seq_rev, bin_mean_map.
  transitivity (bin_mean edges m (fun a => Rabs (kfac * (dly n a + dly n i))) (fun a => w1 j (n - 1 - a)%nat) (seq 0 n)).
  - apply bin_mean_keyext. intros a Ha. apply in_seq in Ha. rewrite <- Rabs_Ropp. f_equal. unfold dly. rewrite ! minus_INR by lia. rewrite E. replace (INR n) with (2 * INR h + 1) by (rewrite Hh, plus_INR, mult_INR; cbn; ring). cbn [INR]. ring.
  - apply bin_mean_ext. intros a Ha. apply in_seq in Ha. apply Sym. unfold sfreq. lia.
Qed.
Theorem cylindrical_accepts : (0 < n)%nat -> ((exists r, cylindrical_raw n kfac w1 edges = Ok r) <-> (4 <= n)%nat).
Proof.
  intros Hn. unfold cylindrical_raw. destruct (Nat.ltb_spec (n - n / 4) n) as [L | L]; cbn [require]; split; try eauto.
  - intros _. assert (n / 4 <> 0)%nat by lia. pose proof (Nat.div_small n 4). lia.
  - intros (r & H). discriminate.
  - intros H. assert (1 <= n / 4)%nat by (apply Nat.div_le_lower_bound; lia). lia.
Qed.
End Rows.

(** ** Where the stored rows are not those of their delays *)
Lemma rsum_const {A} (f : A -> R) c l : (forall a, In a l -> f a = c) -> rsum (map f l) = INR (length l) * c.
Proof. unfold rsum. induction l as [| a l IH]; intros H; [cbn; ring |]. cbn [map fold_right length]. rewrite IH, (H a (or_introl eq_refl)), S_INR by (intros; apply H; right; assumption). ring. Qed.
Lemma bin_mean_const {A} edges m k (v : A -> R) c l : (forall a, In a l -> v a = c) -> (exists a, In a l /\ in_edges edges m (k a) = true) -> bin_mean edges m k v l = c.
Proof.
  intros H (a & Ha & E). unfold bin_mean. destruct (filter _ l) as [| b s] eqn:F.
  - exfalso. assert (I : In a (filter (fun a => in_edges edges m (k a)) l)) by (apply filter_In; tauto). rewrite F in I. destruct I.
  - unfold mean. rewrite (rsum_const v c). 2: { intros x Hx. rewrite <- F in Hx. apply filter_In in Hx. apply H. tauto. } rewrite map_length. field. apply not_0_INR. cbn. lia.
Qed.
Lemma bin_mean_none {A} edges m k (v : A -> R) l : (forall a, In a l -> in_edges edges m (k a) = false) -> bin_mean edges m k v l = 0.
Proof.
  intros H. unfold bin_mean. destruct (filter _ l) as [| b s] eqn:F; [reflexivity |]. exfalso. assert (I : In b (filter (fun a => in_edges edges m (k a)) l)) by (rewrite F; left; reflexivity).
  apply filter_In in I. destruct I as [I1 I2]. rewrite (H b I1) in I2. discriminate.
Qed.
(** a beam that is non-zero in channel 0 only has a flat spectrum *)
Definition delta : unit -> nat -> R := fun _ j => if Nat.eqb j 0 then 1 else 0.
Definition flat_w1 (n : nat) : nat -> nat -> R := wf_array1 unit [tt] (fun _ => 1) delta delta n (fun _ => 1) (INR n) [0; 2].
Lemma flat_value n i : (0 < n)%nat -> flat_w1 n 0 i = 1.
Proof.
  intros Hn. assert (Np : 0 < INR n) by (apply lt_0_INR; assumption). unfold flat_w1, wf_array1. apply bin_mean_const.
  - intros [] _. rewrite cross_power by (assumption || lra). assert (D : dft n (tapered (fun _ => 1) (delta tt)) (sfreq n i) = C1).
    { unfold dft. rewrite (csum_single n _ 0%nat Hn). - unfold tapered, delta. cbn [Nat.eqb INR]. rewrite Rmult_0_r, Ropp_0, Cexpi_0. apply Ceq; cbn; ring.
      - intros j _ Hj. unfold tapered, delta. destruct (Nat.eqb_spec j 0); [contradiction |]. apply Ceq; cbn; ring. }
    rewrite D. cbn. field. lra.
  - exists tt. split; [left; reflexivity |]. unfold in_edges. cbn [nth]. destruct (Rle_dec 0 1); [| lra]. destruct (Rlt_dec 1 2); [reflexivity | lra].
Qed.
Lemma in_one a b k : a <= k < b -> in_edges [a; b] 0 k = true.
Proof. intros H. unfold in_edges. cbn [nth]. destruct (Rle_dec a k); [| lra]. destruct (Rlt_dec k b); [reflexivity | lra]. Qed.
Lemma out_one a b k : k < a -> in_edges [a; b] 0 k = false.
Proof. intros H. unfold in_edges. cbn [nth]. destruct (Rle_dec a k); [lra | reflexivity]. Qed.
Theorem odd_quarter_refuted :
  exists n edges, Nat.odd n = true /\ (4 <= n)%nat /\
    cyl_rows n 1 (flat_w1 n) edges (n - n / 4) 0%nat 0%nat <> wf_for_tau n 1 (flat_w1 n) edges (dly n (n - n / 4)) 0%nat 0%nat.
Proof.
  exists 5%nat, [7 / 2; 9 / 2]. split; [reflexivity |]. split; [lia |]. change (5 - 5 / 4)%nat with 4%nat.
  assert (A : cyl_rows 5 1 (flat_w1 5) [7 / 2; 9 / 2] 4 0%nat 0%nat = 0).
  { unfold cyl_rows. change (Nat.eqb 4 (5 - 5 / 4)) with true. cbv iota. apply bin_mean_none. intros e He. apply in_seq in He. apply out_one.
    assert (INR e <= 4) by (replace 4 with (INR 4) by (cbn; lra); apply le_INR; lia). pose proof (pos_INR e). unfold dly. change (5 / 2)%nat with 2%nat. change (5 / 4)%nat with 1%nat. cbn [INR]. apply Rabs_def1; lra. }
  assert (B : wf_for_tau 5 1 (flat_w1 5) [7 / 2; 9 / 2] (dly 5 4) 0%nat 0%nat = 1).
  { apply bin_mean_const; [intros; apply flat_value; lia |]. exists 4%nat. split; [cbn; tauto |]. apply in_one. unfold dly. change (5 / 2)%nat with 2%nat. cbn [INR].
    rewrite Rabs_pos_eq by lra. lra. }
  rewrite A, B. lra.
Qed.
(** even number of channels: the mirrored rows are not the window functions of their own delays *)
Theorem even_mirror_refuted :
  exists n edges i, Nat.even n = true /\ (4 <= n)%nat /\ (i < n)%nat /\ i <> (n - n / 4)%nat /\
    cyl_rows n 1 (flat_w1 n) edges i 0%nat 0%nat <> wf_for_tau n 1 (flat_w1 n) edges (dly n i) 0%nat 0%nat.
Proof.
  exists 6%nat, [7 / 2; 9 / 2], 4%nat. split; [reflexivity |]. split; [lia |]. split; [lia |]. split; [cbn; lia |].
  assert (A : cyl_rows 6 1 (flat_w1 6) [7 / 2; 9 / 2] 4 0%nat 0%nat = 1).
  { unfold cyl_rows. change (Nat.eqb 4 (6 - 6 / 4)) with false. change (Nat.leb 4 (6 / 2)) with false. cbv iota. unfold first_half. change (mirror 6 4) with 2%nat. apply bin_mean_const; [intros; apply flat_value; lia |].
    exists 0%nat. split; [cbn; tauto |]. apply in_one. unfold dly. change (6 / 2)%nat with 3%nat. cbn [INR]. rewrite Rabs_left1 by lra. lra. }
  assert (B : wf_for_tau 6 1 (flat_w1 6) [7 / 2; 9 / 2] (dly 6 4) 0%nat 0%nat = 0).
  { apply bin_mean_none. intros e He. apply in_seq in He. apply out_one. assert (INR e <= 5) by (replace 5 with (INR 5) by (cbn; lra); apply le_INR; lia). pose proof (pos_INR e).
    unfold dly. change (6 / 2)%nat with 3%nat. cbn [INR]. apply Rabs_def1; lra. }
  rewrite A, B. lra.
Qed.
(** The rows of real beams, odd number of channels: exact except the one at three quarters. *)
Theorem cylindrical_rows_exact :
  forall P pixels kp (b0 b1 : P -> nat -> R) n t dnu kfac perp para i j m, (4 <= n)%nat -> 0 <= dnu -> (i < n)%nat ->
    let w1 := wf_array1 P pixels kp b0 b1 n t dnu perp in
    (Nat.odd n = true -> i <> (n - n / 4)%nat -> cyl_rows n kfac w1 para i j m = wf_for_tau n kfac w1 para (dly n i) j m) /\
    (Nat.even n = true -> i = (n - n / 4)%nat \/ dly n i <= 0 -> cyl_rows n kfac w1 para i j m = wf_for_tau n kfac w1 para (dly n i) j m).
Proof.
  intros P pixels kp b0 b1 n t dnu kfac perp para i j m Hn Hd Hi w1. split.
  - intros Od N. apply odd_rows_exact; try assumption. intros j' a a' E. apply cross_power_symmetric; [lia | assumption | assumption].
  - intros Ev [-> | L]; [rewrite quarter_row_even by (assumption || lia); reflexivity |]. destruct (Nat.eq_dec i (n - n / 4)) as [-> | N]; [rewrite quarter_row_even by (assumption || lia); reflexivity |].
    destruct (rows_mirrored n kfac w1 para i Hi N) as [A _]. rewrite (A L). reflexivity.
Qed.

(** ** Normalisation *)
Lemma rsum_div {A} (f : A -> R) s l : rsum (map (fun a => f a / s) l) = rsum (map f l) / s.
Proof. unfold rsum, Rdiv. induction l as [| a l IH]; cbn; [ring |]. rewrite IH. ring. Qed.
Theorem cylindrical_normalised :
  forall nperp npara (r : nat -> nat -> R), let total q := rsum (map (fun j => rsum (map (fun m => q j m) (seq 0 npara))) (seq 0 nperp)) in
    (total r <> 0 -> total (normalised nperp npara r) = 1 /\ forall j m, normalised nperp npara r j m * total r = r j m) /\
    (total r = 0 -> forall j m, normalised nperp npara r j m = r j m).
Proof.
  intros nperp npara r total. change (total r) with (row_total nperp npara r). change (total (normalised nperp npara r)) with (row_total nperp npara (normalised nperp npara r)). clear total. set (s := row_total nperp npara r). split.
  - intros N. split.
    + unfold row_total, normalised, normalise. fold s. destruct (Req_EM_T s 0); [contradiction |].
      rewrite (map_ext (fun j => rsum (map (fun m => r j m / s) (seq 0 npara))) (fun j => rsum (map (r j) (seq 0 npara)) / s)) by (intros; apply rsum_div). rewrite rsum_div. fold (row_total nperp npara r). fold s. field. assumption.
    + intros j m. unfold normalised, normalise. fold s. destruct (Req_EM_T s 0); [contradiction |]. field. assumption.
  - intros Z j m. unfold normalised, normalise. fold s. destruct (Req_EM_T s 0); [reflexivity | contradiction].
Qed.
Lemma rsum_nonneg l : (forall x, In x l -> 0 <= x) -> 0 <= rsum l.
Proof. unfold rsum. induction l as [| x l IH]; intros H; cbn; [lra |]. pose proof (H x (or_introl eq_refl)). assert (0 <= fold_right Rplus 0 l) by (apply IH; intros; apply H; right; assumption). lra. Qed.
Lemma bin_mean_nonneg {A} edges m k (v : A -> R) l : (forall a, In a l -> 0 <= v a) -> 0 <= bin_mean edges m k v l.
Proof.
  intros H. unfold bin_mean. destruct (filter _ l) as [| b s] eqn:F; [lra |]. unfold mean. apply Rmult_le_pos; [| apply Rlt_le, Rinv_0_lt_compat, lt_0_INR; cbn; lia].
  apply rsum_nonneg. intros x Hx. apply in_map_iff in Hx. destruct Hx as (a & <- & Ha). rewrite <- F in Ha. apply filter_In in Ha. apply H. tauto.
Qed.
(** With one beam the window functions are non-negative, so that a row is a distribution over the cells or vanishes. *)
Theorem cylindrical_nonneg :
  forall P pixels kp (b : P -> nat -> R) n t dnu kfac perp para nperp npara i j m,
    0 <= normalised nperp npara (cyl_rows n kfac (wf_array1 P pixels kp b b n t dnu perp) para i) j m.
Proof.
  intros. set (r := cyl_rows _ _ _ _ _). assert (R0 : forall j m, 0 <= r j m).
  { intros j' m'. unfold r, cyl_rows. destruct (Nat.eqb _ _); [| destruct (Nat.leb _ _)]; apply bin_mean_nonneg; intros; apply cross_power_nonneg. }
  assert (S0 : 0 <= row_total nperp npara r). { apply rsum_nonneg. intros x Hx. apply in_map_iff in Hx. destruct Hx as (q & <- & _). apply rsum_nonneg. intros y Hy. apply in_map_iff in Hy. destruct Hy as (q' & <- & _). apply R0. }
  unfold normalised, normalise. destruct (Req_EM_T _ 0); [apply R0 |]. apply Rmult_le_pos; [apply R0 |]. apply Rlt_le, Rinv_0_lt_compat. lra.
Qed.

(** ** Spherical window functions *)
Section Sph.
Variables (Cell : Type) (cells : list Cell) (ktot : Cell -> R) (edges : list R) (nb : nat).
Theorem spherical_rows_normalised :
  forall es m1, let row := sph_row cells ktot edges nb es m1 in rsum (map row (seq 0 nb)) = 1 \/ rsum (map row (seq 0 nb)) = 0.
Proof.
  intros es m1. cbn zeta. unfold sph_row. assert (Z : forall l : list nat, rsum (map (fun _ => 0) l) = 0) by (intros l; rewrite (rsum_const _ 0) by reflexivity; ring).
  destruct (filter _ es) as [| e s]; [right; apply Z |]. destruct (Rlt_dec _ _); [| right; apply Z]. set (raw := fun m => bin_mean edges m ktot _ cells). set (t := rsum (map raw (seq 0 nb))).
  unfold normalise. destruct (Req_EM_T t 0) as [E | N]; [right; exact E |]. left. rewrite rsum_div. change (t / t = 1). field. assumption.
Qed.
Theorem spherical_rows_nonneg :
  forall es m1, (forall e c, In e es -> 0 <= ewt e /\ 0 <= ewf e c) ->
    (forall m, 0 <= sph_row cells ktot edges nb es m1 m) /\
    (rsum (map (sph_row cells ktot edges nb es m1) (seq 0 nb)) = 1 \/ forall m, (m < nb)%nat -> sph_row cells ktot edges nb es m1 m = 0).
Proof.
  intros es m1 H. assert (NN : forall m, 0 <= sph_row cells ktot edges nb es m1 m).
  { intros m. unfold sph_row. destruct (filter _ es) as [| e s] eqn:F; [lra |]. destruct (Rlt_dec _ _); [| lra].
    assert (T : forall c, 0 <= wf_temp (e :: s) c).
    { intros c. assert (I : forall x, In x (e :: s) -> In x es) by (intros x Hx; rewrite <- F in Hx; apply filter_In in Hx; tauto). unfold wf_temp. apply Rmult_le_pos.
      - apply rsum_nonneg. intros x Hx. apply in_map_iff in Hx. destruct Hx as (q & <- & Hq). apply Rmult_le_pos; apply (H q c (I q Hq)).
      - assert (0 <= rsum (map ewt (e :: s))) as [P | <-]; [| apply Rlt_le, Rinv_0_lt_compat, P | rewrite Rinv_0; lra]. apply rsum_nonneg. intros x Hx. apply in_map_iff in Hx. destruct Hx as (q & <- & Hq). apply (H q c (I q Hq)). }
    assert (B : forall m, 0 <= bin_mean edges m ktot (wf_temp (e :: s)) cells) by (intros; apply bin_mean_nonneg; intros; apply T).
    unfold normalise. destruct (Req_EM_T _ 0); [apply B |]. apply Rmult_le_pos; [apply B |]. apply Rlt_le, Rinv_0_lt_compat.
    set (l := map _ (seq 0 nb)) in *. assert (0 <= rsum l); [| lra]. apply rsum_nonneg. intros x Hx. apply in_map_iff in Hx. destruct Hx as (q & <- & _). apply B. }
  split; [assumption |]. destruct (spherical_rows_normalised es m1) as [E | E]; [left; exact E | right]. intros m Hm.
  assert (Z : forall l, (forall x, In x l -> 0 <= x) -> rsum l = 0 -> forall x, In x l -> x = 0).
  { clear. unfold rsum. induction l as [| y l IH]; intros P S x Hx0; [destruct Hx0 |]; destruct Hx0 as [<- | Hx]; cbn in S; pose proof (P y (or_introl eq_refl)); assert (0 <= fold_right Rplus 0 l) by (apply rsum_nonneg; intros; apply P; right; assumption); [lra |].
    apply IH; [intros; apply P; right; assumption | lra | assumption]. }
  apply (Z (map (sph_row cells ktot edges nb es m1) (seq 0 nb))); [intros x Hx; apply in_map_iff in Hx; destruct Hx as (q & <- & _); apply NN | exact E |]. apply in_map_iff. exists m. split; [reflexivity | apply in_seq; lia].
Qed.
Lemma sph_row_ext es es' m1 : 
  (filter (fun e => in_edges edges m1 (ekmag e)) es = [] <-> filter (fun e => in_edges edges m1 (ekmag e)) es' = []) ->
  (forall c, wf_temp (filter (fun e => in_edges edges m1 (ekmag e)) es) c = wf_temp (filter (fun e => in_edges edges m1 (ekmag e)) es') c) ->
  forall m, sph_row cells ktot edges nb es m1 m = sph_row cells ktot edges nb es' m1 m.
Proof.
  intros E T m. unfold sph_row. set (s := filter _ es) in *. set (s' := filter _ es') in *. destruct s as [| e s].
  { rewrite (proj1 E eq_refl). reflexivity. } destruct s' as [| e' s']; [discriminate (proj2 E eq_refl) |].
  assert (X : map (wf_temp (e :: s)) cells = map (wf_temp (e' :: s')) cells) by (apply map_ext; assumption). rewrite X. destruct (Rlt_dec _ _); [| reflexivity].
  assert (Y : forall q, bin_mean edges q ktot (wf_temp (e :: s)) cells = bin_mean edges q ktot (wf_temp (e' :: s')) cells) by (intros; apply bin_mean_ext; intros; apply T).
  rewrite Y. f_equal. f_equal. apply map_ext. intros; apply Y.
Qed.
(** Only the ratios of the weights matter, and a weight w1 + w2 is the same as listing the baseline twice with w1 and w2. *)
Definition scale_w (c : R) (e : entry Cell) : entry Cell := mkentry (ekmag e) (c * ewt e) (ewf e).
Theorem spherical_weights_scale :
  forall c es m1 m, c <> 0 -> sph_row cells ktot edges nb (map (scale_w c) es) m1 m = sph_row cells ktot edges nb es m1 m.
Proof.
  intros c es m1 m Hc. apply sph_row_ext; rewrite filter_map_comm; cbn [scale_w ekmag].
  - destruct (filter _ es); cbn; split; intros; (reflexivity || discriminate).
  - intros q. unfold wf_temp. rewrite ! map_map. cbn. set (l := filter _ es).
    assert (N : rsum (map (fun x => ewf x q * (c * ewt x)) l) = c * rsum (map (fun x => ewf x q * ewt x) l)) by (unfold rsum; induction l as [| a l IH]; cbn; [ring | rewrite IH; ring]).
    assert (D : rsum (map (fun x => c * ewt x) l) = c * rsum (map ewt l)) by (unfold rsum; clear; induction l as [| a l IH]; cbn; [ring | rewrite IH; ring]).
    rewrite N, D. unfold Rdiv. rewrite Rinv_mult. replace (c * rsum (map (fun x => ewf x q * ewt x) l) * (/ c * / rsum (map ewt l))) with (rsum (map (fun x => ewf x q * ewt x) l) * / rsum (map ewt l) * (c * / c)) by ring.
    rewrite Rinv_r by assumption. ring.
Qed.
Lemma rsum_app a b : rsum (a ++ b) = rsum a + rsum b.
Proof. unfold rsum. induction a as [| x a IH]; cbn; [ring |]. rewrite IH. ring. Qed.
Theorem spherical_redundant :
  forall es1 es2 k w1 w2 f m1 m,
    sph_row cells ktot edges nb (es1 ++ mkentry k (w1 + w2) f :: es2) m1 m = sph_row cells ktot edges nb (es1 ++ mkentry k w1 f :: mkentry k w2 f :: es2) m1 m.
Proof.
  intros. apply sph_row_ext; rewrite ! filter_app; cbn [filter ekmag]; destruct (in_edges edges m1 k); try tauto.
  - split; intros H; apply app_eq_nil in H; destruct H as [_ H]; discriminate.
  - intros c. unfold wf_temp. rewrite ! map_app, ! rsum_app. cbn [map ewf ewt]. unfold rsum. cbn [fold_right]. f_equal; [ring |]. f_equal. ring.
Qed.
End Sph.

(** ** Units, files and objects *)
Theorem kbins_units_partial :
  forall lh u vs, (used_kbins lh u vs = Ok vs <-> exists s, u = Some (mkunit (if lh then 1 else 0)%Z s)) /\
    (forall vs', used_kbins lh (Some (mkunit (if lh then 1 else 0)%Z 1)) vs = Ok vs' -> vs' = map (fun v => v * 1) vs).
Proof.
  intros lh u vs. split.
  - unfold used_kbins, check_kunits. destruct u as [[h s] |]; cbn; [| split; [discriminate | intros (s & H); discriminate]]. destruct (Z.eqb_spec h (if lh then 1 else 0)) as [-> | N]; cbn; split; try discriminate; eauto.
    intros (s' & E). injection E as -> ->. congruence.
  - intros vs' H. unfold used_kbins, check_kunits in H. cbn in H. rewrite Z.eqb_refl in H. cbn in H. injection H as <-. symmetry. rewrite <- (map_id vs) at 2. apply map_ext. intros; ring.
Qed.
(** bins given in 1/kpc pass the check and are then used as if they were in 1/Mpc *)
Theorem kbins_units_refuted :
  exists u vs vs', used_kbins false (Some u) vs = Ok vs' /\ vs' <> map (fun v => v * mpc_scale u) vs.
Proof. exists (mkunit 0 1000), [1], [1]. split; [reflexivity |]. cbn. intros E. injection E. lra. Qed.
Theorem run_and_write_outcomes :
  forall A clobber (compute : result A) file,
    (forall a, compute = Ok a -> (file = None \/ clobber = CTrue) -> run_and_write clobber compute file = (Some a, None)) /\
    (forall x, file = Some x -> clobber = CFalse -> run_and_write clobber compute file = (file, Some OSError)) /\
    (forall e, file = None -> snd (run_and_write clobber compute file) = Some e -> fst (run_and_write clobber compute file) = None).
Proof.
  intros A clobber compute file. split; [| split].
  - intros a -> [-> | ->]; cbn; [destruct clobber; reflexivity | destruct file; reflexivity].
  - intros x -> ->. reflexivity.
  - intros e ->. cbn. destruct compute; cbn; [discriminate | reflexivity].
Qed.
(** the old file is removed before the computation: a failing run loses it *)
Theorem run_and_write_refuted : forall A (old : A) e, run_and_write CTrue (Err e) (Some old) = (None, Some e).
Proof. reflexivity. Qed.
(** Every row of the object gets the window function of the baseline length of its own redundant group. *)
Theorem exact_rows_group :
  forall W (zero : W) wf groups lens rows g len b, length groups = length lens ->
    In (g, len) (combine groups lens) -> In b g -> (forall g' len', In (g', len') (combine groups lens) -> In b g' -> len' = len) ->
    forall i, nth_error rows i = Some b -> nth_error (exact_rows zero wf groups lens rows) i = Some (wf len).
Proof.
  intros W zero wf groups lens rows g len b _ Hin Hb Uniq i Hi. unfold exact_rows. set (gl := combine groups lens) in *.
  assert (Step : forall acc p, length acc = length rows -> length (map (fun q => if existsb (Z.eqb (fst q)) (fst p) then wf (snd p) else snd q) (combine rows acc)) = length rows) by (intros acc p L; rewrite map_length, combine_length; lia).
  assert (NE : forall acc (p : list Z * R), length acc = length rows -> forall x, nth_error acc i = Some x ->
     nth_error (map (fun q => if existsb (Z.eqb (fst q)) (fst p) then wf (snd p) else snd q) (combine rows acc)) i = Some (if existsb (Z.eqb b) (fst p) then wf (snd p) else x)).
  { intros acc p _ x Hx. rewrite nth_error_map. assert (C : nth_error (combine rows acc) i = Some (b, x)).
    { clear - Hi Hx. revert acc i Hi Hx. induction rows as [| r rows IH]; intros [| a acc] [| i] Hi Hx; cbn in *; try discriminate; [injection Hi as ->; injection Hx as ->; reflexivity | apply IH; assumption]. }
    rewrite C. reflexivity. }
  assert (EB : forall p : list Z * R, existsb (Z.eqb b) (fst p) = true <-> In b (fst p)).
  { intros p. rewrite existsb_exists. split; [intros (y & Hy & E); apply Z.eqb_eq in E; subst; assumption | intros H; exists b; split; [assumption | apply Z.eqb_refl]]. }
  assert (L0 : forall (acc : list W), length acc = length rows -> exists x, nth_error acc i = Some x).
  { intros acc L. destruct (nth_error acc i) eqn:E; [eauto |]. apply nth_error_None in E. assert (i < length rows)%nat by (apply nth_error_Some; congruence). lia. }
  assert (G : forall l acc, (forall p, In p l -> In b (fst p) -> snd p = len) -> length acc = length rows ->
     (nth_error acc i = Some (wf len) \/ exists p, In p l /\ In b (fst p)) ->
     nth_error (fold_left (fun acc gl => map (fun p => if existsb (Z.eqb (fst p)) (fst gl) then wf (snd gl) else snd p) (combine rows acc)) l acc) i = Some (wf len)).
  { induction l as [| p l IH]; intros acc U L H; cbn [fold_left].
    - destruct H as [H | (p & [] & _)]. assumption.
    - apply IH; [intros; apply U; [right; assumption | assumption] | apply Step; assumption |]. destruct (L0 acc L) as [x Hx]. rewrite (NE acc p L x Hx).
      destruct (existsb (Z.eqb b) (fst p)) eqn:E; [left; rewrite (U p (or_introl eq_refl)); [reflexivity | apply EB; assumption] |].
      destruct H as [H | (q & [<- | Hq] & Hb')]; [left; congruence | | right; exists q; tauto]. apply EB in Hb'. congruence. }
  apply G; [intros [g' len'] Hp Hb'; apply (Uniq g' len' Hp Hb') | apply repeat_length | right; exists (g, len); split; assumption].
Qed.
Theorem exact_windows_inplace : forall own asked b, exact_inplace own asked b = true <-> b = true /\ (asked = None \/ asked = Some own).
Proof.
  intros. unfold exact_inplace. destruct asked as [l |]; [| intuition]. destruct (list_eq_dec Z.eq_dec l own) as [-> | N]; [intuition |].
  split; [discriminate |]. intros (_ & [H | H]); [discriminate |]. injection H as ->. congruence.
Qed.
(** Objects whose number of delays is not the number of channels, such as folded ones, are refused. *)
Theorem exact_windows_accepts : forall nf nd, exact_ok nf nd = Ok tt <-> nf = nd.
Proof. intros. unfold exact_ok. destruct (Nat.eqb_spec nf nd); cbn; split; intros; (reflexivity || assumption || discriminate || contradiction). Qed.
Theorem exact_windows_folded_refuted : forall nf, (2 <= nf)%nat -> exact_ok nf (nf / 2 - 1) = Err ValueError /\ exact_ok nf (nf / 2) = Err ValueError.
Proof. intros nf H. assert (nf / 2 < nf)%nat by (apply Nat.div_lt; lia). unfold exact_ok. split; match goal with |- context [Nat.eqb nf ?x] => destruct (Nat.eqb_spec nf x) end; (lia || reflexivity). Qed.

Example spherical_example :
  let es := [mkentry 1 2 (fun c : nat => INR c); mkentry 1 1 (fun _ => 1)] in
  forall e c, In e es -> 0 <= ewt e /\ 0 <= ewf e c.
Proof. intros es e c [<- | [<- | []]]; cbn; split; try lra. apply pos_INR. Qed.
Example exact_rows_example : exact_rows (0, 0)%nat (fun _ => (1, 1)%nat) [[5; 6]; [7]]%Z [14; 28] [7; 5; 7; 6]%Z = [(1, 1); (1, 1); (1, 1); (1, 1)]%nat.
Proof. reflexivity. Qed.

Print Assumptions spw_range_accepts. Print Assumptions update_spw_channels. Print Assumptions ftbeam_accepts. Print Assumptions window_beams_own. Print Assumptions window_frequencies.
Print Assumptions bins_partition. Print Assumptions kpara_bins_exact. Print Assumptions cross_power. Print Assumptions cylindrical_rows_exact. Print Assumptions cylindrical_normalised.
Print Assumptions spherical_rows_normalised. Print Assumptions spherical_rows_nonneg. Print Assumptions spherical_redundant. Print Assumptions exact_rows_group.
