From Coq Require Import Reals Lra.
From Verif Require Import Prelude ListLemmas AvgModel DelayBinModel.
Open Scope Z_scope.

Lemma neg_loop_spec nk : 0 < nk -> forall fuel low, - nk <= low -> (low + nk) / nk < Z.of_nat fuel ->
  neg_loop fuel low nk = Some (map (fun i => (low - Z.of_nat i * nk, low - Z.of_nat i * nk + nk)) (seq 0 (Z.to_nat ((low + nk) / nk)))).
Proof.
  intros Hnk. induction fuel as [|f IH]; intros low Hl Hf.
  - exfalso. assert (0 <= (low + nk) / nk) by (apply Z.div_pos; lia). lia.
  - cbn [neg_loop]. rewrite Z.geb_leb. destruct (0 <=? low) eqn:E.
    + apply Z.leb_le in E.
      assert (D : (low + nk) / nk = (low - nk + nk) / nk + 1). { replace (low + nk) with (low - nk + nk + 1 * nk) by lia. rewrite Z.div_add by lia. reflexivity. }
      rewrite IH by lia. assert (P : 0 <= (low - nk + nk) / nk) by (apply Z.div_pos; lia). rewrite D.
      replace (Z.to_nat ((low - nk + nk) / nk + 1)) with (S (Z.to_nat ((low - nk + nk) / nk))) by lia.
      cbn [seq map]. f_equal. f_equal; [f_equal; lia|]. rewrite <- seq_shift, map_map. apply map_ext. intro i. f_equal; lia.
    + apply Z.leb_gt in E. rewrite (Z.div_small (low + nk) nk) by lia. reflexivity.
Qed.
Lemma pos_loop_spec nk n : 0 < nk -> forall fuel high, high <= n + nk -> (n - high + nk) / nk < Z.of_nat fuel ->
  pos_loop fuel n high nk = Some (map (fun i => (high + Z.of_nat i * nk - nk, high + Z.of_nat i * nk)) (seq 0 (Z.to_nat ((n - high + nk) / nk)))).
Proof.
  intros Hnk. induction fuel as [|f IH]; intros high Hl Hf.
  - exfalso. assert (0 <= (n - high + nk) / nk) by (apply Z.div_pos; lia). lia.
  - cbn [pos_loop]. destruct (high <=? n) eqn:E.
    + apply Z.leb_le in E.
      assert (D : (n - high + nk) / nk = (n - (high + nk) + nk) / nk + 1). { replace (n - high + nk) with (n - (high + nk) + nk + 1 * nk) by lia. rewrite Z.div_add by lia. reflexivity. }
      rewrite IH by lia. assert (P : 0 <= (n - (high + nk) + nk) / nk) by (apply Z.div_pos; lia). rewrite D.
      replace (Z.to_nat ((n - (high + nk) + nk) / nk + 1)) with (S (Z.to_nat ((n - (high + nk) + nk) / nk))) by lia.
      cbn [seq map]. f_equal. f_equal; [f_equal; lia|]. rewrite <- seq_shift, map_map. apply map_ext. intro i. f_equal; lia.
    + apply Z.leb_gt in E. rewrite (Z.div_small (n - high + nk) nk) by lia. reflexivity.
Qed.

(** the closed form: [p] bins below, the zero bin, [q] bins above *)
Definition bins (z h nk p q : nat) : list (pslice * bool) :=
  map (fun j => ((Z.of_nat z - Z.of_nat h - Z.of_nat (p - j) * Z.of_nat nk, Z.of_nat z - Z.of_nat h - Z.of_nat (p - j) * Z.of_nat nk + Z.of_nat nk), false)) (seq 0 p)
  ++ [((Z.of_nat z - Z.of_nat h, Z.of_nat z + 1 + Z.of_nat h), true)] ++
  map (fun j => ((Z.of_nat z + 1 + Z.of_nat h + Z.of_nat j * Z.of_nat nk, Z.of_nat z + 1 + Z.of_nat h + Z.of_nat j * Z.of_nat nk + Z.of_nat nk), false)) (seq 0 q).

Lemma rev_map_seq {A} (f : nat -> A) p : rev (map f (seq 0 p)) = map (fun j => f (p - 1 - j)%nat) (seq 0 p).
Proof.
  induction p as [|p IH]; [reflexivity|]. rewrite seq_S at 1. rewrite map_app, rev_app_distr, IH. cbn [map rev app seq].
  f_equal; [f_equal; lia|]. rewrite <- seq_shift, map_map. apply map_ext. intro j. f_equal. lia.
Qed.

Lemma delay_slices_closed fuel n z nk h : (0 < nk)%nat -> (h <= z)%nat -> (z + 1 + h <= n)%nat -> (n < fuel)%nat ->
  delay_slices fuel (Z.of_nat n) (Z.of_nat z) (Z.of_nat nk) (Z.of_nat (2 * h + 1)) =
  Ok (Some (bins z h nk ((z - h) / nk) ((n - z - 1 - h) / nk))).
Proof.
  intros Hk Hz Hn Hf. unfold delay_slices.
  assert (M : Z.of_nat (2 * h + 1) mod 2 = 1) by (replace (Z.of_nat (2 * h + 1)) with (1 + Z.of_nat h * 2) by lia; rewrite Z.mod_add by lia; reflexivity).
  assert (D : Z.of_nat (2 * h + 1) / 2 = Z.of_nat h) by (replace (Z.of_nat (2 * h + 1)) with (1 + Z.of_nat h * 2) by lia; rewrite Z.div_add by lia; reflexivity).
  rewrite M, D. change (1 =? 0) with false. cbn iota.
  assert (B1 : (Z.of_nat z - Z.of_nat nk - Z.of_nat h + Z.of_nat nk) / Z.of_nat nk = Z.of_nat ((z - h) / nk)).
  { rewrite Nat2Z.inj_div. f_equal. lia. }
  assert (B2 : (Z.of_nat n - (Z.of_nat z + 1 + Z.of_nat nk + Z.of_nat h) + Z.of_nat nk) / Z.of_nat nk = Z.of_nat ((n - z - 1 - h) / nk)).
  { rewrite Nat2Z.inj_div. f_equal. lia. }
  assert (L1 : ((z - h) / nk <= z - h)%nat) by (apply Nat.div_le_upper_bound; [lia|]; nia).
  assert (L2 : ((n - z - 1 - h) / nk <= n - z - 1 - h)%nat) by (apply Nat.div_le_upper_bound; [lia|]; nia).
  rewrite neg_loop_spec by lia. rewrite pos_loop_spec by lia. rewrite B1, B2, !Nat2Z.id.
  set (p := ((z - h) / nk)%nat) in *. set (q := ((n - z - 1 - h) / nk)%nat) in *. unfold bins. do 3 f_equal.
  - rewrite rev_map_seq, map_map. apply map_ext_in. intros j Hj. apply in_seq in Hj. f_equal.
    assert (E : (Z.of_nat (p - j) = Z.of_nat (p - 1 - j) + 1)%Z) by lia. rewrite E. f_equal; lia.
  - f_equal. rewrite map_map. apply map_ext. intro j. f_equal. f_equal; lia.
Qed.
Lemma delay_slices_even_kernel fuel n z nk nzero : nzero mod 2 = 0 -> delay_slices fuel n z nk nzero = Err ValueError.
Proof. intro H. unfold delay_slices. rewrite H. reflexivity. Qed.
Lemma neg_loop_hangs fuel low : 0 <= low -> neg_loop fuel low 0 = None.
Proof.
  revert low. induction fuel as [|f IH]; intros low H; [reflexivity|]. cbn [neg_loop]. rewrite Z.geb_leb, (proj2 (Z.leb_le 0 low) H), IH by lia. reflexivity.
Qed.

Lemma bins_length z h nk p q : length (bins z h nk p q) = (p + 1 + q)%nat.
Proof. unfold bins. rewrite !app_length, !map_length, !seq_length. cbn. lia. Qed.
Lemma nth_map_seq {A} (f : nat -> A) n j : (j < n)%nat -> nth_error (map f (seq 0 n)) j = Some (f j).
Proof.
  intro H. rewrite nth_error_map, (nth_error_nth' _ 0%nat) by (rewrite seq_length; exact H). rewrite seq_nth by exact H. reflexivity.
Qed.
Lemma bins_nth z h nk p q j : (j < p + 1 + q)%nat -> nth_error (bins z h nk p q) j = Some (
  if (j <? p)%nat then ((Z.of_nat z - Z.of_nat h - Z.of_nat (p - j) * Z.of_nat nk, Z.of_nat z - Z.of_nat h - Z.of_nat (p - j) * Z.of_nat nk + Z.of_nat nk), false)
  else if (j =? p)%nat then ((Z.of_nat z - Z.of_nat h, Z.of_nat z + 1 + Z.of_nat h), true)
  else ((Z.of_nat z + 1 + Z.of_nat h + Z.of_nat (j - p - 1) * Z.of_nat nk, Z.of_nat z + 1 + Z.of_nat h + Z.of_nat (j - p - 1) * Z.of_nat nk + Z.of_nat nk), false)).
Proof.
  intro H. unfold bins. destruct (Nat.ltb_spec j p) as [L|L].
  - rewrite nth_error_app1 by (rewrite map_length, seq_length; exact L). exact (nth_map_seq _ p j L).
  - rewrite nth_error_app2; rewrite map_length, seq_length; [|exact L]. destruct (Nat.eqb_spec j p) as [->|N].
    + rewrite Nat.sub_diag. reflexivity.
    + destruct (Nat.le_exists_sub (p + 1) j ltac:(lia)) as [m [-> _]]. replace (m + (p + 1) - p - 1)%nat with m by lia. replace (m + (p + 1) - p)%nat with (S m) by lia.
      cbn [app nth_error]. exact (nth_map_seq _ q m ltac:(lia)).
Qed.

(** * values *)
Definition dotR (d k : list R) : R := Rsum (map (fun p => (fst p * snd p)%R) (combine d k)).
Lemma wsum_eq d k : length d = length k -> wsum d k = Ok (dotR d k).
Proof. intro H. unfold wsum, weighted. rewrite (proj2 (Nat.eqb_eq _ _) H). reflexivity. Qed.
Lemma py_slice_in {A} (a b : nat) (l : list A) : (a <= b <= length l)%nat -> py_slice (Z.of_nat a, Z.of_nat b) l = slice a b l.
Proof.
  intro H. unfold py_slice, py_norm. cbn [fst snd]. destruct (Z.ltb_spec (Z.of_nat a) 0); [lia|]. destruct (Z.ltb_spec (Z.of_nat b) 0); [lia|].
  f_equal; lia.
Qed.
Lemma slice_length {A} a b (l : list A) : (a <= b <= length l)%nat -> length (slice a b l) = (b - a)%nat.
Proof. intro H. unfold slice. rewrite skipn_length, firstn_length. lia. Qed.
Lemma slice_rev {A} a b (l : list A) : (a <= b <= length l)%nat -> slice a b (rev l) = rev (slice (length l - b) (length l - a) l).
Proof.
  intro H. unfold slice. rewrite firstn_rev, skipn_rev, skipn_length. f_equal. rewrite firstn_skipn_comm. f_equal. f_equal. lia.
Qed.
Lemma slice_map {A B} (f : A -> B) a b l : slice a b (map f l) = map f (slice a b l).
Proof. unfold slice. rewrite firstn_map, skipn_map. reflexivity. Qed.
Lemma Rsum_app a b : Rsum (a ++ b) = (Rsum a + Rsum b)%R.
Proof. induction a as [|x a IH]; cbn; [lra|]. rewrite IH. lra. Qed.
Lemma Rsum_rev a : Rsum (rev a) = Rsum a.
Proof. induction a as [|x a IH]; [reflexivity|]. cbn. rewrite Rsum_app, IH. cbn. lra. Qed.
Lemma combine_app' {A B} (a b : list A) (c d : list B) : length a = length c -> combine (a ++ b) (c ++ d) = combine a c ++ combine b d.
Proof. revert c. induction a as [|x a IH]; intros [|y c] H; cbn in *; try discriminate; [reflexivity|]. rewrite IH by lia. reflexivity. Qed.
Lemma combine_rev {A B} (a : list A) (b : list B) : length a = length b -> combine (rev a) (rev b) = rev (combine a b).
Proof.
  revert b. induction a as [|x a IH]; intros [|y b] H; cbn in *; try discriminate; [reflexivity|].
  rewrite combine_app' by (rewrite !rev_length; lia). rewrite IH by lia. reflexivity.
Qed.
Lemma dotR_rev d k : length d = length k -> dotR (rev d) (rev k) = dotR d k.
Proof. intro H. unfold dotR. rewrite combine_rev by exact H. rewrite map_rev, Rsum_rev. reflexivity. Qed.
Lemma dotR_opp d k : dotR (map Ropp d) k = (- dotR d k)%R.
Proof. unfold dotR. revert k. induction d as [|x d IH]; intros [|y k]; cbn; try lra. rewrite IH. lra. Qed.
Lemma dotR_const c k d : length d = length k -> Forall (eq c) d -> dotR d k = (c * Rsum k)%R.
Proof. unfold dotR. revert k. induction d as [|x d IH]; intros [|y k] H F; cbn in *; try discriminate; [lra|]. inversion F; subst. rewrite IH by (auto; lia). lra. Qed.
Lemma Rsum_scale c l : Rsum (map (fun x => (x / c)%R) l) = (Rsum l / c)%R.
Proof. induction l as [|x l IH]; cbn; [unfold Rdiv; lra|]. rewrite IH. unfold Rdiv. lra. Qed.
Lemma normalise_sum k : Rsum k <> 0%R -> Rsum (normalise k) = 1%R.
Proof. intro H. unfold normalise. rewrite Rsum_scale. unfold Rdiv. apply Rinv_r, H. Qed.
Lemma normalise_length k : length (normalise k) = length k.
Proof. apply map_length. Qed.
Lemma normalise_rev k : k = rev k -> normalise k = rev (normalise k).
Proof. intro H. unfold normalise. rewrite <- map_rev, <- H. reflexivity. Qed.

Lemma maxabs_nonneg l : (0 <= maxabs l)%R.
Proof. induction l as [|x l IH]; cbn; [lra|]. apply (Rle_trans _ _ _ IH), Rmax_r. Qed.
Lemma maxabs_zero l : maxabs l = 0%R -> Forall (eq 0%R) l.
Proof.
  induction l as [|x l IH]; intro H; constructor; cbn in H.
  - pose proof (Rmax_l (Rabs x) (maxabs l)) as H1. fold (maxabs l) in H. rewrite H in H1. pose proof (Rabs_pos x). destruct (Req_dec x 0) as [->|N]; [reflexivity|]. apply Rabs_pos_lt in N. lra.
  - apply IH. pose proof (Rmax_r (Rabs x) (maxabs l)) as H1. fold (maxabs l) in H. rewrite H in H1. pose proof (maxabs_nonneg l). lra.
Qed.
Lemma dotR_scale c d k : dotR (map (Rmult c) d) k = (c * dotR d k)%R.
Proof. unfold dotR. revert k. induction d as [|x d IH]; intros [|y k]; cbn; try lra. rewrite IH. lra. Qed.
Lemma rms_slice_spec vals k : vals <> [] -> length vals = length k -> rms_slice vals k = Ok (sqrt (dotR (map (fun v => (v ^ 2)%R) vals) k)).
Proof.
  intros N L. unfold rms_slice. destruct vals as [|v0 vals]; [congruence|]. clear N. set (l := v0 :: vals) in *. destruct (Req_EM_T (maxabs l) 0) as [E|E].
  - rewrite wsum_eq by (rewrite !map_length; exact L). cbn [bind]. f_equal. rewrite E, Rmult_0_l. symmetry.
    rewrite (dotR_const 0 k); [rewrite Rmult_0_l; apply sqrt_0 | rewrite map_length; exact L|].
    apply maxabs_zero in E. rewrite Forall_forall in *. intros y Hy. apply in_map_iff in Hy. destruct Hy as [v [<- Hv]]. rewrite <- (E v Hv). cbn. lra.
  - rewrite wsum_eq by (rewrite !map_length; exact L). cbn [bind]. f_equal. pose proof (maxabs_nonneg l) as P.
    rewrite <- (sqrt_pow2 (maxabs l)) at 1 by exact P. rewrite <- sqrt_mult_alt by apply pow2_ge_0. f_equal. rewrite <- dotR_scale. f_equal.
    rewrite !map_map. apply map_ext. intro v. unfold Rdiv. rewrite Rpow_mult_distr, pow2_abs, pow_inv. field. exact E.
Qed.

Lemma zero_index_spec dly k m : (forall i x, nth_error dly i = Some x -> (x = 0%R <-> i = m)) -> (m < length dly)%nat -> zero_index k dly = Some (k + Z.of_nat m).
Proof.
  revert k m. induction dly as [|x l IH]; intros k m H L; [cbn in L; lia|]. cbn [zero_index]. destruct (Req_EM_T x 0) as [E|E].
  - assert (Hm : 0%nat = m) by (apply (H 0%nat x); [reflexivity | exact E]). subst m. f_equal. lia.
  - destruct m as [|m]; [exfalso; apply E, (H 0%nat x); reflexivity|]. rewrite (IH (k + 1) m); [f_equal; lia | | cbn in L; lia].
    intros i y Hi. rewrite (H (S i) y Hi). lia.
Qed.

Lemma map_res_ok {A B} (f : A -> result B) (g : A -> B) l : (forall x, In x l -> f x = Ok (g x)) -> map_res f l = Ok (map g l).
Proof.
  induction l as [|x l IH]; intro H; [reflexivity|]. cbn. rewrite (H x (or_introl eq_refl)). cbn. rewrite IH by (intros; apply H; right; assumption). reflexivity.
Qed.

Definition mirror (n : nat) (s : pslice * bool) : pslice * bool := ((Z.of_nat n - snd (fst s), Z.of_nat n - fst (fst s)), snd s).
Lemma bins_in z h nk p n q s b : (p * nk <= z - h)%nat -> (h <= z)%nat -> (z + 1 + h + q * nk <= n)%nat -> In (s, b) (bins z h nk p q) ->
  exists a e, s = (Z.of_nat a, Z.of_nat e) /\ (a <= e <= n)%nat /\ (e - a = if b then 2 * h + 1 else nk)%nat.
Proof.
  intros Hp Hz Hq H. unfold bins in H. apply in_app_iff in H. destruct H as [H|H]; [|apply in_app_iff in H; destruct H as [H|H]].
  - apply in_map_iff in H. destruct H as [j [E Hj]]. apply in_seq in Hj. injection E as <- <-.
    assert ((p - j) * nk <= p * nk)%nat by (apply Nat.mul_le_mono_r; lia). assert (nk <= (p - j) * nk)%nat by nia.
    exists (z - h - (p - j) * nk)%nat, (z - h - (p - j) * nk + nk)%nat. repeat split; [f_equal; lia | lia | lia | lia].
  - destruct H as [E|[]]. injection E as <- <-. exists (z - h)%nat, (z + 1 + h)%nat. repeat split; [f_equal; lia | lia | lia | lia].
  - apply in_map_iff in H. destruct H as [j [E Hj]]. apply in_seq in Hj. injection E as <- <-.
    assert ((j + 1) * nk <= q * nk)%nat by (apply Nat.mul_le_mono_r; lia).
    exists (z + 1 + h + j * nk)%nat, (z + 1 + h + j * nk + nk)%nat. repeat split; [f_equal; lia | lia | lia | lia].
Qed.
Lemma bins_mirror m h nk p : rev (bins m h nk p p) = map (mirror (2 * m + 1)) (bins m h nk p p).
Proof.
  unfold bins. rewrite !rev_app_distr, !map_app, <- app_assoc. cbn [rev app map]. rewrite !rev_map_seq, !map_map. apply (f_equal2 (@app _)); [|apply (f_equal2 cons)].
  - apply map_ext_in. intros j Hj. apply in_seq in Hj. unfold mirror. cbn [fst snd]. f_equal.
    assert (E : Z.of_nat (p - j) = Z.of_nat (p - 1 - j) + 1) by lia. rewrite E. f_equal; lia.
  - unfold mirror. cbn [fst snd]. f_equal. f_equal; lia.
  - apply map_ext_in. intros j Hj. apply in_seq in Hj. unfold mirror. cbn [fst snd]. f_equal.
    assert (E : Z.of_nat (p - (p - 1 - j)) = Z.of_nat j + 1) by lia. rewrite E. f_equal; lia.
Qed.

Section Average.
Variables (m h fuel ntot : nat) (kernel zkernel dly data stat : list R).
Let nk := length kernel.
Let n := (2 * m + 1)%nat.
Let p := ((m - h) / nk)%nat.
Hypothesis Ld : length dly = n.
Hypothesis Lda : length data = n.
Hypothesis Ls : length stat = n.
Hypothesis Z0 : forall i x, nth_error dly i = Some x -> (x = 0%R <-> i = m).
Hypothesis Anti : rev dly = map Ropp dly.
Hypothesis Lz : length zkernel = (2 * h + 1)%nat.
Hypothesis Hh : (h <= m)%nat.
Hypothesis Sz : zkernel = rev zkernel.
Hypothesis Nk : kernel <> [].
Hypothesis Lk : (nk <= ntot / 2)%nat.
Hypothesis Hf : (n < fuel)%nat.

Lemma nk_pos : (0 < nk)%nat.
Proof. unfold nk. destruct kernel; [congruence | cbn; lia]. Qed.
Lemma p_le : (p * nk <= m - h)%nat.
Proof. unfold p. rewrite Nat.mul_comm. apply Nat.mul_div_le. pose proof nk_pos. lia. Qed.
Definition ker (b : bool) : list R := if b then normalise zkernel else normalise kernel.
Definition bin_of (d : list R) (s : pslice * bool) : R := dotR (py_slice (fst s) d) (ker (snd s)).
Definition rms_of (d : list R) (s : pslice * bool) : R := sqrt (dotR (map (fun v => (v ^ 2)%R) (py_slice (fst s) d)) (ker (snd s))).
Lemma ker_length b : length (ker b) = if b then (2 * h + 1)%nat else nk.
Proof. destruct b; cbn; rewrite normalise_length; [exact Lz | reflexivity]. Qed.
Lemma in_bins s : In s (bins m h nk p p) -> exists a e, fst s = (Z.of_nat a, Z.of_nat e) /\ (a <= e <= n)%nat /\ (e - a = length (ker (snd s)))%nat.
Proof.
  destruct s as [s b]. intro H. cbn [fst snd]. rewrite ker_length. pose proof p_le. apply (bins_in m h nk p n p s b); unfold n; try lia; exact H.
Qed.
Lemma average_spec : average_in_delay_bins fuel ntot kernel zkernel dly data stat =
  Ok (Some (map (bin_of dly) (bins m h nk p p), map (bin_of data) (bins m h nk p p), map (rms_of stat) (bins m h nk p p))).
Proof.
  unfold average_in_delay_bins. fold nk. destruct (Nat.ltb_spec (ntot / 2) nk) as [C|_]; [lia|].
  destruct (list_eq_dec Req_EM_T zkernel (rev zkernel)) as [_|C]; [|contradiction]. cbn [negb].
  rewrite (zero_index_spec dly 0 m Z0) by (rewrite Ld; unfold n; lia). rewrite !normalise_length, Ld, Lz. fold nk.
  rewrite Z.add_0_l, delay_slices_closed by (pose proof nk_pos; unfold n; lia). replace (n - m - 1 - h)%nat with (m - h)%nat by (unfold n; lia). fold p. cbn [bind].
  assert (B : forall d, length d = n -> bin_data (normalise kernel) (normalise zkernel) (bins m h nk p p) d = Ok (map (bin_of d) (bins m h nk p p))).
  { intros d L. apply map_res_ok. intros s Hs. destruct (in_bins s Hs) as (a & e & E & R & W). change (if snd s then normalise zkernel else normalise kernel) with (ker (snd s)).
    apply wsum_eq. rewrite E, py_slice_in, slice_length by lia. exact W. }
  rewrite (B data Lda), (B dly Ld). cbn [bind].
  assert (C : bin_rms (normalise kernel) (normalise zkernel) (bins m h nk p p) stat = Ok (map (rms_of stat) (bins m h nk p p))).
  { apply map_res_ok. intros s Hs. destruct (in_bins s Hs) as (a & e & E & R & W). change (if snd s then normalise zkernel else normalise kernel) with (ker (snd s)).
    assert (Ll : length (py_slice (fst s) stat) = length (ker (snd s))) by (rewrite E, py_slice_in, slice_length by lia; exact W).
    apply rms_slice_spec; [|exact Ll]. intro Q. rewrite Q in Ll. pose proof nk_pos. rewrite ker_length in Ll. destruct (snd s); cbn in Ll; lia. }
  rewrite C. reflexivity.
Qed.
Lemma average_mirror : kernel = rev kernel -> rev (map (bin_of dly) (bins m h nk p p)) = map Ropp (map (bin_of dly) (bins m h nk p p)).
Proof.
  intro Sk. rewrite <- map_rev, bins_mirror. fold n. rewrite !map_map. apply map_ext_in. intros s Hs.
  destruct (in_bins s Hs) as (a & e & E & R & W). unfold bin_of, mirror. cbn [fst snd]. rewrite E. cbn [fst snd].
  replace (Z.of_nat n - Z.of_nat e, Z.of_nat n - Z.of_nat a) with (Z.of_nat (n - e), Z.of_nat (n - a)) by (f_equal; lia).
  rewrite !py_slice_in by lia. rewrite <- dotR_opp, <- slice_map, <- Anti, slice_rev by lia. rewrite Ld.
  assert (K : ker (snd s) = rev (ker (snd s))) by (destruct (snd s); cbn; apply normalise_rev; assumption).
  rewrite K at 2. rewrite dotR_rev; [reflexivity|]. rewrite slice_length by lia. lia.
Qed.
Lemma slice_Forall {A} (P : A -> Prop) a b l : Forall P l -> Forall P (slice a b l).
Proof.
  intro H. unfold slice. rewrite Forall_forall in *. intros x Hx. apply H. rewrite <- (firstn_skipn b l). apply in_app_iff. left.
  rewrite <- (firstn_skipn a (firstn b l)). apply in_app_iff. right. exact Hx.
Qed.
Lemma average_const d c : length d = n -> Rsum kernel <> 0%R -> Rsum zkernel <> 0%R -> Forall (eq c) d -> Forall (eq c) (map (bin_of d) (bins m h nk p p)).
Proof.
  intros L K1 K2 F. rewrite Forall_forall. intros x Hx. apply in_map_iff in Hx. destruct Hx as [s [<- Hs]]. destruct (in_bins s Hs) as (a & e & E & R & W).
  unfold bin_of. rewrite E, py_slice_in by lia. rewrite (dotR_const c); [|rewrite slice_length by lia; exact W | apply slice_Forall, F].
  destruct (snd s); cbn [ker]; rewrite normalise_sum by assumption; lra.
Qed.
End Average.
(** Python slices: negative ends count from the end and stop at the beginning *)
Theorem py_slice_negative {A} : forall (a b : nat) (l : list A),
  py_slice (- Z.of_nat (S a), Z.of_nat b) l = slice (length l - S a) (Nat.min b (length l)) l.
Proof.
  intros a b l. unfold py_slice, py_norm. cbn [fst snd].
  destruct (Z.ltb_spec (- Z.of_nat (S a)) 0); [|lia]. destruct (Z.ltb_spec (Z.of_nat b) 0); [lia|].
  f_equal; lia.
Qed.
