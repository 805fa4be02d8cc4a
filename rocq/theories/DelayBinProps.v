(** C23: delay re-binning ([average_in_delay_bins] and its slices). *)
From Coq Require Import Reals Lra.
From Verif Require Import Prelude ListLemmas AvgModel DelayBinModel DelayBinProofs.
Open Scope Z_scope.

(** An odd number 2m+1 of delays with the zero delay in the middle, zero kernel of odd length
    2h+1 <= 2m+1, kernel length nk > 0: the slices cover one contiguous range; the middle one is
    the zero bin, all others have width nk; they are inside the array; fewer than nk delays are
    left over at each end; reversing the list mirrors every slice. *)
Theorem C23_slices : forall fuel m nk h, (0 < nk)%nat -> (h <= m)%nat -> (2 * m + 1 < fuel)%nat ->
  let n := Z.of_nat (2 * m + 1) in let w := Z.of_nat nk in
  exists sl p, delay_slices fuel n (Z.of_nat m) w (Z.of_nat (2 * h + 1)) = Ok (Some sl) /\
    length sl = (2 * p + 1)%nat /\
    (forall j s b, nth_error sl j = Some (s, b) -> 0 <= fst s /\ snd s <= n /\
       (b = true <-> j = p) /\ (j = p -> s = (Z.of_nat (m - h), Z.of_nat (m + h + 1))) /\ (j <> p -> snd s = fst s + w)) /\
    (forall j s b s' b', nth_error sl j = Some (s, b) -> nth_error sl (S j) = Some (s', b') -> snd s = fst s') /\
    (forall s b, nth_error sl 0 = Some (s, b) -> fst s < w) /\
    rev sl = map (fun x => ((n - snd (fst x), n - fst (fst x)), snd x)) sl.
Proof.
  intros fuel m nk h Hk Hh Hf n w. set (p := ((m - h) / nk)%nat). exists (bins m h nk p p), p.
  assert (Hp : (p * nk <= m - h)%nat) by (unfold p; rewrite Nat.mul_comm; apply Nat.mul_div_le; lia).
  assert (Hq : (m - h < nk * (p + 1))%nat) by (unfold p; rewrite Nat.add_1_r; apply Nat.mul_succ_div_gt; lia).
  split; [unfold n, w; rewrite delay_slices_closed by lia; do 3 f_equal; unfold p; f_equal; lia|].
  split; [rewrite bins_length; lia|].
  assert (R : forall j x, nth_error (bins m h nk p p) j = Some x -> (j < p + 1 + p)%nat).
  { intros j x H. rewrite <- (bins_length m h nk). apply nth_error_Some. congruence. }
  split; [|split; [|split]].
  - intros j s b H. pose proof (R j _ H) as Hj.
    assert (I : In (s, b) (bins m h nk p p)) by (apply (nth_error_In _ j), H).
    destruct (bins_in m h nk p (2 * m + 1) p s b ltac:(lia) Hh ltac:(lia) I) as (a & e & -> & Ra & W). cbn [fst snd].
    rewrite bins_nth in H by lia. split; [lia|]. split; [unfold n; lia|].
    destruct (Nat.ltb_spec j p) as [L|L]; [|destruct (Nat.eqb_spec j p) as [->|N]].
    + injection H as H1 H2 <-. split; [split; [discriminate | intro; exfalso; lia]|]. split; [lia|]. intros _. unfold w. lia.
    + injection H as H1 H2 <-. split; [split; reflexivity|]. split; [intros _; f_equal; lia | congruence].
    + injection H as H1 H2 <-. split; [split; [discriminate | intro; exfalso; lia]|]. split; [lia|]. intros _. unfold w. lia.
  - intros j s b s' b' H H'. pose proof (R _ _ H) as Hj. pose proof (R _ _ H') as Hj'. remember (S j) as j' eqn:Ej. rewrite bins_nth in H by lia. rewrite bins_nth in H' by lia.
    assert (E : s = fst (s, b)) by reflexivity. assert (E' : s' = fst (s', b')) by reflexivity. injection H as H. injection H' as H'. rewrite E, E', <- H, <- H'. clearbody p. clear -Ej.
    destruct (Nat.ltb_spec j p) as [L|L]; [|destruct (Nat.eqb_spec j p) as [->|N]].
    + destruct (Nat.ltb_spec j' p) as [L'|L']; [|destruct (Nat.eqb_spec j' p) as [E|N]; [|lia]]; cbn [fst snd].
      * assert (E : Z.of_nat (p - j) = Z.of_nat (p - j') + 1) by lia. rewrite E. lia.
      * assert (E' : Z.of_nat (p - j) = 1) by lia. rewrite E'. lia.
    + destruct (Nat.ltb_spec j' p) as [L'|L']; [lia|]. destruct (Nat.eqb_spec j' p); [lia|]. cbn [fst snd]. replace (j' - p - 1)%nat with 0%nat by lia. lia.
    + destruct (Nat.ltb_spec j' p) as [L'|L']; [lia|]. destruct (Nat.eqb_spec j' p); [lia|]. cbn [fst snd].
      assert (E : Z.of_nat (j' - p - 1) = Z.of_nat (j - p - 1) + 1) by lia. rewrite E. lia.
  - intros s b H. remember 0%nat as j0 eqn:E0 in H. assert (E : s = fst (s, b)) by reflexivity. rewrite bins_nth in H by lia. injection H as H. rewrite E, <- H. clear H E. unfold w.
    destruct (Nat.ltb_spec j0 p) as [L|L]; [|destruct (Nat.eqb_spec j0 p) as [Ep|N]; [|lia]]; cbn [fst snd].
    + replace (p - j0)%nat with p by lia. nia.
    + assert (p = 0%nat) by lia. nia.
  - exact (bins_mirror m h nk p).
Qed.
Print Assumptions C23_slices.
Example C23_slices_applies : delay_slices 20 13 6 3 1 =
  Ok (Some [((0, 3), false); ((3, 6), false); ((6, 7), true); ((7, 10), false); ((10, 13), false)]).
Proof. reflexivity. Qed.

(** an even number of delays (one more negative one): the extra delay is not always ignored; the
    bins are then not symmetric *)
Theorem C54_even_refuted : exists sl, delay_slices 20 8 4 2 1 = Ok (Some sl) /\ map fst sl = [(0, 2); (2, 4); (4, 5); (5, 7)] /\
  rev sl <> map (fun x => ((8 - snd (fst x), 8 - fst (fst x)), snd x)) sl /\ length sl = 4%nat.
Proof. eexists. split; [reflexivity|]. split; [reflexivity|]. split; [discriminate | reflexivity]. Qed.
Print Assumptions C54_even_refuted.
(** an empty kernel is accepted and the loop never ends *)
Theorem C54_empty_kernel_refuted : forall fuel m, delay_slices fuel (2 * Z.of_nat m + 1) (Z.of_nat m) 0 1 = Ok None.
Proof.
  intros fuel m. unfold delay_slices. change (1 mod 2 =? 0) with false. change (1 / 2) with 0. cbn iota. rewrite neg_loop_hangs by lia. reflexivity.
Qed.
Print Assumptions C54_empty_kernel_refuted.
Theorem C23_errors : forall fuel n z nk nzero, nzero mod 2 = 0 -> delay_slices fuel n z nk nzero = Err ValueError.
Proof. exact delay_slices_even_kernel. Qed.

(** The averaged row, for delays symmetric about a single zero: new delays, data and errors have
    one entry per slice; each entry is the normalised-kernel sum over its slice (root of the
    kernel sum of squares for the errors); with a symmetric kernel the new delays are symmetric;
    a constant spectrum stays that constant. *)
Theorem C23_average : forall m h fuel ntot (kernel zkernel dly data stat : list R),
  length dly = (2 * m + 1)%nat -> length data = (2 * m + 1)%nat -> length stat = (2 * m + 1)%nat ->
  (forall i x, nth_error dly i = Some x -> (x = 0%R <-> i = m)) -> rev dly = map Ropp dly ->
  length zkernel = (2 * h + 1)%nat -> (h <= m)%nat -> zkernel = rev zkernel ->
  kernel <> [] -> (length kernel <= ntot / 2)%nat -> (2 * m + 1 < fuel)%nat ->
  exists dly' data' stat' sl,
    average_in_delay_bins fuel ntot kernel zkernel dly data stat = Ok (Some (dly', data', stat')) /\
    delay_slices fuel (Z.of_nat (2 * m + 1)) (Z.of_nat m) (Z.of_nat (length kernel)) (Z.of_nat (2 * h + 1)) = Ok (Some sl) /\
    length dly' = length sl /\ length data' = length sl /\ length stat' = length sl /\
    (forall j a b zb, nth_error sl j = Some ((Z.of_nat a, Z.of_nat b), zb) ->
       let k := if zb : bool then zkernel else kernel in
       let norm l := Rsum (map (fun p => (fst p * (snd p / Rsum k))%R) (combine l k)) in
       nth_error data' j = Some (norm (slice a b data)) /\ nth_error dly' j = Some (norm (slice a b dly)) /\
       nth_error stat' j = Some (sqrt (norm (map (fun v => (v ^ 2)%R) (slice a b stat))))) /\
    (kernel = rev kernel -> rev dly' = map Ropp dly') /\
    (Rsum kernel <> 0%R -> Rsum zkernel <> 0%R -> forall c, Forall (eq c) data -> Forall (eq c) data').
Proof.
  intros m h fuel ntot kernel zkernel dly data stat Ld Lda Ls Z0 Anti Lz Hh Sz Nk Lk Hf.
  set (p := ((m - h) / length kernel)%nat). assert (Hk : (0 < length kernel)%nat) by (destruct kernel; [congruence | cbn; lia]).
  assert (Hp : (p * length kernel <= m - h)%nat) by (unfold p; rewrite Nat.mul_comm; apply Nat.mul_div_le; lia).
  do 3 eexists. exists (bins m h (length kernel) p p). split; [apply average_spec with (m := m) (h := h); assumption|].
  split; [rewrite delay_slices_closed by lia; do 3 f_equal; unfold p; f_equal; lia|].
  split; [apply map_length|]. split; [apply map_length|]. split; [apply map_length|]. split; [|split].
  - intros j a b zb Hj k norm.
    destruct (bins_in m h (length kernel) p (2 * m + 1) p _ zb ltac:(lia) Hh ltac:(lia) (nth_error_In _ j Hj)) as (a' & e' & E & Ra & W). injection E as Ea Eb.
    assert (a = a') by lia. assert (b = e') by lia. subst a' e'. clear Ea Eb.
    assert (N : forall l, dotR l (ker kernel zkernel zb) = norm l).
    { intro l. replace (ker kernel zkernel zb) with (normalise k) by (unfold k; destruct zb; reflexivity). unfold norm, dotR, normalise. clear norm. clearbody k. generalize (Rsum k) as c. clear. intro c.
      revert k. induction l as [|x l IH]; intros [|y k]; cbn; try reflexivity. rewrite IH. reflexivity. }
    fold p. rewrite !nth_error_map, Hj. cbn [option_map]. unfold bin_of, rms_of. cbn [fst snd]. rewrite !py_slice_in by lia. rewrite !N. repeat split.
  - apply average_mirror with (fuel := fuel) (ntot := ntot) (data := data) (stat := stat); assumption.
  - intros K1 K2 c F. apply average_const with (fuel := fuel) (ntot := ntot) (dly := dly) (data := data) (stat := stat); assumption.
Qed.
Print Assumptions C23_average.
Example C23_average_applies : exists dly' data' stat', average_in_delay_bins 9 7 [1; 1]%R [1]%R [-3; -2; -1; 0; 1; 2; 3]%R [1; 2; 3; 4; 5; 6; 7]%R [0; 0; 2; 3; 2; 0; 0]%R = Ok (Some (dly', data', stat'))
  /\ length dly' = 3%nat /\ nth_error dly' 0 = Some (-3/2)%R /\ nth_error data' 0 = Some (5/2)%R.
Proof.
  destruct (C23_average 3 0 9 7 [1; 1]%R [1]%R [-3; -2; -1; 0; 1; 2; 3]%R [1; 2; 3; 4; 5; 6; 7]%R [0; 0; 2; 3; 2; 0; 0]%R)
    as (dly' & data' & stat' & sl & E & S & L1 & L2 & L3 & V & M & K); try reflexivity; try (cbn; lia); try discriminate.
  - intros i x H. do 7 (destruct i as [|i]; [injection H as <-; split; intro; first [lra | lia]|]). destruct i; discriminate.
  - cbn. repeat (f_equal; try lra).
  - exists dly', data', stat'. split; [exact E|]. injection S as S. subst sl. split; [exact L1|].
    destruct (V 0%nat 1%nat 3%nat false eq_refl) as [V1 [V2 _]]. rewrite V1, V2. cbn. split; f_equal; field.
Qed.
(** an asymmetric kernel is accepted and gives delays that are not symmetric *)
Theorem C54_broadcast_weights : forall d k : list R,
  (length d = length k -> wsum d k = Ok (Rsum (map (fun p => (fst p * snd p)%R) (combine d k)))) /\
  (forall y, wsum d [y] = Ok (Rsum d * y)%R) /\ (forall x, wsum [x] k = Ok (x * Rsum k)%R) /\
  (length d <> length k -> length d <> 1%nat -> length k <> 1%nat -> wsum d k = Err ValueError).
Proof.
  assert (A : forall y (l : list R), Rsum (map (fun x => (x * y)%R) l) = (Rsum l * y)%R). { intros y l. induction l as [|x l IH]; cbn in *; [ring|]. rewrite IH. ring. }
  assert (B : forall x (l : list R), Rsum (map (Rmult x) l) = (x * Rsum l)%R). { intros y l. induction l as [|x l IH]; cbn in *; [ring|]. rewrite IH. ring. }
  intros d k. split; [|split; [|split]].
  - intros H. unfold wsum, weighted. rewrite (proj2 (Nat.eqb_eq _ _) H). reflexivity.
  - intros y. unfold wsum, weighted. destruct d as [|x [|x' d]]; cbn [length Nat.eqb bind].
    + cbn. f_equal. ring.
    + cbn. f_equal. ring.
    + rewrite A. reflexivity.
  - intros x. unfold wsum, weighted. destruct k as [|y [|y' k]]; cbn [length Nat.eqb bind].
    + cbn. f_equal. ring.
    + cbn. f_equal. ring.
    + rewrite B. reflexivity.
  - intros H H1 H2. unfold wsum, weighted. rewrite (proj2 (Nat.eqb_neq _ _) H). destruct d as [|x [|x' d]]; destruct k as [|y [|y' k]]; cbn [length] in *; try reflexivity; exfalso; auto.
Qed.
Print Assumptions C54_broadcast_weights.
Theorem C54_asymmetric_kernel_refuted : exists dly' data' stat',
  average_in_delay_bins 9 5 [1; 3]%R [1]%R [-2; -1; 0; 1; 2]%R [0; 0; 0; 0; 0]%R [0; 0; 0; 0; 0]%R = Ok (Some (dly', data', stat')) /\ rev dly' <> map Ropp dly'.
Proof.
  destruct (C23_average 2 0 9 5 [1; 3]%R [1]%R [-2; -1; 0; 1; 2]%R [0; 0; 0; 0; 0]%R [0; 0; 0; 0; 0]%R)
    as (dly' & data' & stat' & sl & E & S & L1 & L2 & L3 & V & M & K); try reflexivity; try (cbn; lia); try discriminate.
  - intros i x H. do 5 (destruct i as [|i]; [injection H as <-; split; intro; first [lra | lia]|]). destruct i; discriminate.
  - cbn. repeat (f_equal; try lra).
  - exists dly', data', stat'. split; [exact E|]. injection S as S. subst sl.
    destruct (V 0%nat 0%nat 2%nat false eq_refl) as [_ [V1 _]]. destruct (V 2%nat 3%nat 5%nat false eq_refl) as [_ [V2 _]].
    cbn in L1. destruct dly' as [|x [|y [|z [|]]]]; try discriminate. cbn in V1, V2. injection V1 as V1. injection V2 as V2. intro C. cbn in C. injection C as C1 _ _.
    rewrite V1, V2 in C1. field_simplify in C1. lra.
Qed.
Print Assumptions C54_asymmetric_kernel_refuted.
