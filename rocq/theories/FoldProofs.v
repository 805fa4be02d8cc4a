From Coq Require Import QArith Qabs Sorted Permutation.
From Verif Require Import PyDict.
From Verif Require Import Prelude ListLemmas UvpModel UvpSpec UvpProofs SelectProofs SelectMain KeyProofs FoldModel.
Open Scope nat_scope.

Lemma nth_error_skipn {A} n (l : list A) i : nth_error (skipn n l) i = nth_error l (n + i).
Proof. revert l; induction n as [|n IH]; intros [|x l]; cbn; auto. destruct i; reflexivity. Qed.
Lemma nth_error_slice {A} a b (l : list A) i : nth_error (slice a b l) i =
  if Nat.ltb (a + i) b then nth_error l (a + i) else None.
Proof.
  unfold slice. rewrite nth_error_skipn.
  destruct (Nat.ltb_spec (a + i) b) as [H|H].
  - revert H. generalize (a + i) as k. revert l. induction b as [|b IH]; intros l k H; [lia|].
    destruct l as [|x l]; [destruct k; reflexivity|]. destruct k; cbn; [reflexivity | apply IH; lia].
  - apply nth_error_None. rewrite firstn_length. lia.
Qed.
Lemma slice_length {A} a b (l : list A) : length (slice a b l) = Nat.min b (length l) - a.
Proof. unfold slice. rewrite skipn_length, firstn_length. reflexivity. Qed.

Lemma nth_error_rev {A} (l : list A) i : i < length l -> nth_error (rev l) i = nth_error l (length l - 1 - i).
Proof.
  intros H. assert (L : length (rev l) = length l) by apply rev_length.
  destruct l as [|d l]; [cbn in H; lia|]. set (m := d :: l) in *.
  rewrite (nth_error_nth' (rev m) d) by lia. rewrite (nth_error_nth' m d) by lia.
  f_equal. rewrite rev_nth by exact H. f_equal. lia.
Qed.

Section S.
Context {X : Type}.

Lemma halves n : 2 * (n / 2) <= n /\ n < 2 * (n / 2) + 2 /\
  (first_paired n = 0 /\ n = 2 * (n / 2) + 1 \/ first_paired n = 1 /\ n = 2 * (n / 2)).
Proof.
  pose proof (Nat.div_mod n 2 ltac:(lia)) as D. pose proof (Nat.mod_upper_bound n 2 ltac:(lia)) as B.
  assert (E : Nat.even n = true <-> n mod 2 = 0).
  { rewrite Nat.even_spec. split; [intros [k ->]; rewrite Nat.mul_comm; apply Nat.mod_mul; lia|].
    intros H. exists (n / 2). lia. }
  unfold first_paired. destruct (Nat.even n).
  - destruct E as [E _]. specialize (E eq_refl). lia.
  - assert (n mod 2 <> 0) by (intros C; apply E in C; discriminate). lia.
Qed.

Lemma left_right_len (l : list X) n : length l = n ->
  length (rev (slice (first_paired n) (n / 2) l)) = n - n / 2 - 1 /\
  length (skipn (n / 2 + 1) l) = n - n / 2 - 1.
Proof.
  intros L. rewrite rev_length, slice_length, skipn_length, L. pose proof (halves n). lia.
Qed.

Lemma fold_spectrum_length f fill (l : list X) : length (fold_spectrum f fill l) = length l.
Proof.
  unfold fold_spectrum. set (n := length l). destruct (left_right_len l n eq_refl) as [L1 L2].
  rewrite !app_length, repeat_length, slice_length, map2_length, L2 by congruence.
  pose proof (halves n). fold n. lia.
Qed.

Lemma fold_stat_length f (l : list X) : length (fold_stat f l) = length l.
Proof.
  unfold fold_stat. set (n := length l). destruct (left_right_len l n eq_refl) as [L1 L2].
  rewrite !app_length, firstn_length, map2_length, L2 by congruence.
  pose proof (halves n). fold n. lia.
Qed.

Lemma left_nth (l : list X) n j : length l = n -> n / 2 + 1 + j < n ->
  nth_error (rev (slice (first_paired n) (n / 2) l)) j = nth_error l (n / 2 - 1 - j).
Proof.
  intros L Hj. pose proof (halves n). destruct (left_right_len l n L) as [L1 _]. rewrite rev_length in L1.
  rewrite nth_error_rev by lia. rewrite nth_error_slice, L1.
  replace (first_paired n + (n - n / 2 - 1 - 1 - j)) with (n / 2 - 1 - j) by lia.
  destruct (Nat.ltb_spec (n / 2 - 1 - j) (n / 2)); [reflexivity | lia].
Qed.

(** bin [n/2 + m] is the one at delay +m, bin [n/2 - m] the one at delay -m *)
Theorem fold_spectrum_bins f fill (l : list X) : let n := length l in let z := n / 2 in
  (forall i, i < z -> nth_error (fold_spectrum f fill l) i = Some fill) /\
  nth_error (fold_spectrum f fill l) z = nth_error l z /\
  (forall m, 0 < m -> z + m < n -> exists x y, nth_error l (z - m) = Some x /\ nth_error l (z + m) = Some y /\
       m <= z /\ nth_error (fold_spectrum f fill l) (z + m) = Some (f x y)).
Proof.
  intros n z. pose proof (halves n) as Hn. fold z in Hn. destruct (left_right_len l n eq_refl) as [L1 L2].
  fold z in L1, L2. unfold fold_spectrum. fold n. fold z. split; [|split].
  - intros i Hi. rewrite nth_error_app1 by (rewrite repeat_length; exact Hi). apply nth_error_repeat. exact Hi.
  - rewrite nth_error_app2 by (rewrite repeat_length; lia). rewrite repeat_length, Nat.sub_diag.
    destruct (Nat.eq_dec n 0) as [E|E].
    + assert (l = []) by (apply length_zero_iff_nil; exact E). subst l. reflexivity.
    + rewrite nth_error_app1 by (rewrite slice_length; fold n; lia). rewrite nth_error_slice.
      destruct (Nat.ltb_spec (z + 0) (z + 1)); [|lia]. f_equal. lia.
  - intros m Hm1 Hm2.
    assert (m <= z) by lia.
    destruct (nth_error l (z - m)) as [x|] eqn:Ex; [|apply nth_error_None in Ex; fold n in Ex; lia].
    destruct (nth_error l (z + m)) as [y|] eqn:Ey; [|apply nth_error_None in Ey; fold n in Ey; lia].
    exists x, y. split; [reflexivity|]. split; [reflexivity|]. split; [assumption|].
    rewrite nth_error_app2 by (rewrite repeat_length; lia). rewrite repeat_length.
    rewrite nth_error_app2 by (rewrite slice_length; fold n; lia).
    rewrite slice_length. fold n.
    replace (z + m - z - (Nat.min (z + 1) n - z)) with (m - 1) by lia.
    rewrite map2_nth. pose proof (left_nth l n (m - 1) eq_refl) as LN. fold z in LN. rewrite LN by lia.
    rewrite nth_error_skipn.
    replace (z - 1 - (m - 1)) with (z - m) by lia. replace (z + 1 + (m - 1)) with (z + m) by lia.
    rewrite Ex, Ey. reflexivity.
Qed.

Theorem fold_stat_bins f (l : list X) : let n := length l in let z := n / 2 in
  (forall i, i <= z -> nth_error (fold_stat f l) i = nth_error l i) /\
  (forall m, 0 < m -> z + m < n -> exists x y, nth_error l (z - m) = Some x /\ nth_error l (z + m) = Some y /\
       nth_error (fold_stat f l) (z + m) = Some (f x y)).
Proof.
  intros n z. pose proof (halves n) as Hn. fold z in Hn. destruct (left_right_len l n eq_refl) as [L1 L2].
  fold z in L1, L2. unfold fold_stat. fold n. fold z. split.
  - intros i Hi. destruct (Nat.lt_ge_cases i n) as [H|H].
    + rewrite nth_error_app1 by (rewrite firstn_length; fold n; lia).
      rewrite <- (firstn_skipn (z + 1) l) at 2. rewrite nth_error_app1 by (rewrite firstn_length; fold n; lia). reflexivity.
    + transitivity (@None X); [|symmetry]; apply nth_error_None; [|exact H].
      rewrite app_length, firstn_length, map2_length by congruence. fold n. lia.
  - intros m Hm1 Hm2.
    assert (m <= z) by lia.
    destruct (nth_error l (z - m)) as [x|] eqn:Ex; [|apply nth_error_None in Ex; fold n in Ex; lia].
    destruct (nth_error l (z + m)) as [y|] eqn:Ey; [|apply nth_error_None in Ey; fold n in Ey; lia].
    exists x, y. split; [reflexivity|]. split; [reflexivity|].
    rewrite nth_error_app2 by (rewrite firstn_length; fold n; lia). rewrite firstn_length. fold n.
    replace (z + m - Nat.min (z + 1) n) with (m - 1) by lia.
    rewrite map2_nth. pose proof (left_nth l n (m - 1) eq_refl) as LN. fold z in LN. rewrite LN by lia.
    rewrite nth_error_skipn.
    replace (z - 1 - (m - 1)) with (z - m) by lia. replace (z + 1 + (m - 1)) with (z + m) by lia.
    rewrite Ex, Ey. reflexivity.
Qed.

(** * dictionaries *)
Lemma update_all_spec g ss (d d' : list (nat * arr X)) : NoDup ss -> update_all g ss d = Ok d' ->
  (forall s, In s ss -> exists a, dget Nat.eq_dec d s = Some a /\ dget Nat.eq_dec d' s = Some (g a)) /\
  (forall s, ~ In s ss -> dget Nat.eq_dec d' s = dget Nat.eq_dec d s).
Proof.
  intros N; revert d; induction N as [|s ss Hs N IH]; intros d H; cbn in H.
  - injection H as <-. split; [intros s []|]. reflexivity.
  - apply bind_ok in H. destruct H as [a [Ha H]]. destruct (IH _ H) as [I1 I2].
    unfold lookup_arr, aget in Ha. destruct (dget Nat.eq_dec d s) as [a0|] eqn:E; [|discriminate]. injection Ha as ->.
    split.
    + intros s1 [<-|H1].
      * exists a. split; [exact E|]. rewrite I2 by exact Hs. rewrite dget_dset. destruct (Nat.eq_dec s s); congruence.
      * destruct (I1 s1 H1) as [a1 [E1 E2]]. exists a1. split; [|exact E2].
        rewrite dget_dset in E1. destruct (Nat.eq_dec s1 s); [subst; contradiction | exact E1].
    + intros s1 H1. rewrite I2 by (intros C; apply H1; right; exact C). rewrite dget_dset.
      destruct (Nat.eq_dec s1 s) as [->|]; [exfalso; apply H1; left; reflexivity | reflexivity].
Qed.

Lemma update_all_total g ss (d : list (nat * arr X)) : NoDup ss ->
  (forall s, In s ss -> dget Nat.eq_dec d s <> None) -> exists d', update_all g ss d = Ok d'.
Proof.
  intros N; revert d; induction N as [|s ss Hs N IH]; intros d H; cbn; [eauto|].
  unfold lookup_arr, aget. destruct (dget Nat.eq_dec d s) as [a|] eqn:E; [|exfalso; apply (H s); [left; reflexivity | exact E]].
  cbn [bind]. apply IH. intros s1 H1. rewrite dget_dset. destruct (Nat.eq_dec s1 s); [discriminate|].
  apply H. right; exact H1.
Qed.
End S.

(** * matrices *)
Section M.
Context {X : Type}.
Definition entry (M : list (list X)) (i j : nat) : option X :=
  match nth_error M i with Some r => nth_error r j | None => None end.

Definition dims (M : list (list X)) (nr nc : nat) : Prop := length M = nr /\ forall r, In r M -> length r = nc.

Lemma entry_some (M : list (list X)) nr nc i j : dims M nr nc -> i < nr -> j < nc -> exists x, entry M i j = Some x.
Proof.
  intros [L1 L2] Hi Hj. unfold entry. destruct (nth_error M i) as [r|] eqn:E; [|apply nth_error_None in E; lia].
  destruct (nth_error r j) as [x|] eqn:E'; [eauto|]. apply nth_error_None in E'.
  rewrite (L2 r) in E'; [lia | eapply nth_error_In; exact E].
Qed.

Lemma nth_map2 {A B C} (f : A -> B -> C) l1 l2 i a b :
  nth_error l1 i = Some a -> nth_error l2 i = Some b -> nth_error (map2 f l1 l2) i = Some (f a b).
Proof. intros H1 H2. rewrite map2_nth, H1, H2. reflexivity. Qed.

Lemma nth_combine (l1 l2 : list X) i a b :
  nth_error l1 i = Some a -> nth_error l2 i = Some b -> nth_error (combine l1 l2) i = Some (a, b).
Proof.
  revert l2 i; induction l1 as [|x l1 IH]; intros [|y l2] [|i]; cbn; try discriminate; intros H1 H2; [congruence | apply IH; assumption].
Qed.

(** row [m-1] of a reversed negative block is row [z-m]; of a positive block, row [z+m] *)
Lemma neg_rows {A} (l : list A) n m : length l = n -> 0 < m -> n / 2 + m < n ->
  nth_error (rev (slice (first_paired n) (n / 2) l)) (m - 1) = nth_error l (n / 2 - m).
Proof.
  intros L H1 H2. rewrite (@left_nth A l n (m - 1) L) by lia. f_equal. lia.
Qed.
Lemma pos_rows {A} (l : list A) n m : length l = n -> 0 < m -> n / 2 + m < n ->
  nth_error (slice (n / 2 + 1) n l) (m - 1) = nth_error l (n / 2 + m).
Proof.
  intros L H1 H2. rewrite nth_error_slice. destruct (Nat.ltb_spec (n / 2 + 1 + (m - 1)) n); [|lia]. f_equal. lia.
Qed.
Lemma map_rev {A B} (f : A -> B) l : map f (rev l) = rev (map f l).
Proof. apply map_rev. Qed.

Theorem fold_matrix_entries q zero nr nc (M : list (list X)) : dims M nr nc ->
  let zr := nr / 2 in let zc := nc / 2 in let F := fold_matrix q zero nr nc M in
  dims F nr nc /\
  (forall i j, i < nr -> j < nc -> i < zr \/ j < zc -> entry F i j = Some zero) /\
  (forall j, zc <= j -> j < nc -> entry F zr j = entry M zr j) /\
  (forall i, zr <= i -> i < nr -> entry F i zc = entry M i zc) /\
  (forall a b, 0 < a -> zr + a < nr -> 0 < b -> zc + b < nc -> exists w x y t,
     entry M (zr - a) (zc - b) = Some w /\ entry M (zr - a) (zc + b) = Some x /\
     entry M (zr + a) (zc - b) = Some y /\ entry M (zr + a) (zc + b) = Some t /\
     entry F (zr + a) (zc + b) = Some (q w x y t)).
Proof.
  intros D zr zc F. pose proof D as [L1 L2]. pose proof (halves nr) as Hr. pose proof (halves nc) as Hc.
  fold zr in Hr. fold zc in Hc.
  set (LL := map (@rev X) (rev (block (first_paired nr) zr (first_paired nc) zc M))).
  set (LR := rev (block (first_paired nr) zr (zc + 1) nc M)).
  set (RL := map (@rev X) (block (zr + 1) nr (first_paired nc) zc M)).
  set (RR := block (zr + 1) nr (zc + 1) nc M).
  set (QQ := map2 (map2 (fun ab cd => q (fst ab) (snd ab) (fst cd) (snd cd)))
                   (map2 (@combine X X) LL LR) (map2 (@combine X X) RL RR)).
  assert (EF : F = repeat (repeat zero nc) zr ++
     map (fun r => repeat zero zc ++ skipn zc r) (slice zr (zr + 1) M) ++
     map2 (fun r r' => repeat zero zc ++ slice zc (zc + 1) r ++ r') (skipn (zr + 1) M) QQ) by reflexivity.
  (* rows of the blocks *)
  assert (RowQ : forall a, 0 < a -> zr + a < nr -> exists rm rp rq,
     nth_error M (zr - a) = Some rm /\ nth_error M (zr + a) = Some rp /\
     nth_error QQ (a - 1) = Some rq /\ length rq = nc - zc - 1 /\
     forall b, 0 < b -> zc + b < nc -> exists w x y t,
       nth_error rm (zc - b) = Some w /\ nth_error rm (zc + b) = Some x /\
       nth_error rp (zc - b) = Some y /\ nth_error rp (zc + b) = Some t /\
       nth_error rq (b - 1) = Some (q w x y t)).
  { intros a Ha1 Ha2.
    destruct (nth_error M (zr - a)) as [rm|] eqn:Em; [|apply nth_error_None in Em; lia].
    destruct (nth_error M (zr + a)) as [rp|] eqn:Ep; [|apply nth_error_None in Ep; lia].
    assert (Lm : length rm = nc) by (apply L2; eapply nth_error_In; exact Em).
    assert (Lp : length rp = nc) by (apply L2; eapply nth_error_In; exact Ep).
    pose proof (neg_rows M nr a L1 Ha1 Ha2) as NR. pose proof (pos_rows M nr a L1 Ha1 Ha2) as PR. fold zr in NR, PR.
    assert (E1 : nth_error LL (a - 1) = Some (rev (slice (first_paired nc) zc rm))).
    { unfold LL, block. rewrite <- map_rev, !nth_error_map. rewrite NR, Em. reflexivity. }
    assert (E2 : nth_error LR (a - 1) = Some (slice (zc + 1) nc rm)).
    { unfold LR, block. rewrite <- map_rev, nth_error_map. rewrite NR, Em. reflexivity. }
    assert (E3 : nth_error RL (a - 1) = Some (rev (slice (first_paired nc) zc rp))).
    { unfold RL, block. rewrite !nth_error_map. rewrite PR, Ep. reflexivity. }
    assert (E4 : nth_error RR (a - 1) = Some (slice (zc + 1) nc rp)).
    { unfold RR, block. rewrite nth_error_map. rewrite PR, Ep. reflexivity. }
    exists rm, rp. eexists. split; [reflexivity|]. split; [reflexivity|].
    split; [unfold QQ; eapply nth_map2; eapply nth_map2; eassumption|].
    destruct (left_right_len rm nc Lm) as [A1 _]. destruct (left_right_len rp nc Lp) as [A2 _]. fold zc in A1, A2.
    split.
    { rewrite map2_length; rewrite !combine_length, ?A1, ?A2, ?slice_length, ?Lm, ?Lp; lia. }
    intros b Hb1 Hb2.
    destruct (nth_error rm (zc - b)) as [w|] eqn:Ew; [|apply nth_error_None in Ew; lia].
    destruct (nth_error rm (zc + b)) as [x|] eqn:Ex; [|apply nth_error_None in Ex; lia].
    destruct (nth_error rp (zc - b)) as [y|] eqn:Ey; [|apply nth_error_None in Ey; lia].
    destruct (nth_error rp (zc + b)) as [t|] eqn:Et; [|apply nth_error_None in Et; lia].
    exists w, x, y, t. split; [reflexivity|]. split; [reflexivity|]. split; [reflexivity|]. split; [reflexivity|].
    rewrite (nth_map2 _ _ _ _ (w, x) (y, t)); [reflexivity| |]; (apply nth_combine).
    all: fold zc.
    - unfold zc. rewrite neg_rows by assumption. exact Ew.
    - unfold zc. rewrite pos_rows by assumption. exact Ex.
    - unfold zc. rewrite neg_rows by assumption. exact Ey.
    - unfold zc. rewrite pos_rows by assumption. exact Et. }
  assert (LQ : length QQ = nr - zr - 1).
  { assert (B1 : length LL = nr - zr - 1).
    { unfold LL, block. rewrite map_length, rev_length, map_length, slice_length, L1. lia. }
    assert (B2 : length LR = nr - zr - 1).
    { unfold LR, block. rewrite rev_length, map_length, slice_length, L1. lia. }
    assert (B3 : length RL = nr - zr - 1).
    { unfold RL, block. rewrite !map_length, slice_length, L1. lia. }
    assert (B4 : length RR = nr - zr - 1).
    { unfold RR, block. rewrite map_length, slice_length, L1. lia. }
    unfold QQ. rewrite map2_length; rewrite !map2_length; congruence. }
  (* rows of F *)
  assert (R0 : forall i, i < zr -> nth_error F i = Some (repeat zero nc)).
  { intros i Hi. rewrite EF, nth_error_app1 by (rewrite repeat_length; exact Hi). apply nth_error_repeat; exact Hi. }
  assert (R1 : zr < nr -> exists r, nth_error M zr = Some r /\ nth_error F zr = Some (repeat zero zc ++ skipn zc r)).
  { intros Hz. destruct (nth_error M zr) as [r|] eqn:E; [|apply nth_error_None in E; lia]. exists r. split; [reflexivity|].
    rewrite EF, nth_error_app2, repeat_length, Nat.sub_diag by (rewrite repeat_length; lia).
    rewrite nth_error_app1 by (rewrite map_length, slice_length; lia).
    rewrite nth_error_map, nth_error_slice. destruct (Nat.ltb_spec (zr + 0) (zr + 1)); [|lia].
    rewrite Nat.add_0_r, E. reflexivity. }
  assert (R2 : forall a, 0 < a -> zr + a < nr -> exists r rq, nth_error M (zr + a) = Some r /\ nth_error QQ (a - 1) = Some rq /\
     nth_error F (zr + a) = Some (repeat zero zc ++ slice zc (zc + 1) r ++ rq)).
  { intros a Ha1 Ha2. destruct (RowQ a Ha1 Ha2) as [rm [rp [rq [E1 [E2 [E3 _]]]]]]. exists rp, rq.
    split; [exact E2|]. split; [exact E3|].
    rewrite EF, nth_error_app2, repeat_length by (rewrite repeat_length; lia).
    rewrite nth_error_app2 by (rewrite map_length, slice_length; lia).
    rewrite map_length, slice_length, L1.
    replace (zr + a - zr - (Nat.min (zr + 1) nr - zr)) with (a - 1) by lia.
    rewrite map2_nth, E3, nth_error_skipn. replace (zr + 1 + (a - 1)) with (zr + a) by lia. rewrite E2. reflexivity. }
  assert (LF : length F = nr).
  { rewrite EF, !app_length, repeat_length, map_length, slice_length, map2_length, LQ, L1; [lia|].
    rewrite skipn_length, L1, LQ. lia. }
  assert (Rows : forall i, i < nr -> i < zr \/ i = zr \/ exists a, 0 < a /\ i = zr + a).
  { intros i Hi. destruct (Nat.lt_trichotomy i zr) as [|[|]]; auto. right; right. exists (i - zr). lia. }
  split; [|split; [|split; [|split]]].
  - split; [exact LF|]. intros r Hr'. apply In_nth_error in Hr'. destruct Hr' as [i Hi].
    assert (Hin : i < nr) by (rewrite <- LF; apply nth_error_Some; congruence).
    destruct (Rows i Hin) as [H|[->|[a [Ha ->]]]].
    + rewrite (R0 i H) in Hi. injection Hi as <-. apply repeat_length.
    + destruct (R1 Hin) as [r0 [E0 E1]]. rewrite E1 in Hi. injection Hi as <-.
      rewrite app_length, repeat_length, skipn_length, (L2 r0) by (eapply nth_error_In; exact E0). lia.
    + destruct (RowQ a Ha Hin) as [rm [rp [rq [Q1 [Q2 [Q3 [Q4 _]]]]]]].
      destruct (R2 a Ha Hin) as [r0 [rq' [E0 [E1 E2]]]]. rewrite E2 in Hi. injection Hi as <-.
      rewrite Q3 in E1. injection E1 as <-.
      rewrite !app_length, repeat_length, slice_length, Q4, (L2 r0) by (eapply nth_error_In; exact E0). lia.
  - intros i j Hi Hj Hz. unfold entry. destruct (Rows i Hi) as [H|[->|[a [Ha ->]]]].
    + rewrite (R0 i H). apply nth_error_repeat; exact Hj.
    + destruct (R1 Hi) as [r0 [E0 E1]]. rewrite E1. assert (j < zc) by lia.
      rewrite nth_error_app1 by (rewrite repeat_length; assumption). apply nth_error_repeat; assumption.
    + destruct (R2 a Ha Hi) as [r0 [rq' [E0 [E1 E2]]]]. rewrite E2. assert (j < zc) by lia.
      rewrite nth_error_app1 by (rewrite repeat_length; assumption). apply nth_error_repeat; assumption.
  - intros j Hj1 Hj2. unfold entry. destruct (Nat.lt_ge_cases zr nr) as [H|H].
    + destruct (R1 H) as [r0 [E0 E1]]. rewrite E1, E0.
      rewrite nth_error_app2, repeat_length, nth_error_skipn by (rewrite repeat_length; lia). f_equal. lia.
    + assert (nth_error F zr = None) by (apply nth_error_None; lia).
      assert (nth_error M zr = None) by (apply nth_error_None; lia). rewrite H0, H1. reflexivity.
  - intros i Hi1 Hi2. unfold entry. destruct (Rows i Hi2) as [H|[->|[a [Ha ->]]]]; [lia| |].
    + destruct (R1 Hi2) as [r0 [E0 E1]]. rewrite E1, E0.
      rewrite nth_error_app2, repeat_length, nth_error_skipn by (rewrite repeat_length; lia). f_equal. lia.
    + destruct (RowQ a Ha Hi2) as [rm [rp [rq [Q1 [Q2 [Q3 [Q4 _]]]]]]].
      destruct (R2 a Ha Hi2) as [r0 [rq' [E0 [E1 E2]]]]. rewrite E2, E0. rewrite Q3 in E1. injection E1 as <-.
      rewrite nth_error_app2, repeat_length, Nat.sub_diag by (rewrite repeat_length; lia).
      assert (Lr0 : length r0 = nc) by (apply L2; eapply nth_error_In; exact E0).
      destruct (Nat.lt_ge_cases zc nc) as [H|H].
      * rewrite nth_error_app1 by (rewrite slice_length; lia). rewrite nth_error_slice.
        destruct (Nat.ltb_spec (zc + 0) (zc + 1)); [|lia]. f_equal. lia.
      * transitivity (@None X); [|symmetry]; apply nth_error_None; [|lia].
        rewrite app_length, slice_length, Q4. lia.
  - intros a b Ha1 Ha2 Hb1 Hb2. destruct (RowQ a Ha1 Ha2) as [rm [rp [rq [Q1 [Q2 [Q3 [Q4 Q5]]]]]]].
    destruct (R2 a Ha1 Ha2) as [r0 [rq' [E0 [E1 E2]]]]. rewrite Q3 in E1. injection E1 as <-.
    rewrite Q2 in E0. injection E0 as <-.
    destruct (Q5 b Hb1 Hb2) as [w [x [y [t [W1 [W2 [W3 [W4 W5]]]]]]]]. exists w, x, y, t.
    unfold entry. rewrite Q1, Q2, E2. repeat (split; [assumption|]).
    assert (Lrp : length rp = nc) by (apply L2; eapply nth_error_In; exact Q2).
    rewrite nth_error_app2, repeat_length by (rewrite repeat_length; lia).
    rewrite nth_error_app2 by (rewrite slice_length; lia). rewrite slice_length, Lrp.
    replace (zc + b - zc - (Nat.min (zc + 1) nc - zc)) with (b - 1) by lia. exact W5.
Qed.
End M.
