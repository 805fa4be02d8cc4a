(** Printing a PSpecData object (C384). *)
From Coq Require Import Ascii String ZArith.
From Verif Require Import Prelude PyStr SummaryModel.
Open Scope Z_scope.

(** ** Specification *)
(** a label without quotes *)
Definition plain (l : option pystr) : Prop := match l with None => True | Some l => ~ In "'"%char l end.

(** ** Lemmas *)
Lemma until (P : ascii -> Prop) l c s : forall l' s', (forall x, In x l -> P x) -> (forall x, In x l' -> P x) -> ~ P c ->
  l ++ c :: s = l' ++ c :: s' -> l = l' /\ s = s'.
Proof.
  induction l as [|x l IH]; intros [|x' l'] s' H H' N; cbn.
  - intros [= ->]. auto.
  - intros [= <- _]. exfalso. apply N, H'. now left.
  - intros [= -> _]. exfalso. apply N, H. now left.
  - intros [= <- E]. destruct (IH l' s') as [-> ->]; auto; intros y Hy; [apply H | apply H']; now right.
Qed.
Definition numchar (c : ascii) : Prop := c = ch_minus \/ exists d, char_digit c = Some d.
Lemma str_Z_chars z c : In c (str_Z z) -> numchar c.
Proof.
  assert (D : forall n, 0 <= n -> In c (map digit_char (digits n)) -> numchar c).
  { intros n Hn H. apply in_map_iff in H. destruct H as (d & <- & Hd). destruct (digits_spec n Hn) as (_ & F & _). right. exists d. apply char_digit_digit.
    rewrite Forall_forall in F. now apply F. }
  unfold str_Z. destruct (z <? 0) eqn:E; [intros [<-|H]; [now left|] | intro H]; eapply D; eauto; lia.
Qed.
Lemma number c z z' s s' : char_digit c = None -> c <> ch_minus -> str_Z z ++ c :: s = str_Z z' ++ c :: s' -> z = z' /\ s = s'.
Proof.
  intros D M E. assert (N : ~ numchar c) by (intros [->|(d & Hd)]; congruence).
  destruct (until numchar _ _ _ _ _ (str_Z_chars z) (str_Z_chars z') N E) as [E1 E2].
  split; [|exact E2]. pose proof (int_str z) as A. rewrite E1, int_str in A. congruence.
Qed.
Ltac num H E := apply number in H; [destruct H as [E H] | reflexivity | discriminate].
Lemma line_end_inj i d d' s s' : line_end i d ++ s = line_end i d' ++ s' ->
  d_bls d = d_bls d' /\ d_freqs d = d_freqs d' /\ d_times d = d_times d' /\ d_pols d = d_pols d' /\ s = s'.
Proof.
  unfold line_end. rewrite <- !app_assoc. cbn [s_ list_ascii_of_string app]. intro H. apply app_inv_head in H. injection H as H.
  num H E1. injection H as H. num H E2. injection H as H. num H E3. injection H as H. num H E4. injection H as H. auto.
Qed.
Lemma line_inj i d d' s s' : plain (d_label d) -> plain (d_label d') -> line i d ++ s = line i d' ++ s' -> d = d' /\ s = s'.
Proof.
  intros P P'. destruct d as [l b f t p], d' as [l' b' f' t' p']. unfold line, plain in *. cbn [d_label] in *.
  assert (Q : forall e e', d_label e = d_label e' -> d_bls e = d_bls e' /\ d_freqs e = d_freqs e' /\ d_times e = d_times e' /\ d_pols e = d_pols e' /\ s = s' -> e = e' /\ s = s').
  { intros [? ? ? ? ?] [? ? ? ? ?]; cbn. intros -> (-> & -> & -> & -> & ->). auto. }
  destruct l as [l|], l' as [l'|]; rewrite <- !app_assoc; cbn [s_ list_ascii_of_string app]; intro H; injection H as H; try discriminate.
  - apply (until (fun c => c <> "'"%char)) in H; [| congruence | congruence | congruence]. destruct H as [-> H]. injection H as H.
    apply Q; [reflexivity | now apply line_end_inj in H].
  - apply Q; [reflexivity | now apply line_end_inj in H].
Qed.
Lemma lines_inj ds : forall i ds', List.length ds = List.length ds' -> Forall (fun d => plain (d_label d)) ds -> Forall (fun d => plain (d_label d)) ds' ->
  lines_from i ds = lines_from i ds' -> ds = ds'.
Proof.
  induction ds as [|d ds IH]; intros i [|d' ds']; cbn [List.length]; try discriminate; [reflexivity|]. intros L F F' H.
  inversion F; subst. inversion F'; subst. cbn [lines_from] in H. apply line_inj in H; auto. destruct H as [-> H]. f_equal. eapply IH; eauto.
Qed.

(** ** C384: printing tells PSpecData objects apart *)
(** If two objects print the same and no label has a quote, they have the same datasets: as many, in the same order, with the same labels and the same
    numbers of baselines, channels, times and polarizations. *)
Theorem summary_inj_partial : forall ds ds', Forall (fun d => plain (d_label d)) ds -> Forall (fun d => plain (d_label d)) ds' -> summary ds = summary ds' -> ds = ds'.
Proof.
  intros ds ds' F F'. unfold summary. cbn [s_ list_ascii_of_string app]. intro H. injection H as H. num H E. injection H as H.
  eapply lines_inj; eauto. lia.
Qed.
(** Whatever the labels are, the number of datasets can be read off. *)
Theorem summary_count : forall ds ds', summary ds = summary ds' -> List.length ds = List.length ds'.
Proof. intros ds ds'. unfold summary. cbn [s_ list_ascii_of_string app]. intro H. injection H as H. num H E. lia. Qed.
(** With quotes in labels, different ones can print the same. *)
Theorem summary_refuted : exists ds ds', summary ds = summary ds' /\ List.length ds = 2%nat /\ NoDup (map d_label ds) /\ NoDup (map d_label ds') /\ ds <> ds'.
Proof.
  pose (nl := ["010"%char]). pose (tail := s_ "' (0): 1 bls (freqs=1, times=1, pols=1)" ++ nl ++ s_ "  dset '").
  pose (d := fun l => mkdsum (Some l) 1 1 1 1).
  exists [d (s_ "a"); d (s_ "b" ++ tail ++ s_ "c")], [d (s_ "a" ++ tail ++ s_ "b"); d (s_ "c")].
  split; [vm_compute; reflexivity|]. split; [reflexivity|]. split; [|split; [|discriminate]]; repeat constructor; cbn; intuition discriminate.
Qed.

(** what is printed *)
Theorem summary_text :
  summary [] = s_ "PSpecData object" ++ ["010"%char] ++ s_ "  0 datasets" /\
  summary [mkdsum (Some (s_ "red")) 28 64 10 2; mkdsum None 3 4 5 1] =
    s_ "PSpecData object" ++ ["010"%char] ++ s_ "  2 datasets  dset 'red' (0): 28 bls (freqs=64, times=10, pols=2)" ++ ["010"%char] ++
    s_ "  dset (1): 3 bls (freqs=4, times=5, pols=1)" ++ ["010"%char].
Proof. split; vm_compute; reflexivity. Qed.
(** one line for each dataset, in order *)
Theorem summary_lines : forall ds ds' d, summary (ds ++ d :: ds') =
  s_ "PSpecData object" ++ ["010"%char] ++ s_ "  " ++ str_Z (Z.of_nat (List.length (ds ++ d :: ds'))) ++ s_ " datasets" ++
  lines_from 0 ds ++ line (List.length ds) d ++ lines_from (S (List.length ds)) ds'.
Proof.
  intros ds ds' d. unfold summary. do 5 f_equal.
  assert (G : forall l i l', lines_from i (l ++ l') = lines_from i l ++ lines_from (i + List.length l) l').
  { induction l as [|x l IH]; intros i l'; cbn; [now rewrite Nat.add_0_r|]. rewrite IH, <- app_assoc. do 3 f_equal. lia. }
  rewrite G. reflexivity.
Qed.
