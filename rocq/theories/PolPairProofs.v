From Coq Require Import Ascii.
From Verif Require Import Prelude PyStr PolPairModel.
Open Scope Z_scope.

Definition pols : list Z := [-8; -7; -6; -5; -4; -3; -2; -1; 0; 1; 2; 3; 4].

Lemma in_pols p : -8 <= p <= 4 -> In p pols.
Proof. intros H. unfold pols. simpl. lia. Qed.

Definition ok_pair (p : Z * Z) : bool :=
  match polpair_int2tuple (polpair_tuple2int p) with
  | Ok q => (fst q =? fst p) && (snd q =? snd p)
  | Err _ => false
  end.

Lemma round_trip_sweep : forallb (fun p => forallb (fun q => ok_pair (p, q)) pols) pols = true.
Proof. vm_compute. reflexivity. Qed.

Lemma polpair_round_trip_lem p1 p2 : -8 <= p1 <= 4 -> -8 <= p2 <= 4 ->
  polpair_int2tuple (polpair_tuple2int (p1, p2)) = Ok (p1, p2).
Proof.
  intros H1 H2. pose proof round_trip_sweep as S.
  rewrite forallb_forall in S. specialize (S p1 (in_pols _ H1)).
  rewrite forallb_forall in S. specialize (S p2 (in_pols _ H2)).
  unfold ok_pair in S. destruct (polpair_int2tuple _) as [[q1 q2]|]; [|discriminate].
  cbn [fst snd] in S. apply andb_true_iff in S. destruct S as [S1 S2].
  apply Z.eqb_eq in S1, S2. congruence.
Qed.

(** stripping a string without blanks changes nothing *)
Lemma lstrip_nospace s : Forall (fun c => is_space c = false) s -> lstrip s = s.
Proof. intros F; destruct F as [|c s Hc F]; [reflexivity|]. cbn. rewrite Hc. reflexivity. Qed.

Lemma strip_nospace s : Forall (fun c => is_space c = false) s -> strip s = s.
Proof.
  intros F. unfold strip. rewrite (lstrip_nospace s) by exact F.
  rewrite (lstrip_nospace (rev s)) by (apply Forall_rev; exact F). apply rev_involutive.
Qed.

Lemma digit_not_space d : 0 <= d <= 9 -> is_space (digit_char d) = false.
Proof.
  intros H. assert (D : d = 0 \/ d = 1 \/ d = 2 \/ d = 3 \/ d = 4 \/ d = 5 \/ d = 6 \/ d = 7
    \/ d = 8 \/ d = 9) by lia.
  repeat (destruct D as [-> | D]; [reflexivity|]). subst d; reflexivity.
Qed.

Lemma str_nospace z : Forall (fun c => is_space c = false) (str_Z z).
Proof.
  assert (G : forall n, 0 <= n -> Forall (fun c => is_space c = false) (map digit_char (digits n))).
  { intros n Hn. destruct (digits_spec n Hn) as [_ [F _]].
    induction F as [|d l Hd F IH]; cbn; constructor; [apply digit_not_space; exact Hd | exact IH]. }
  unfold str_Z. destruct (z <? 0) eqn:E.
  - apply Z.ltb_lt in E. constructor; [reflexivity | apply G; lia].
  - apply Z.ltb_ge in E. apply G; lia.
Qed.

Lemma Forall_firstn {A} (P : A -> Prop) n l : Forall P l -> Forall P (firstn n l).
Proof. intros F. rewrite <- (firstn_skipn n l) in F. apply Forall_app in F. tauto. Qed.
Lemma Forall_skipn {A} (P : A -> Prop) n l : Forall P l -> Forall P (skipn n l).
Proof. intros F. rewrite <- (firstn_skipn n l) in F. apply Forall_app in F. tauto. Qed.

Lemma py_int_nospace s z : Forall (fun c => is_space c = false) s ->
  py_int s = Ok z -> int_strict s = Some z.
Proof.
  intros F H. unfold py_int in H. rewrite strip_nospace in H by exact F.
  destruct (int_strict s); congruence.
Qed.

(** a decoded integer is exactly the encoding of the decoded pair *)
Lemma polpair_decode_sound_lem n p1 p2 : polpair_int2tuple n = Ok (p1, p2) ->
  -8 <= p1 <= 4 /\ -8 <= p2 <= 4 /\ n = polpair_tuple2int (p1, p2).
Proof.
  unfold polpair_int2tuple. intros H.
  destruct (py_int (drop_end 2 (str_Z n))) as [i1|] eqn:E1; [|discriminate].
  destruct (py_int (take_end 2 (str_Z n))) as [i2|] eqn:E2; [|discriminate].
  cbn [bind] in H.
  destruct (((i1 - 20 <? -8) || (i1 - 20 >? 4)) || ((i2 - 20 <? -8) || (i2 - 20 >? 4))) eqn:E;
    [discriminate|].
  injection H as <- <-.
  apply orb_false_iff in E. destruct E as [Ea Eb].
  apply orb_false_iff in Ea, Eb. destruct Ea as [Ea1 Ea2], Eb as [Eb1 Eb2].
  rewrite Z.gtb_ltb in Ea2, Eb2. apply Z.ltb_ge in Ea1, Ea2, Eb1, Eb2.
  split; [lia|]. split; [lia|]. unfold polpair_tuple2int; cbn [fst snd].
  pose proof (str_nospace n) as F.
  apply py_int_nospace in E1; [|apply Forall_firstn; exact F].
  apply py_int_nospace in E2; [|apply Forall_skipn; exact F].
  pose proof (int_str n) as I.
  rewrite <- (drop_take_end 2 (str_Z n)) in I.
  assert (L : length (drop_end 2 (str_Z n)) <> 0%nat).
  { intros C. apply length_zero_iff_nil in C. rewrite C in E1. discriminate. }
  assert (L2 : length (take_end 2 (str_Z n)) = 2%nat).
  { unfold take_end, drop_end in *. rewrite firstn_length in L. rewrite skipn_length. lia. }
  set (u := drop_end 2 (str_Z n)) in *. set (v := take_end 2 (str_Z n)) in *.
  destruct u as [|c u']; [contradiction|].
  cbn [int_strict app] in E1, I.
  assert (Pv : parse_digits 0 v = Some i2 \/ i2 <= 0).
  { destruct v as [|c2 v']; [discriminate|]. cbn [int_strict] in E2.
    destruct (Ascii.eqb c2 ch_minus).
    - right. destruct (int_nat v') as [x|] eqn:Ex; [|discriminate]. cbn in E2. injection E2 as <-.
      enough (0 <= x) by lia.
      assert (Pos : forall s a b, 0 <= a -> parse_digits a s = Some b -> 0 <= b).
      { clear. induction s as [|c s IH]; intros a b Ha Hb; cbn in Hb; [injection Hb as <-; exact Ha|].
        destruct (char_digit c) as [d|] eqn:D; [|discriminate].
        apply char_digit_range in D. apply (IH (a * 10 + d) b); [lia | exact Hb]. }
      unfold int_nat in Ex. destruct v'; [discriminate|]. exact (Pos _ 0 x ltac:(lia) Ex).
    - left. exact E2. }
  destruct Pv as [Pv | Pv]; [|lia].
  destruct (Ascii.eqb c ch_minus).
  - (* a negative first part is out of range *)
    destruct (int_nat u') as [x|] eqn:Ex; [|discriminate]. cbn in E1. injection E1 as <-.
    assert (Pos : forall s a b, 0 <= a -> parse_digits a s = Some b -> 0 <= b).
    { clear. induction s as [|c s IH]; intros a b Ha Hb; cbn in Hb; [injection Hb as <-; exact Ha|].
      destruct (char_digit c) as [d|] eqn:D; [|discriminate].
      apply char_digit_range in D. apply (IH (a * 10 + d) b); [lia | exact Hb]. }
    unfold int_nat in Ex. destruct u'; [discriminate|].
    assert (0 <= x) by (exact (Pos _ 0 x ltac:(lia) Ex)). lia.
  - change (int_nat (c :: u')) with (parse_digits 0 (c :: u')) in E1.
    change (int_nat (c :: u' ++ v)) with (parse_digits 0 ((c :: u') ++ v)) in I.
    rewrite parse_digits_app, E1 in I.
    pose proof (parse_digits_acc _ _ _ I) as A. rewrite Pv, L2 in A.
    injection A as A. change (10 ^ Z.of_nat 2) with 100 in A. lia.
Qed.

Lemma polpair_error_class_lem n : exists r, polpair_int2tuple n = r /\
  (r = Err ValueError \/ exists p, r = Ok p).
Proof.
  eexists; split; [reflexivity|]. unfold polpair_int2tuple, py_int.
  destruct (int_strict (strip (drop_end 2 (str_Z n)))); [|left; reflexivity]. cbn [bind].
  destruct (int_strict (strip (take_end 2 (str_Z n)))); [|left; reflexivity]. cbn [bind].
  destruct (_ || _); [left; reflexivity | right; eexists; reflexivity].
Qed.

Lemma polpair_decode_iff_lem n :
  (exists p1 p2, -8 <= p1 <= 4 /\ -8 <= p2 <= 4 /\ n = (20 + p1) * 100 + (20 + p2) /\
                 polpair_int2tuple n = Ok (p1, p2)) \/
  ((forall p1 p2, -8 <= p1 <= 4 -> -8 <= p2 <= 4 -> n <> (20 + p1) * 100 + (20 + p2)) /\
   polpair_int2tuple n = Err ValueError).
Proof.
  destruct (polpair_error_class_lem n) as [r [Hr [-> | [[p1 p2] ->]]]].
  - right. split; [|exact Hr]. intros p1 p2 H1 H2 E.
    pose proof (polpair_round_trip_lem p1 p2 H1 H2) as R.
    unfold polpair_tuple2int in R; cbn [fst snd] in R. rewrite <- E, Hr in R. discriminate.
  - left. exists p1, p2. destruct (polpair_decode_sound_lem _ _ _ Hr) as [H1 [H2 H3]]. auto.
Qed.

Lemma polpair_injective_lem p1 p2 q1 q2 :
  -8 <= p1 <= 4 -> -8 <= p2 <= 4 -> -8 <= q1 <= 4 -> -8 <= q2 <= 4 ->
  polpair_tuple2int (p1, p2) = polpair_tuple2int (q1, q2) -> (p1, p2) = (q1, q2).
Proof. unfold polpair_tuple2int; cbn [fst snd]; intros. f_equal; lia. Qed.

Lemma polpair_list_round_trip_lem l :
  (forall p, In p l -> -8 <= fst p <= 4 /\ -8 <= snd p <= 4) ->
  polpair_int2tuple_list (polpair_tuple2int_list l) = Ok l.
Proof.
  unfold polpair_int2tuple_list, polpair_tuple2int_list.
  induction l as [|[p1 p2] l IH]; intros H; [reflexivity|].
  cbn [map map_res]. destruct (H (p1, p2) (or_introl eq_refl)) as [H1 H2]. cbn in H1, H2.
  rewrite polpair_round_trip_lem by assumption. cbn [bind].
  rewrite IH by (intros p Hp; apply H; right; exact Hp). reflexivity.
Qed.
