(** C44, C73: command-line list syntax and switches. *)
From Coq Require Import Ascii String.
From Verif Require Import Prelude ListLemmas PyStr PolPairModel PolPairProofs CliModel.
Open Scope Z_scope.

(** ** specification: how a user writes a list of tuples *)
Definition write (fsep tsep : pystr) (l : list (list pystr)) : pystr := join tsep (map (join fsep) l).
Definition tilde_text (l : list (list Z)) : pystr := write [ch_tilde] [ch_comma] (map (map str_Z) l).
Definition blank_text (l : list (list Z)) : pystr := write [ch_blank] [ch_comma; ch_blank] (map (map str_Z) l).

Definition lacks (c : ascii) (s : pystr) : Prop := Forall (fun x => Ascii.eqb x c = false) s.
Definition noblank (s : pystr) : Prop := Forall (fun c => is_space c = false) s.

Lemma split_app c f s : lacks c f -> split c (f ++ c :: s) = f :: split c s.
Proof.
  induction 1 as [| x f Hx F IH]; cbn.
  - rewrite (proj2 (Ascii.eqb_eq c c) eq_refl). reflexivity.
  - rewrite Hx, IH. reflexivity.
Qed.
Lemma split_none c f : lacks c f -> split c f = [f].
Proof. induction 1 as [| x f Hx F IH]; cbn; [reflexivity |]. rewrite Hx, IH. reflexivity. Qed.
Lemma join_cons sep x y l : join sep (x :: y :: l) = x ++ sep ++ join sep (y :: l). Proof. reflexivity. Qed.
Lemma split_join c l : l <> [] -> Forall (lacks c) l -> split c (join [c] l) = l.
Proof.
  induction l as [| x l IH]; [congruence |]. intros _ H. inversion H as [| ? ? Hx Hl]; subst. destruct l as [| y l].
  - apply split_none. assumption.
  - rewrite join_cons. cbn [app]. rewrite split_app by assumption. f_equal. apply IH; [discriminate | assumption].
Qed.
(** joining with ", " and splitting at commas leaves a blank before all but the first *)
Lemma split_join2 c b l : Ascii.eqb b c = false -> Forall (lacks c) l -> forall x, lacks c x ->
  split c (join [c; b] (x :: l)) = x :: map (cons b) l.
Proof.
  intros Hb H. induction H as [| y l Hy Hl IH]; intros x Hx.
  - apply split_none. assumption.
  - rewrite join_cons. cbn [app]. rewrite split_app by assumption. f_equal.
    specialize (IH y Hy). cbn [split map]. 
    destruct (join [c; b] (y :: l)) as [| z t] eqn:E.
    + cbn. rewrite Hb. cbn in IH. injection IH as E1 E2. rewrite <- E1, <- E2. reflexivity.
    + rewrite Hb. rewrite IH. reflexivity.
Qed.

Lemma ws_cons c d s f fs : is_space c = false -> is_space d = false -> ws_split (d :: s) = f :: fs -> ws_split (c :: d :: s) = (c :: f) :: fs.
Proof. intros H1 H2 E. change (ws_split (c :: d :: s)) with (if is_space c then ws_split (d :: s) else if is_space d then [c] :: ws_split (d :: s)
  else match ws_split (d :: s) with f :: fs => (c :: f) :: fs | [] => [[c]] end). rewrite H1, H2, E. reflexivity. Qed.
Lemma ws_app f s : noblank f -> f <> [] -> ws_split (f ++ ch_blank :: s) = f :: ws_split s.
Proof.
  intros H. induction H as [| x f Hx F IH]; [congruence |]. intros _. destruct f as [| y f].
  - cbn. rewrite Hx. reflexivity.
  - inversion F; subst. apply ws_cons; auto. apply IH. discriminate.
Qed.
Lemma ws_one f : noblank f -> f <> [] -> ws_split f = [f].
Proof.
  intros H. induction H as [| x f Hx F IH]; [congruence |]. intros _. destruct f as [| y f].
  - cbn. rewrite Hx. reflexivity.
  - inversion F; subst. apply ws_cons; auto. apply IH. discriminate.
Qed.
Lemma ws_join l : Forall (fun f => noblank f /\ f <> []) l -> ws_split (join [ch_blank] l) = l.
Proof.
  induction 1 as [| x l [Hx Hx'] Hl IH]; [reflexivity |]. destruct l as [| y l].
  - apply ws_one; assumption.
  - rewrite join_cons. cbn [app]. rewrite ws_app by assumption. f_equal. exact IH.
Qed.
Lemma ws_lead s : ws_split (ch_blank :: s) = ws_split s. Proof. reflexivity. Qed.

(** the characters of a number *)
Definition num_char (c : ascii) : Prop := is_space c = false /\ Ascii.eqb c ch_tilde = false /\ Ascii.eqb c ch_comma = false.
Lemma digit_num d : 0 <= d <= 9 -> num_char (digit_char d).
Proof.
  intros H. assert (D : d = 0 \/ d = 1 \/ d = 2 \/ d = 3 \/ d = 4 \/ d = 5 \/ d = 6 \/ d = 7 \/ d = 8 \/ d = 9) by lia.
  repeat (destruct D as [-> | D]; [repeat split; reflexivity |]). subst d; repeat split; reflexivity.
Qed.
Lemma str_num z : Forall num_char (str_Z z) /\ str_Z z <> [].
Proof.
  assert (G : forall n, 0 <= n -> Forall num_char (map digit_char (digits n)) /\ map digit_char (digits n) <> []).
  { intros n Hn. destruct (digits_spec n Hn) as [_ [F N]]. split.
    - apply Forall_map. eapply Forall_impl; [| exact F]. intros; apply digit_num; assumption.
    - destruct (digits n); [congruence | discriminate]. }
  unfold str_Z. destruct (z <? 0) eqn:E.
  - apply Z.ltb_lt in E. destruct (G (- z) ltac:(lia)) as [F _]. split; [constructor; [repeat split; reflexivity | exact F] | discriminate].
  - apply Z.ltb_ge in E. apply G. assumption.
Qed.
Lemma py_int_str z : py_int (str_Z z) = Ok z.
Proof.
  unfold py_int. rewrite strip_nospace, int_str; [reflexivity |]. eapply Forall_impl; [| apply str_num]. intros c Hc; apply Hc.
Qed.
Lemma map_res_map {A B} (f : A -> result B) (g : B -> A) (l : list B) : (forall x, f (g x) = Ok x) -> map_res f (map g l) = Ok l.
Proof. intros H. induction l; cbn; [reflexivity |]. rewrite H, IHl. reflexivity. Qed.

Lemma lacks_join c sep l : lacks c sep -> Forall (lacks c) l -> lacks c (join sep l).
Proof.
  intros Hs. induction 1 as [| x l Hx Hl IH]; [constructor |]. destruct l as [| y l]; [exact Hx |].
  rewrite join_cons. apply Forall_app. split; [exact Hx |]. apply Forall_app. split; [exact Hs | exact IH].
Qed.
Lemma lacks_exists c s : lacks c s -> existsb (Ascii.eqb c) s = false.
Proof. induction 1 as [| x s Hx F IH]; [reflexivity |]. cbn. rewrite Ascii.eqb_sym, Hx. exact IH. Qed.

(** general statement for texts without separators and blanks *)
Definition word (s : pystr) : Prop := Forall num_char s /\ s <> [].
Lemma word_lacks c s : c = ch_tilde \/ c = ch_comma -> word s -> lacks c s.
Proof. intros [-> | ->] [H _]; (eapply Forall_impl; [| exact H]); intros x (_ & A & B); assumption. Qed.
Lemma word_noblank s : word s -> noblank s /\ s <> [].
Proof. intros [H N]. split; [eapply Forall_impl; [| exact H]; intros x Hx; apply Hx | exact N]. Qed.

Lemma fields_blank l : l <> [] -> Forall (Forall word) l -> fields (write [ch_blank] [ch_comma; ch_blank] l) = l.
Proof.
  intros Hne H. unfold fields, write.
  assert (LK : forall c, c = ch_tilde \/ c = ch_comma -> Forall (lacks c) (map (join [ch_blank]) l)).
  { intros c Hc. apply Forall_map. eapply Forall_impl; [| exact H]. intros t Ht. apply lacks_join.
    - constructor; [| constructor]. destruct Hc as [-> | ->]; reflexivity.
    - eapply Forall_impl; [| exact Ht]. intros s. apply word_lacks. assumption. }
  rewrite lacks_exists by (apply lacks_join; [repeat constructor | apply LK; left; reflexivity]).
  destruct l as [| x l]; [congruence |]. pose proof (LK ch_comma (or_intror eq_refl)) as LK2. cbn [map] in *. inversion LK2; subst.
  rewrite split_join2 by (auto; reflexivity). cbn [map]. inversion H as [| ? ? Hx Hl]; subst.
  assert (W : forall t, Forall word t -> ws_split (join [ch_blank] t) = t).
  { intros t Ht. apply ws_join. eapply Forall_impl; [| exact Ht]. intros s. apply word_noblank. }
  rewrite W by assumption. f_equal. clear -Hl W. induction Hl as [| t l Ht Hl IH]; [reflexivity |]. cbn [map].
  rewrite ws_lead, W by assumption. f_equal. exact IH.
Qed.
Lemma fields_tilde l : l <> [] -> Forall (fun t => t <> [] /\ Forall word t) l -> fields (write [ch_tilde] [ch_comma] l) = l.
Proof.
  intros Hne H. unfold fields, write.
  assert (LK : Forall (lacks ch_comma) (map (join [ch_tilde]) l)).
  { apply Forall_map. eapply Forall_impl; [| exact H]. intros t [_ Ht]. apply lacks_join; [repeat constructor |].
    eapply Forall_impl; [| exact Ht]. intros s. apply word_lacks. right. reflexivity. }
  assert (NE : map (join [ch_tilde]) l <> []) by (destruct l; [congruence | discriminate]).
  rewrite (split_join _ _ NE LK). clear NE.
  destruct (existsb (Ascii.eqb ch_tilde) _) eqn:E.
  - rewrite map_map. clear -H. induction H as [| t l [Ht Hw] Hl IH]; [reflexivity |]. cbn [map]. rewrite IH. f_equal.
    apply split_join; [assumption |]. eapply Forall_impl; [| exact Hw]. intros s. apply word_lacks. left. reflexivity.
  - (* no tilde at all: every tuple has one element *)
    rewrite map_map. revert E LK. clear Hne. induction H as [| t l [Ht Hw] Hl IH]; [reflexivity |]. intros E LK. cbn [map] in *.
    assert (E2 : existsb (Ascii.eqb ch_tilde) (join [ch_tilde] t) = false /\ existsb (Ascii.eqb ch_tilde) (join [ch_comma] (map (join [ch_tilde]) l)) = false).
    { destruct l as [| u l]; [cbn in E |- *; auto |]. cbn [map] in E. rewrite join_cons, !existsb_app in E. cbn in E.
      apply Bool.orb_false_iff in E. destruct E as [E1 E2]. auto. }
    inversion LK; subst. rewrite IH by tauto. f_equal.
    destruct t as [| a [| b t]]; [congruence | |].
    + cbn. inversion Hw; subst. apply ws_one; apply word_noblank; assumption.
    + exfalso. destruct E2 as [E2 _]. rewrite join_cons, !existsb_app in E2. cbn in E2. rewrite Bool.orb_true_r in E2. discriminate.
Qed.

Lemma str_words l : Forall (Forall word) (map (map str_Z) l).
Proof. apply Forall_map. apply Forall_forall. intros t _. apply Forall_map. apply Forall_forall. intros z _. apply str_num. Qed.

(** Printing a list of tuples of integers in either format and parsing it gives the list back. *)
Theorem int_tuples_round_trip :
  forall l : list (list Z), l <> [] ->
    list_of_int_tuples (blank_text l) = Ok l /\
    (Forall (fun t => t <> []) l -> list_of_int_tuples (tilde_text l) = Ok l).
Proof.
  intros l Hne. assert (R : map_res (map_res py_int) (map (map str_Z) l) = Ok l).
  { apply (map_res_map (map_res py_int) (map str_Z)). intros t. apply map_res_map, py_int_str. }
  assert (N : map (map str_Z) l <> []) by (destruct l; [congruence | discriminate]).
  unfold list_of_int_tuples, blank_text, tilde_text. split.
  - rewrite fields_blank; [exact R | exact N | apply str_words].
  - intros Ht. rewrite fields_tilde; [exact R | exact N |]. apply Forall_map. apply Forall_forall. intros t Hin.
    rewrite Forall_forall in Ht. specialize (Ht t Hin). split; [destruct t; [congruence | discriminate] |].
    apply Forall_map. apply Forall_forall. intros z _. apply str_num.
Qed.
(** Baseline pairs: four antenna numbers give two baselines. *)
Theorem tuple_tuples_round_trip :
  forall l : list (Z * Z * (Z * Z)), l <> [] ->
    let flat := map (fun p => [fst (fst p); snd (fst p); fst (snd p); snd (snd p)]) l in
    let pairs := map (fun p => ([fst (fst p); snd (fst p)], [fst (snd p); snd (snd p)])) l in
    list_of_tuple_tuples (blank_text flat) = Ok pairs /\ list_of_tuple_tuples (tilde_text flat) = Ok pairs.
Proof.
  intros l Hne flat pairs. assert (N : flat <> []) by (unfold flat; destruct l; [congruence | discriminate]).
  destruct (int_tuples_round_trip flat N) as [E1 E2].
  assert (T : Forall (fun t => t <> []) flat) by (unfold flat; apply Forall_map, Forall_forall; intros; discriminate).
  assert (M : map (fun x : list Z => (firstn 2 x, skipn 2 x)) flat = pairs) by (unfold flat, pairs; rewrite map_map; reflexivity).
  unfold list_of_tuple_tuples. rewrite E1, (E2 T). cbn [bind]. rewrite M. auto.
Qed.
(** Polarization names (without blanks and separators). *)
Theorem str_tuples_round_trip :
  forall l : list (list pystr), l <> [] -> Forall (Forall word) l ->
    list_of_str_tuples (write [ch_blank] [ch_comma; ch_blank] l) = l /\
    (Forall (fun t => t <> []) l -> list_of_str_tuples (write [ch_tilde] [ch_comma] l) = l).
Proof.
  intros l Hne H. split; [apply fields_blank; assumption |]. intros Ht. apply fields_tilde; [assumption |].
  rewrite Forall_forall in *. intros t Hin. split; [apply Ht | apply H]; assumption.
Qed.
(** groups of baseline-pair integers in bootstrap_run *)
Theorem blpair_groups_round_trip :
  forall l : list (list Z), l <> [] -> list_of_lists_of_tuples (blank_text l) = Ok l.
Proof.
  intros l Hne. destruct (int_tuples_round_trip l Hne) as [E _]. unfold list_of_int_tuples, fields in E.
  unfold list_of_lists_of_tuples. destruct (existsb (Ascii.eqb ch_tilde) (blank_text l)) eqn:X; [| exact E].
  exfalso. rewrite lacks_exists in X; [discriminate |]. apply lacks_join; [repeat constructor |].
  apply Forall_map. pose proof (str_words l) as W. eapply Forall_impl; [| exact W]. intros t Ht. apply lacks_join; [repeat constructor |].
  eapply Forall_impl; [| exact Ht]. intros s. apply word_lacks. left. reflexivity.
Qed.
(** Mixing the formats is an error for integers. *)
Theorem mixed_formats_rejected : list_of_int_tuples (s_ "0~0, 1 1") = Err ValueError.
Proof. reflexivity. Qed.

(** Blanks after the commas are not ignored in the '~' format for strings. *)
Theorem str_tuples_blank_refuted :
  list_of_str_tuples (s_ "xx~xx, yy~yy") = [[s_ "xx"; s_ "xx"]; [s_ " yy"; s_ "yy"]] /\
  list_of_str_tuples (s_ "xx~xx, yy~yy") <> list_of_str_tuples (s_ "xx~xx,yy~yy").
Proof. split; [reflexivity | discriminate]. Qed.
(** A switch with type=bool cannot be turned off by any text a user would write. *)
Theorem bool_switch_refuted : py_bool (s_ "False") = true /\ py_bool (s_ "0") = true /\ forall v, py_bool v = false <-> v = [].
Proof. split; [reflexivity|]. split; [reflexivity|]. intros [|]; split; (reflexivity || discriminate). Qed.

Example parse_examples :
  list_of_int_tuples (s_ "0~0,1~1") = Ok [[0; 0]; [1; 1]] /\ list_of_int_tuples (s_ "200 300, 500 650") = Ok [[200; 300]; [500; 650]] /\
  list_of_tuple_tuples (s_ "1~2~3~4,5~6~7~8") = Ok [([1; 2], [3; 4]); ([5; 6], [7; 8])] /\
  tilde_text [[20; 20]; [40; -3]] = s_ "20~20,40~-3" /\ blank_text [[0; 0]; [1; 1]] = s_ "0 0, 1 1" /\
  list_of_str_tuples (s_ "xx~xx,yy~yy") = [[s_ "xx"; s_ "xx"]; [s_ "yy"; s_ "yy"]].
Proof. repeat split; reflexivity. Qed.
Print Assumptions int_tuples_round_trip.
Print Assumptions blpair_groups_round_trip.
