(** C242-C248: validity checks of UVPSpec objects, normalisation of arguments, configuration files. *)
From Coq Require Import String Ascii.
From Verif Require Import PyDict PyStr H5Model.
From Verif Require Import Prelude CheckModel.
Open Scope nat_scope.

Lemma memn_In p l : memn p l = true <-> In p l.
Proof. unfold memn. rewrite existsb_exists. split. intros (x & H & E). apply str_eqb_eq in E. subst. exact H. intros H. exists p. split; [exact H | apply str_eqb_eq; reflexivity]. Qed.
Fixpoint nodupb (l : list pystr) : bool := match l with [] => true | x :: l' => (negb (memn x l') && nodupb l')%bool end.
Lemma nodupb_NoDup l : nodupb l = true -> NoDup l.
Proof. induction l as [| x l IH]; intros H; constructor; cbn in H; apply andb_prop in H; destruct H as [A B]. intros I. apply memn_In in I. rewrite I in A. discriminate. apply IH, B. Qed.
Lemma sorted_NoDup : NoDup sorted_params. Proof. apply nodupb_NoDup. vm_compute. reflexivity. Qed.
Lemma ins_name_In x l y : In y (ins_name x l) <-> y = x \/ In y l.
Proof. induction l as [| z l IH]; cbn [ins_name]. cbn. intuition. destruct (str_leb x z); cbn [In]; rewrite ?IH; intuition. Qed.
Lemma sorted_In p : In p sorted_params <-> In p all_params.
Proof. unfold sorted_params. induction all_params as [| x l IH]; cbn [fold_right]. tauto. rewrite ins_name_In, IH. cbn. intuition. Qed.

(** names are compared like Python strings: the first differing character decides, a prefix comes first; and check() visits the
    parameters in that order *)
Theorem names_sorted :
  (forall a b, str_leb a b = true <->
     (exists c, b = a ++ c) \/ (exists c x y a' b', a = c ++ x :: a' /\ b = c ++ y :: b' /\ nat_of_ascii x < nat_of_ascii y)) /\
  (forall i p q, nth_error sorted_params i = Some p -> nth_error sorted_params (S i) = Some q -> str_leb p q = true) /\
  (forall p, In p sorted_params <-> In p all_params) /\ NoDup sorted_params.
Proof.
  assert (LE : forall a b, str_leb a b = true <->
     (exists c, b = a ++ c) \/ (exists c x y a' b', a = c ++ x :: a' /\ b = c ++ y :: b' /\ nat_of_ascii x < nat_of_ascii y)).
  { induction a as [|x a IH]; intros b.
    - split; [intros _; left; exists b; reflexivity|reflexivity].
    - destruct b as [|y b]; cbn [str_leb].
      + split; [discriminate|]. intros [[c C]|[c [x' [y' [a' [b' [_ [C _]]]]]]]]; [discriminate C|]. destruct c; discriminate C.
      + destruct (Nat.ltb_spec (nat_of_ascii x) (nat_of_ascii y)) as [L|L]; [split; [intros _; right; exists [], x, y, a, b; auto|reflexivity]|].
        destruct (Nat.ltb_spec (nat_of_ascii y) (nat_of_ascii x)) as [L'|L'].
        * split; [discriminate|]. intros [[c C]|[c [x' [y' [a' [b' [C1 [C2 C3]]]]]]]]; [injection C as -> _; lia|].
          destruct c as [|z c]; [injection C1 as -> _; injection C2 as -> _; lia|]. injection C1 as -> _; injection C2 as -> _; lia.
        * assert (x = y) as <- by (rewrite <- (ascii_nat_embedding x), <- (ascii_nat_embedding y); f_equal; lia). rewrite IH. split.
          -- intros [[c ->]|[c [x' [y' [a' [b' [-> [-> C3]]]]]]]]; [left; exists c; reflexivity|]. right; exists (x :: c), x', y', a', b'; auto.
          -- intros [[c C]|[c [x' [y' [a' [b' [C1 [C2 C3]]]]]]]]; [injection C as ->; left; exists c; reflexivity|].
             destruct c as [|z c]; [injection C1 as <- _; injection C2 as <- _; lia|]. injection C1 as <- ->; injection C2 as ->. right; exists c, x', y', a', b'; auto. }
  split; [exact LE|]. split; [|split; [exact sorted_In | exact sorted_NoDup]].
  intros i p q. set (l := sorted_params).
  assert (H : (fix ok (l : list pystr) : bool := match l with x :: (y :: _) as r => (str_leb x y && ok r)%bool | _ => true end) l = true) by (vm_compute; reflexivity).
  clearbody l. revert i. induction l as [|x [|y r] IH]; intros i Hp Hq.
  - destruct i; discriminate.
  - destruct i as [|i]; [discriminate|destruct i; discriminate].
  - apply andb_prop in H. destruct H as [H1 H2]. destruct i as [|i]; [injection Hp as <-; injection Hq as <-; exact H1|]. apply (IH H2 i Hp Hq).
Qed.

Local Opaque sorted_params all_params.
Section Check.
Context {P V K : Type} (isinst : V -> ety -> bool) (astype : ety -> arr P -> option P) (conv : ety -> val P V K -> option V) (ints : P -> list Z) (intv : V -> option Z) (truth : V -> bool).
Notation check := (check isinst astype conv ints intv truth).
Notation check_value := (check_value isinst astype conv).
Notation check_params := (check_params isinst astype conv).
Notation uobj := (uobj P V K).
(** ** specification: what a value of each parameter should be *)
Inductive kind := KArr | KDict | KImm | KDD.
(** the groups of uvpspec.py:452-520 *)
Definition kind_of (p : pystr) : option kind :=
  if memn p ndarrays then Some KArr else if memn p dicts then Some KDict else if memn p immutables then Some KImm else if memn p dicts_of_dicts then Some KDD else None.
Definition arr_of (t : ety) (v : val P V K) : Prop := exists a, v = VArr a /\ a_ty a = Some t.
Definition dict_of (Q : val P V K -> Prop) (v : val P V K) : Prop := exists d, v = VDict d /\ forall k x, In (k, x) d -> Q x.
Definition well_typed (p : pystr) (v : val P V K) : Prop :=
  match kind_of p with
  | Some KArr => arr_of (expected p) v
  | Some KDict => dict_of (arr_of (expected p)) v
  | Some KImm => exists x, v = VObj x /\ isinst x (expected p) = true
  | Some KDD => dict_of (dict_of (arr_of (expected p))) v
  | None => True
  end.
(** casts give values of the type, and leave values of the type alone *)
Definition casts_ok : Prop := (forall t v x, conv t v = Some x -> isinst x t = true) /\ (forall t a, a_ty a = Some t -> astype t a = Some (a_val a)).

Lemma ety_eqb_eq a b : ety_eqb a b = true <-> a = b. Proof. destruct a, b; cbn; split; congruence. Qed.
Lemma has_ty_eq (a : arr P) t : has_ty a t = true <-> a_ty a = Some t.
Proof. unfold has_ty. destruct (a_ty a) as [t' |]; [rewrite ety_eqb_eq; split; congruence | split; discriminate]. Qed.
Lemma cast_inner_spec t d : snd (@cast_inner P V K astype t d) = None -> dict_of (arr_of t) (VDict (fst (cast_inner astype t d))).
Proof.
  intros H. exists (fst (cast_inner astype t d)). split; [reflexivity |]. revert H. induction d as [| [j v] d IH]; cbn [cast_inner]; intros H k x Hx; [destruct Hx |].
  destruct v as [a | |]; try discriminate. destruct (astype t a) as [y |]; [| discriminate]. cbn in H, Hx. destruct Hx as [E | Hx]; [injection E as <- <-; exists (mkarr (Some t) y); auto | apply (IH H k x Hx)].
Qed.
Lemma cast_outer_spec t d : snd (@cast_outer P V K astype t d) = None -> dict_of (dict_of (arr_of t)) (VDict (fst (cast_outer astype t d))).
Proof.
  intros H. exists (fst (cast_outer astype t d)). split; [reflexivity |]. revert H. induction d as [| [j v] d IH]; cbn [cast_outer]; intros H k x Hx; [destruct Hx |].
  destruct v as [| | e]; try discriminate. destruct (cast_inner astype t e) as [e' [z |]] eqn:E; [discriminate |]. cbn in H, Hx. destruct Hx as [Ex | Hx]; [injection Ex as <- <- | apply (IH H k x Hx)].
  pose proof (cast_inner_spec t e) as Q. rewrite E in Q. apply Q. reflexivity.
Qed.
Lemma cast_inner_id t d : (forall t a, a_ty a = Some t -> astype t a = Some (a_val a)) -> (forall k x, In (k, x) d -> arr_of t x) -> @cast_inner P V K astype t d = (d, None).
Proof.
  intros Hid. induction d as [| [j v] d IH]; intros H; cbn [cast_inner]; [reflexivity |]. destruct (H j v (or_introl eq_refl)) as (a & -> & Ta). rewrite (Hid t a Ta), IH by (intros k x Hx; apply (H k x); right; exact Hx). cbn. rewrite <- Ta. destruct a. reflexivity.
Qed.
Lemma cast_outer_id t d : (forall t a, a_ty a = Some t -> astype t a = Some (a_val a)) -> (forall k x, In (k, x) d -> dict_of (arr_of t) x) -> @cast_outer P V K astype t d = (d, None).
Proof.
  intros Hid. induction d as [| [j v] d IH]; intros H; cbn [cast_outer]; [reflexivity |]. destruct (H j v (or_introl eq_refl)) as (e & -> & Te). rewrite (cast_inner_id t e Hid Te), IH by (intros k x Hx; apply (H k x); right; exact Hx). reflexivity.
Qed.
Lemma check_value_sound p v : casts_ok -> snd (check_value p v) = None -> well_typed p (fst (check_value p v)).
Proof.
  intros [Hc _]. unfold CheckModel.check_value, well_typed, kind_of. destruct (memn p ndarrays).
  - destruct v as [a | |]; try discriminate. destruct (has_ty a (expected p)) eqn:E. intros _. exists a. split; [reflexivity | apply has_ty_eq, E]. destruct (astype (expected p) a) as [x |]; [intros _; exists (mkarr (Some (expected p)) x); auto | discriminate].
  - destruct (memn p dicts). { destruct v as [| | d]; try discriminate. cbn [fst snd]. destruct (forallb _ d) eqn:E; [| discriminate]. intros _. exists d. split; [reflexivity |]. rewrite forallb_forall in E. intros k x Hx. specialize (E _ Hx). cbn in E. destruct x as [a | |]; try discriminate. exists a. split; [reflexivity | apply has_ty_eq, E]. }
    destruct (memn p immutables).
    + destruct v as [a | x | d]; [| destruct (isinst x (expected p)) eqn:E; [intros _; exists x; auto |] |]; match goal with |- context [conv ?t ?v] => destruct (conv t v) as [y |] eqn:Cv; [intros _; exists y; split; [reflexivity | apply (Hc _ _ _ Cv)] | discriminate] end.
    + destruct (memn p dicts_of_dicts); [| auto]. destruct v as [| | d]; try discriminate. intros H. apply cast_outer_spec. exact H.
Qed.
Lemma check_value_id p v : casts_ok -> well_typed p v -> check_value p v = (v, None).
Proof.
  intros [_ Hid]. unfold CheckModel.check_value, well_typed, kind_of. destruct (memn p ndarrays).
  - intros (a & -> & T). apply has_ty_eq in T. rewrite T. reflexivity.
  - destruct (memn p dicts). { intros (d & -> & H). replace (forallb _ d) with true; [reflexivity |]. symmetry. apply forallb_forall. intros [k x] Hx. destruct (H k x Hx) as (a & -> & T). apply has_ty_eq, T. }
    destruct (memn p immutables). { intros (x & -> & H). rewrite H. reflexivity. }
    destruct (memn p dicts_of_dicts); [| reflexivity]. intros (d & -> & H). rewrite (cast_outer_id _ _ Hid H). reflexivity.
Qed.
Definition fine (jm : bool) (o : uobj) (p : pystr) : Prop :=
  match attr o p with None => jm = true \/ memn p req_params = false | Some v => snd (check_value p v) = None end.
Definition after (o : uobj) (ps : list pystr) (p : pystr) : option (val P V K) :=
  if in_dec name_dec p ps then option_map (fun v => fst (check_value p v)) (attr o p) else attr o p.
Lemma check_params_spec jm ps : NoDup ps -> forall o,
  (snd (check_params jm ps o) = None <-> forall p, In p ps -> fine jm o p) /\
  (snd (check_params jm ps o) = None -> forall p, attr (fst (check_params jm ps o)) p = after o ps p).
Proof.
  induction 1 as [| p ps Hn ND IH]; intros o; cbn [CheckModel.check_params].
  { split; [split; [intros _ p [] | reflexivity] | intros _ p; reflexivity]. }
  unfold check_param. destruct (attr o p) as [v |] eqn:A.
  - set (o1 := dset name_dec o p (fst (check_value p v))).
    assert (At : forall q, attr o1 q = if name_dec p q then Some (fst (check_value p v)) else attr o q) by (intros q; unfold attr, o1; rewrite dget_dset; destruct (name_dec q p), (name_dec p q); congruence).
    assert (Fq : forall q, In q ps -> (fine jm o1 q <-> fine jm o q)). { intros q Hq. unfold fine. rewrite At. destruct (name_dec p q) as [-> | _]; [contradiction | tauto]. }
    destruct (check_value p v) as [v' [e |]] eqn:E; cbn [fst snd] in *.
    + split; [split; [discriminate | intros H; specialize (H p (or_introl eq_refl)); unfold fine in H; rewrite A, E in H; discriminate] | discriminate].
    + destruct (IH o1) as [I1 I2]. split.
      * rewrite I1. split; [intros H q [<- | Hq]; [unfold fine; rewrite A, E; reflexivity | apply Fq; auto] | intros H q Hq; apply Fq; [exact Hq | apply H; right; exact Hq]].
      * intros H q. rewrite (I2 H q). unfold after. rewrite At. destruct (in_dec name_dec q ps) as [Iq | Iq], (in_dec name_dec q (p :: ps)) as [Jq | Jq], (name_dec p q) as [Eq | Eq]; cbn in *; try (subst; tauto); try reflexivity; try (exfalso; tauto).
        subst q. rewrite A. cbn. rewrite E. reflexivity.
  - destruct (negb jm && memn p req_params)%bool eqn:E.
    + split; [split; [discriminate | intros H; specialize (H p (or_introl eq_refl)); unfold fine in H; rewrite A in H; apply andb_prop in E; destruct E as [E1 E2]; destruct H as [-> | H]; [discriminate | congruence]] | discriminate].
    + destruct (IH o) as [I1 I2]. split.
      * rewrite I1. split; [intros H q [<- | Hq]; [unfold fine; rewrite A; apply andb_false_iff in E; destruct E as [E | E]; [left; apply negb_false_iff, E | right; exact E] | auto] | intros H q Hq; apply H; right; exact Hq].
      * intros H q. rewrite (I2 H q). unfold after. destruct (in_dec name_dec q ps) as [Iq | Iq], (in_dec name_dec q (p :: ps)) as [Jq | Jq]; cbn in *; try reflexivity; try (exfalso; tauto). destruct Jq as [-> | Jq]; [rewrite A; reflexivity | contradiction].
Qed.
Lemma check_unfold jm o o' : check jm o = (o', None) <-> snd (check_params jm sorted_params o) = None /\ o' = fst (check_params jm sorted_params o) /\ check_spw ints intv o' = None /\ check_windows truth jm o' = None.
Proof.
  unfold CheckModel.check. destruct (check_params jm sorted_params o) as [o1 [e |]]; cbn [fst snd].
  - split; [discriminate | intros (X & _); discriminate].
  - split; [intros H | intros (_ & -> & A & B); rewrite A, B; reflexivity]. apply pair_equal_spec in H. destruct H as [<- H]. destruct (check_spw ints intv o1); [discriminate |]. auto.
Qed.
(** ** what an accepted object has *)
Theorem check_sound :
  forall jm o o', casts_ok -> check jm o = (o', None) ->
    (forall p v, In p all_params -> attr o' p = Some v -> well_typed p v) /\
    (jm = false -> forall p, In p req_params -> In p all_params -> attr o' p <> None) /\
    (exists a n k, attr o' (s_ "spw_array") = Some (VArr a) /\ attr o' (s_ "Nspws") = Some (VObj n) /\ intv n = Some k /\ forall z, In z (ints (a_val a)) <-> (0 <= z < k)%Z) /\
    (forall b, jm = false -> attr o' (s_ "exact_windows") = Some (VObj b) -> truth b = true -> attr o' (s_ "window_function_array") <> None /\ attr o' (s_ "window_function_kperp") <> None).
Proof.
  intros jm o o' Hc H. apply check_unfold in H. destruct H as (H1 & -> & Hs & Hw). destruct (check_params_spec jm _ sorted_NoDup o) as [C1 C2]. specialize (C2 H1). assert (H1' := proj1 C1 H1); clear H1; rename H1' into H1.
  set (o' := fst (check_params jm sorted_params o)) in *. clearbody o'. split; [| split; [| split]].
  - intros p v Hp Ha. rewrite C2 in Ha. unfold after in Ha. apply sorted_In in Hp. destruct (in_dec name_dec p sorted_params) as [_ | N]; [| contradiction]. specialize (H1 p Hp). unfold fine in H1. destruct (attr o p) as [w |]; [| discriminate]. cbn in Ha. injection Ha as <-. apply check_value_sound; assumption.
  - intros -> p Hr Hp. rewrite C2. unfold after. apply sorted_In in Hp. destruct (in_dec name_dec p sorted_params) as [_ | N]; [| contradiction]. specialize (H1 p Hp). unfold fine in H1. destruct (attr o p) as [w |]; [discriminate |]. apply memn_In in Hr. destruct H1; congruence.
  - unfold check_spw in Hs. change (s_ "spw_array") with a_spw. change (s_ "Nspws") with a_Nspws. destruct (attr o' a_spw) as [[a | |] |]; try discriminate; destruct (attr o' a_Nspws) as [[| n |] |]; try discriminate.
    destruct (intv n) as [k |] eqn:E; [| discriminate]. exists a, n, k. split; [reflexivity |]. split; [reflexivity |]. split; [exact E |]. destruct (_ && _)%bool eqn:B; [| discriminate]. apply andb_prop in B. destruct B as [B1 B2]. rewrite forallb_forall in B1, B2.
    intros z. split. intros Hz. specialize (B1 z Hz). apply andb_prop in B1. lia. intros Hz. specialize (B2 (Z.to_nat z) ltac:(apply in_seq; lia)). apply existsb_exists in B2. destruct B2 as (y & Hy & Ey). apply Z.eqb_eq in Ey. rewrite Z2Nat.id in Ey by lia. congruence.
  - intros b -> Hb Tb. unfold check_windows in Hw. change (s_ "exact_windows") with a_exact in Hb. rewrite Hb, Tb in Hw. cbn [negb andb] in Hw. change (s_ "window_function_array") with d_win. change (s_ "window_function_kperp") with d_kperp. destruct (attr o' d_win), (attr o' d_kperp); try discriminate; split; discriminate.
Qed.
(** The arrays of exact window functions are asked for only if exact_windows is true and the check is not of the metadata alone *)
Theorem check_windows_when :
  forall jm o o' b, check_params jm sorted_params o = (o', None) -> check_spw ints intv o' = None -> attr o' (s_ "exact_windows") = Some (VObj b) ->
    (check jm o = (o', None) <-> (jm = false -> truth b = true -> attr o' (s_ "window_function_array") <> None /\ attr o' (s_ "window_function_kperp") <> None)).
Proof.
  intros jm o o' b H1 Hs Hb. rewrite check_unfold, H1. cbn [fst snd]. unfold check_windows. change (s_ "exact_windows") with a_exact in Hb. rewrite Hb.
  change (s_ "window_function_array") with d_win. change (s_ "window_function_kperp") with d_kperp. destruct (truth b), jm; cbn [negb andb].
  - split; [intros _ Q; discriminate | tauto].
  - destruct (attr o' d_win), (attr o' d_kperp).
    + split; [intros _ _ _; split; discriminate | tauto].
    + split; [intros (_ & _ & _ & Q); discriminate | intros Q; destruct (Q eq_refl eq_refl); congruence].
    + split; [intros (_ & _ & _ & Q); discriminate | intros Q; destruct (Q eq_refl eq_refl); congruence].
    + split; [intros (_ & _ & _ & Q); discriminate | intros Q; destruct (Q eq_refl eq_refl); congruence].
  - split; [intros _ Q; discriminate | tauto].
  - split; [intros _ _ Q; discriminate | tauto].
Qed.
(** What an accepted object keeps: no attribute appears or disappears, other attributes and values of the right type stay; a second check changes nothing *)
Theorem check_idempotent :
  forall jm o o', casts_ok -> check jm o = (o', None) ->
    (forall p, attr o' p = None <-> attr o p = None) /\ (forall p, ~ In p all_params -> attr o' p = attr o p) /\ (forall p v, attr o p = Some v -> well_typed p v -> attr o' p = Some v) /\
    snd (check jm o') = None /\ forall p, attr (fst (check jm o')) p = attr o' p.
Proof.
  intros jm o o' Hc H. pose proof (proj1 (check_sound _ _ _ Hc H)) as WT. apply check_unfold in H. destruct H as (H1 & Eo & Hs & Hw). destruct (check_params_spec jm _ sorted_NoDup o) as [C1 C2]. specialize (C2 H1). assert (H1' := proj1 C1 H1); clear H1; rename H1' into H1. rewrite <- Eo in C2. clear Eo.
  split; [| split; [| split]].
  - intros p. rewrite C2. unfold after. destruct (in_dec name_dec p sorted_params); [| tauto]. destruct (attr o p); cbn; split; congruence.
  - intros p Hp. rewrite C2. unfold after. destruct (in_dec name_dec p sorted_params) as [I | _]; [exact (False_ind _ (Hp (proj1 (sorted_In p) I))) | reflexivity].
  - intros p v Hv W. rewrite C2. unfold after. rewrite Hv. destruct (in_dec name_dec p sorted_params); [cbn; rewrite (check_value_id p v Hc W); reflexivity | reflexivity].
  - assert (F : forall p, In p sorted_params -> fine jm o' p).
    { intros p Hp. specialize (H1 p Hp). unfold fine in *. destruct (attr o' p) as [v |] eqn:A. rewrite check_value_id; [reflexivity | exact Hc | apply WT; [exact (proj1 (sorted_In p) Hp) | exact A]]. rewrite C2 in A. unfold after in A. destruct (in_dec name_dec p sorted_params) as [_ | N]; [| contradiction]. destruct (attr o p); [discriminate | exact H1]. }
    destruct (check_params_spec jm _ sorted_NoDup o') as [D1 D2]. assert (F' := proj2 D1 F); clear F; rename F' into F. specialize (D2 F). assert (Same : forall p, attr (fst (check_params jm sorted_params o')) p = attr o' p).
    { intros p. rewrite D2. unfold after. destruct (in_dec name_dec p sorted_params) as [I | _]; [| reflexivity]. destruct (attr o' p) as [v |] eqn:A; [| reflexivity]. cbn. rewrite check_value_id; [reflexivity | exact Hc | apply WT; [exact (proj1 (sorted_In p) I) | exact A]]. }
    unfold CheckModel.check. destruct (check_params jm sorted_params o') as [o2 e2]. cbn [fst snd] in *. subst e2. cbn [fst snd]. split; [| exact Same].
    unfold check_spw in *. rewrite !Same. rewrite Hs. unfold check_windows in *. rewrite !Same. exact Hw.
Qed.
(** ** what is not checked *)
(** the values and shapes of arrays (other than the set of windows) *)
Theorem check_shapes_refuted :
  forall jm o o' p a b, casts_ok -> check jm o = (o', None) -> In p ndarrays -> p <> s_ "spw_array" -> attr o p = Some (VArr a) -> a_ty a = Some (expected p) -> a_ty b = Some (expected p) ->
    snd (check jm (dset name_dec o p (VArr b))) = None.
Proof.
  intros jm o o' p a b Hc H Hp Np Ha Ta Tb. apply check_unfold in H. destruct H as (H1 & Eo & Hs & Hw). destruct (check_params_spec jm _ sorted_NoDup o) as [C1 C2]. specialize (C2 H1). assert (H1' := proj1 C1 H1); clear H1; rename H1' into H1. rewrite <- Eo in C2. clear Eo.
  set (o2 := dset name_dec o p (VArr b)). assert (At : forall q, attr o2 q = if name_dec p q then Some (VArr b) else attr o q) by (intros q; unfold attr, o2; rewrite dget_dset; destruct (name_dec q p), (name_dec p q); congruence).
  assert (Wb : check_value p (VArr b) = (VArr b, None)). { apply check_value_id; [exact Hc |]. unfold well_typed, kind_of. apply memn_In in Hp. rewrite Hp. exists b. auto. }
  assert (F : forall q, In q sorted_params -> fine jm o2 q). { intros q Hq. unfold fine. rewrite At. destruct (name_dec p q) as [<- | N]; [rewrite Wb; reflexivity | apply H1, Hq]. }
  destruct (check_params_spec jm _ sorted_NoDup o2) as [D1 D2]. assert (F' := proj2 D1 F); clear F; rename F' into F. specialize (D2 F). set (o3 := fst (check_params jm sorted_params o2)) in *.
  assert (Same : forall q, q <> p -> attr o3 q = attr o' q). { intros q Nq. rewrite D2, C2. unfold after. rewrite !At. destruct (name_dec p q); [congruence | reflexivity]. }
  assert (Np2 : forall q, memn q ndarrays = false -> q <> p) by (intros q Hq ->; apply memn_In in Hp; congruence).
  unfold CheckModel.check. destruct (check_params jm sorted_params o2) as [o4 e4] eqn:E4. cbn [fst snd] in *. subst e4. cbn [snd]. change o4 with o3.
  unfold check_spw, check_windows in *. rewrite (Same a_spw), (Same a_Nspws), (Same a_exact), (Same d_win), (Same d_kperp) by (try (apply Np2; reflexivity); intros E; apply Np; rewrite <- E; reflexivity). rewrite Hs. exact Hw.
Qed.
(** a required parameter: time_2_array and symmetric_taper may be anything or missing *)
Theorem check_required_refuted : forall p, In p [s_ "time_2_array"; s_ "symmetric_taper"] -> In p req_params /\ ~ In p all_params.
Proof. intros p [<- | [<- | []]]; (split; [apply memn_In; reflexivity | intros H; apply memn_In in H; vm_compute in H; discriminate]). Qed.
(** "Raises AssertionErrors if checks fail": a list in place of an array raises AttributeError, an array that cannot be cast ValueError, a missing exact_windows AttributeError *)
Theorem check_error_refuted :
  (forall p x, In p ndarrays -> snd (check_value p (VObj x)) = Some AttributeError) /\
  (forall p a, In p ndarrays -> a_ty a <> Some (expected p) -> astype (expected p) a = None -> snd (check_value p (VArr a)) = Some ValueError) /\
  (forall jm (o : uobj), attr o (s_ "exact_windows") = None -> check_windows truth jm o = Some AttributeError).
Proof.
  split; [| split].
  - intros p x Hp. unfold CheckModel.check_value. apply memn_In in Hp. rewrite Hp. reflexivity.
  - intros p a Hp Ht Hn. unfold CheckModel.check_value. apply memn_In in Hp. rewrite Hp. destruct (has_ty a (expected p)) eqn:E; [apply has_ty_eq in E; contradiction |]. rewrite Hn. reflexivity.
  - intros jm o H. unfold check_windows. change a_exact with (s_ "exact_windows"). rewrite H. reflexivity.
Qed.
End Check.
Print Assumptions check_sound.
Print Assumptions check_idempotent.
Print Assumptions check_shapes_refuted.
Print Assumptions check_required_refuted.
Print Assumptions check_error_refuted.

(** an object that is accepted, with a cast: contents are lists of integers, values are booleans or integers *)
Definition xV := (bool + Z + pystr)%type.
Definition x_isinst (v : xV) (t : ety) : bool := match v, t with inl (inl _), EBool => true | inl (inr _), EInt => true | inr _, EStr => true | inr _, ECosmo => true | _, _ => false end.
Definition x_astype (t : ety) (a : arr (list Z)) : option (list Z) := Some (a_val a).
Definition x_conv (t : ety) (v : val (list Z) xV nat) : option xV := match t with EInt => Some (inl (inr 1%Z)) | EBool => Some (inl (inl true)) | EStr => Some (inr (s_ "x")) | ECosmo => Some (inr (s_ "x")) | _ => None end.
Definition x_obj : uobj (list Z) xV nat :=
  map (fun p => (p, if memn p ndarrays then VArr (mkarr (if str_eqb p a_spw then None else Some (expected p)) [0; 1]%Z) else if memn p dicts then VDict [(0, VArr (mkarr (Some (expected p)) [7]%Z))] else if memn p dicts_of_dicts then VDict [] else
                  VObj (if str_eqb p a_Nspws then inl (inr 2%Z) else inl (inl true)))) all_params.
Definition x_check := check x_isinst x_astype x_conv (fun l => l) (fun v : xV => match v with inl (inr z) => Some z | _ => None end) (fun v => match v with inl (inl b) => b | _ => false end).
Example check_ex : casts_ok x_isinst x_astype x_conv /\ snd (x_check false x_obj) = None /\ attr (fst (x_check false x_obj)) a_spw <> attr x_obj a_spw.
Proof.
  split; [split |].
  - intros t v x H. destruct t; try discriminate; cbn in H; injection H as <-; reflexivity.
  - intros t a _. reflexivity.
  - split; [vm_compute; reflexivity | vm_compute; discriminate].
Qed.
(** the windows may be repeated *)
Theorem check_spw_refuted : exists o, snd (x_check false o) = None /\ attr (fst (x_check false o)) a_spw = Some (VArr (mkarr (Some EU16) [0; 0; 1]%Z)) /\ attr (fst (x_check false o)) a_Nspws = Some (VObj (inl (inr 2%Z))).
Proof. exists (dset name_dec x_obj a_spw (VArr (mkarr (Some EU16) [0; 0; 1]%Z))). split; [vm_compute; reflexivity |]. split; vm_compute; reflexivity. Qed.
(** a failing check keeps the casts made before *)
Theorem check_failure_refuted : exists o, snd (x_check false o) <> None /\ attr (fst (x_check false o)) (s_ "bl_array") <> attr o (s_ "bl_array").
Proof. exists (dset name_dec (dset name_dec x_obj (s_ "bl_array") (VArr (mkarr None [3]%Z))) (s_ "time_1_array") (VObj (inl (inl true)))). split; vm_compute; discriminate. Qed.
Print Assumptions check_spw_refuted.
Print Assumptions check_failure_refuted.

(** ** normalisers *)
(** groups come out as fed, in order; anything that is not a sequence of non-empty sequences is refused *)
Theorem normalize_nested_spec :
  forall v, match normalize_nested v with
    | Ok gs => exists l, v = PSeq l /\ l = map PSeq gs /\ (forall g, In g gs -> g <> [])
    | Err e => (e = ValueError /\ exists l, v = PSeq l /\ In (PSeq []) l) \/ (e = TypeError /\ forall l, v = PSeq l -> exists g, In g l /\ forall m, g <> PSeq m)
    end.
Proof.
  intros v. destruct v as [z | l | |]; cbn [normalize_nested]; try (right; split; [reflexivity | intros l E; discriminate E]).
  assert (G : match map_res (fun g => match g with PSeq [] => Err ValueError | PSeq m => Ok m | _ => Err TypeError end) l with
     | Ok gs => l = map PSeq gs /\ (forall g, In g gs -> g <> []) | Err e => (e = ValueError /\ In (PSeq []) l) \/ (e = TypeError /\ exists g, In g l /\ forall m, g <> PSeq m) end).
  { induction l as [| g l IH]; cbn [map_res]. split; [reflexivity | intros g []].
    destruct g as [z | [| x m] | |]; cbn [bind]; try (right; split; [reflexivity | eexists; split; [left; reflexivity | intros m E; discriminate E]]); try (left; split; [reflexivity | left; reflexivity]).
    destruct (map_res _ l) as [gs | e]; cbn [bind].
    - destruct IH as [-> IH]. split; [reflexivity |]. intros g [<- | Hg]; [discriminate | apply IH, Hg].
    - destruct IH as [[-> IH] | [-> (g & Hg & N)]]; [left; split; [reflexivity | right; exact IH] | right; split; [reflexivity | exists g; split; [right; exact Hg | exact N]]]. }
  destruct (map_res _ l) as [gs | e].
  - exists l. split; [reflexivity | exact G].
  - destruct G as [[-> G] | [-> G]]; [left; split; [reflexivity | exists l; auto] | right; split; [reflexivity |]]. intros l' E. injection E as <-. exact G.
Qed.
(** integers and sequences of integers are taken as they are if all are windows of the object; None means all *)
Theorem normalize_spws_spec :
  forall v valid, match normalize_spws v valid with
    | Ok l => (v = PNone /\ l = valid \/ (exists z, v = PInt z /\ l = [z]) \/ v = PSeq (map PInt l)) /\ (forall z, In z l -> In z valid)
    | Err e => (e = TypeError /\ (v = POther \/ exists l g, v = PSeq l /\ In g l /\ forall z, g <> PInt z)) \/
               (e = ValueError /\ exists z, ~ In z valid /\ (v = PInt z \/ exists l, v = PSeq l /\ In (PInt z) l))
    end.
Proof.
  assert (Ex : forall z l, existsb (Z.eqb z) l = true <-> In z l). { intros z l. rewrite existsb_exists. split. intros (x & H & E). apply Z.eqb_eq in E. subst. exact H. intros H. exists z. split; [exact H | apply Z.eqb_refl]. }
  intros v valid. destruct v as [z | l | |]; cbn [normalize_spws]; unfold require.
  - destruct (existsb (Z.eqb z) valid) eqn:E.
    + split; [right; left; exists z; auto |]. intros y [<- | []]. apply Ex, E.
    + right. split; [reflexivity |]. exists z. split; [intros H; apply Ex in H; congruence | left; reflexivity].
  - destruct (forallb is_int l) eqn:I.
    + assert (El : l = map PInt (map int_of l)). { rewrite map_map. rewrite <- (map_id l) at 1. apply map_ext_in. intros g Hg. rewrite forallb_forall in I. specialize (I g Hg). destruct g; try discriminate. reflexivity. }
      destruct (forallb _ (map int_of l)) eqn:F.
      * split; [right; right; rewrite <- El; reflexivity |]. rewrite forallb_forall in F. intros z Hz. apply Ex, F, Hz.
      * right. split; [reflexivity |]. assert (X : exists z, In z (map int_of l) /\ ~ In z valid).
        { clear El. induction (map int_of l) as [| z m IH]; [discriminate |]. cbn [forallb] in F. destruct (existsb (Z.eqb z) valid) eqn:E; [destruct (IH F) as (y & H1 & H2); exists y; split; [right; exact H1 | exact H2] |]. exists z. split; [left; reflexivity | intros H; apply Ex in H; congruence]. }
        destruct X as (z & Hz & N). exists z. split; [exact N |]. right. exists l. split; [reflexivity |]. rewrite El. apply in_map, Hz.
    + left. split; [reflexivity |]. right. assert (X : exists g, In g l /\ is_int g = false).
      { induction l as [| g m IH]; [discriminate |]. cbn [forallb] in I. destruct (is_int g) eqn:E; [destruct (IH I) as (y & H1 & H2); exists y; split; [right; exact H1 | exact H2] | exists g; split; [left; reflexivity | exact E]]. }
      destruct X as (g & Hg & N). exists l, g. split; [reflexivity |]. split; [exact Hg |]. intros z ->. discriminate.
  - split; [left; auto | auto].
  - left. split; [reflexivity | left; reflexivity].
Qed.
Print Assumptions normalize_nested_spec.
Print Assumptions normalize_spws_spec.
Example normalize_ex : normalize_nested (PSeq [PSeq [PInt 1]; PSeq [PInt 2; POther]]) = Ok [[PInt 1]; [PInt 2; POther]] /\ normalize_spws (PSeq [PInt 1; PInt 0]) [0; 1]%Z = Ok [1; 0]%Z /\ normalize_spws (PInt 2) [0; 1]%Z = Err ValueError.
Proof. repeat split. Qed.

(** ** load_config *)
(** values reached from the top through dictionaries only *)
Inductive reach : yaml -> list pystr -> yaml -> Prop :=
| r_here d k v : In (k, v) d -> reach (YDict d) [k] v
| r_in d k v ks w : In (k, v) d -> reach v ks w -> reach (YDict d) (k :: ks) w.
(** the value that should replace a value *)
Definition wanted (v w : yaml) : Prop :=
  match v with
  | YStr s => if str_eqb s (s_ "None") then w = YNone else w = v
  | YList l => if forallb is_list l then exists m, l = map YList m /\ w = YList (map YTup m) else w = v
  | YDict d => exists d', w = YDict d' /\ map fst d' = map fst d
  | v => w = v
  end.
Lemma replace_wanted v : wanted v (replace_value v).
Proof.
  destruct v as [| s | z | l | l | d]; cbn [wanted replace_value]; try reflexivity.
  - change s_None with (s_ "None"). destruct (str_eqb s (s_ "None")); reflexivity.
  - destruct (forallb is_list l) eqn:E; [| reflexivity]. exists (map (fun y => match y with YList m => m | _ => [] end) l). assert (L : l = map YList (map (fun y => match y with YList m => m | _ => [] end) l)).
    { rewrite map_map. rewrite <- (map_id l) at 1. apply map_ext_in. intros y Hy. rewrite forallb_forall in E. specialize (E y Hy). destruct y; try discriminate. reflexivity. }
    split; [exact L |]. f_equal. rewrite map_map. apply map_ext_in. intros y Hy. rewrite forallb_forall in E. specialize (E y Hy). destruct y; try discriminate. reflexivity.
  - eexists. split; [reflexivity |]. rewrite map_map. reflexivity.
Qed.
(** Every value reached through dictionaries is replaced as documented, and nothing else changes *)
Theorem load_config_spec :
  forall y ks, (forall v, reach y ks v -> exists w, reach (replace y) ks w /\ wanted v w) /\ (forall w, reach (replace y) ks w -> exists v, reach y ks v /\ wanted v w).
Proof.
  assert (F : forall y ks v, reach y ks v -> reach (replace y) ks (replace_value v) /\ reach (replace_value y) ks (replace_value v)).
  { intros y ks v H. induction H as [d k v H | d k v ks w H R [IH1 IH2]]; cbn [replace].
    - assert (I : In (k, replace_value v) (map (fun kv => (fst kv, replace_value (snd kv))) d)) by (apply in_map_iff; exists (k, v); auto). cbn [replace_value]. split; apply r_here, I.
    - assert (I : In (k, replace_value v) (map (fun kv => (fst kv, replace_value (snd kv))) d)) by (apply in_map_iff; exists (k, v); auto). cbn [replace_value]. split; eapply r_in; eauto. }
  assert (B : forall ks y w, reach (replace_value y) ks w -> exists v, reach y ks v /\ w = replace_value v).
  { induction ks as [| k ks IH]; intros y w H; [inversion H |]. destruct y as [| s | z | l | l | d]; cbn [replace_value] in H; try (destruct (str_eqb s s_None)); try (destruct (forallb is_list l)); try (inversion H; fail).
    inversion H as [d0 k0 v0 I | d0 k0 v0 ks0 w0 I R]; subst.
    - apply in_map_iff in I. destruct I as ([k1 v1] & E & I). apply pair_equal_spec in E. cbn [fst snd] in E. destruct E as [-> <-]. exists v1. split; [apply r_here, I | reflexivity].
    - apply in_map_iff in I. destruct I as ([k1 v1] & E & I). apply pair_equal_spec in E. cbn [fst snd] in E. destruct E as [-> <-]. destruct (IH v1 w R) as (v & Rv & ->). exists v. split; [eapply r_in; eauto | reflexivity]. }
  intros y ks. split.
  - intros v H. exists (replace_value v). split; [apply F, H | apply replace_wanted].
  - intros w H. destruct y as [| s | z | l | l | d]; cbn [replace] in H; try (inversion H; fail). destruct (B ks (YDict d) w H) as (v & R & ->). exists v. split; [exact R | apply replace_wanted].
Qed.
(** loading what has been replaced (values without further lists of lists) changes nothing more *)
Theorem load_config_idempotent : forall y, replace (replace y) = replace y.
Proof.
  assert (G : forall n y, (fix sz y := match y with YDict d => S (fold_right (fun kv a => sz (snd kv) + a) 0 d) | _ => 1 end) y <= n -> replace_value (replace_value y) = replace_value y).
  { set (sz := fix sz y := match y with YDict d => S (fold_right (fun kv a => sz (snd kv) + a) 0 d) | _ => 1 end). induction n as [| n IH]; intros y H. destruct y; cbn in H; lia.
    destruct y as [| s | z | l | l | d]; cbn [replace_value]; try reflexivity.
    - destruct (str_eqb s s_None) eqn:E; cbn [replace_value]; [reflexivity | rewrite E; reflexivity].
    - destruct (forallb is_list l) eqn:E; cbn [replace_value]; [| rewrite E; reflexivity]. destruct l as [| x l]; [reflexivity |]. cbn [map forallb] in *. destruct x; try discriminate. reflexivity.
    - f_equal. rewrite map_map. apply map_ext_in. intros [k v] Hk. cbn [fst snd]. f_equal. apply IH. change (S (fold_right (fun kv a => sz (snd kv) + a) 0 d) <= S n) in H. clear IH.
      induction d as [| [k' v'] d IHd]; [destruct Hk |]. cbn [fold_right snd] in H. destruct Hk as [E | Hk]; [injection E as -> ->; change (sz v <= n); lia | apply IHd; [lia | exact Hk]]. }
  intros y. destruct y as [| s | z | l | l | d]; try reflexivity. cbn [replace]. change (match replace_value (YDict d) with YDict d0 => replace_value (replace_value (YDict d)) | y => y end = replace_value (YDict d)).
  rewrite (G _ (YDict d) (le_n _)). reflexivity.
Qed.
(** "All entries of 'None' --> None and all lists of lists become lists of tuples": not inside lists *)
Theorem load_config_refuted :
  (forall l k d, In (YStr (s_ "None")) l -> In (k, YList l) d -> exists l', In (k, YList l') match replace (YDict d) with YDict d' => d' | _ => [] end /\ In (YStr (s_ "None")) l') /\
  (forall l k d y, In (YDict y) l -> In (k, YList l) d -> In (k, YList l) match replace (YDict d) with YDict d' => d' | _ => [] end).
Proof.
  assert (N : forall l x k d, In x l -> is_list x = false -> In (k, YList l) d -> In (k, YList l) match replace (YDict d) with YDict d' => d' | _ => [] end).
  { intros l x k d Hx Nx Hk. cbn [replace replace_value]. apply in_map_iff. exists (k, YList l). split; [| exact Hk]. cbn [fst snd replace_value]. destruct (forallb is_list l) eqn:E; [| reflexivity]. rewrite forallb_forall in E. rewrite (E x Hx) in Nx. discriminate. }
  split; [intros l k d H1 H2; exists l; split; [apply (N l _ k d H1); [reflexivity | exact H2] | exact H1] | intros l k d y H1 H2; apply (N l _ k d H1); [reflexivity | exact H2]].
Qed.
Print Assumptions load_config_spec.
Print Assumptions load_config_idempotent.
Print Assumptions load_config_refuted.
Example load_ex : replace (YDict [(s_ "a", YStr (s_ "None")); (s_ "b", YDict [(s_ "c", YList [YList [YNum 1; YStr (s_ "None")]])])]) = YDict [(s_ "a", YNone); (s_ "b", YDict [(s_ "c", YList [YTup [YNum 1; YStr (s_ "None")]])])].
Proof. reflexivity. Qed.

(** the types of the stored arrays after a successful check, uvpspec.py:128-395 *)
Definition array_types : list (pystr * ety) :=
  map (fun p => (s_ p, EU16)) ["spw_array"; "spw_dly_array"; "spw_freq_array"]%string ++
  map (fun p => (s_ p, EI32)) ["polpair_array"; "bl_array"; "label_1_array"; "label_2_array"]%string ++
  map (fun p => (s_ p, EI64)) ["blpair_array"]%string ++
  map (fun p => (s_ p, EF64)) ["freq_array"; "dly_array"; "lst_1_array"; "lst_2_array"; "lst_avg_array"; "time_1_array"; "time_avg_array"; "channel_width"; "bl_vecs"; "telescope_location"; "scalar_array"; "OmegaP"; "OmegaPP"; "beam_freqs"]%string.
Definition window_types : list (pystr * ety) :=
  (s_ "data_array", EC128) :: map (fun p => (s_ p, EF64)) ["wgt_array"; "integration_array"; "nsample_array"; "window_function_array"; "cov_array_real"; "cov_array_imag"]%string.
Theorem check_types : forall P V K isinst astype conv ints intv truth jm (o o' : uobj P V K), casts_ok isinst astype conv -> check isinst astype conv ints intv truth jm o = (o', None) ->
  (forall p t v, In (p, t) array_types -> attr o' p = Some v -> exists a, v = VArr a /\ a_ty a = Some t) /\
  (forall p t v, In (p, t) window_types -> attr o' p = Some v -> exists d, v = VDict d /\ forall k x, In (k, x) d -> exists a, x = VArr a /\ a_ty a = Some t).
Proof.
  intros P V K isinst astype conv ints intv truth jm o o' Hc H. pose proof (proj1 (check_sound isinst astype conv ints intv truth jm o o' Hc H)) as T.
  assert (Q : Forall (fun e => memn (fst e) all_params = true /\ memn (fst e) ndarrays = true /\ expected (fst e) = snd e) array_types).
  { repeat (constructor; [repeat split; vm_compute; reflexivity |]). constructor. }
  assert (Q' : Forall (fun e => memn (fst e) all_params = true /\ memn (fst e) ndarrays = false /\ memn (fst e) dicts = true /\ expected (fst e) = snd e) window_types).
  { repeat (constructor; [repeat split; vm_compute; reflexivity |]). constructor. }
  rewrite Forall_forall in Q, Q'. split; intros p t v Hp Ha.
  - destruct (Q _ Hp) as (Q1 & Q2 & Q3). cbn [fst snd] in Q1, Q2, Q3. apply memn_In in Q1. specialize (T p v Q1 Ha). unfold well_typed, kind_of in T. rewrite Q2, Q3 in T. exact T.
  - destruct (Q' _ Hp) as (Q1 & Q2 & Q3 & Q4). cbn [fst snd] in Q1, Q2, Q3, Q4. apply memn_In in Q1. specialize (T p v Q1 Ha). unfold well_typed, kind_of in T. rewrite Q2, Q3, Q4 in T. exact T.
Qed.
Print Assumptions check_types.
Print Assumptions names_sorted.
Print Assumptions check_windows_when.
