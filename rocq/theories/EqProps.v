(** Equality of UVPSpec objects. *)
From Coq Require Import String Ascii QArith Qabs Lqa.
From Verif Require Import PyDict PyStr H5Model H5Proofs EqModel.
From Verif Require Import Prelude.
Open Scope nat_scope.
Strategy 1000 [declared all_params meta_dsets dicts dicts_of_dicts req_params ndarrays immutables].

Definition finite (l : list num) : Prop := forall x, In x l -> x <> None.
(** the value has the type the class declares for the parameter, and no NaN *)
Definition fits (p : pystr) (v : val) : Prop :=
  match v with
  | VImm _ => In p immutables
  | VArr l => In p ndarrays /\ ~ In p immutables /\ finite l
  | VStr _ => In p ndarrays /\ ~ In p immutables
  | VDict d => ~ In p immutables /\ ~ In p ndarrays /\ NoDup (map fst d) /\ forall i l, In (i, l) d -> finite l
  end.
Definition well_formed (o : uobj) : Prop :=
  (forall p v, In p all_params -> attr o p = Some v -> fits p v) /\ (forall p, In p req_params -> In p all_params -> attr o p <> None).

Lemma isclose_refl x : x <> None -> isclose x x = true.
Proof.
  destruct x as [q|]; [|congruence]. intros _. unfold isclose. apply Qle_bool_iff.
  assert (E : (q - q == 0)%Q) by ring. rewrite E. change (Qabs 0) with 0%Q. pose proof (Qabs_nonneg q). lra.
Qed.
Lemma all2_refl {A} (f : A -> A -> bool) l : (forall x, In x l -> f x x = true) -> all2 f l l = Ok true.
Proof.
  intros H. unfold all2. rewrite Nat.eqb_refl. f_equal. apply forallb_forall. intros [x y] I.
  assert (x = y /\ In x l) as [<- J]; [|apply H, J]. clear H. induction l as [|z l IH]; [destruct I|].
  simpl in I. destruct I as [E|I]; [injection E as <- <-; split; [reflexivity|left; reflexivity]|]. destruct (IH I). split; [assumption|right; assumption].
Qed.
Lemma py_and_true a b : py_and a b = Ok true <-> a = Ok true /\ b = Ok true.
Proof. unfold py_and. destruct a as [[]|]; simpl; intuition congruence. Qed.
Lemma eq_obj_true ps a b : eq_obj ps a b = Ok true <-> forall p, In p ps -> eq_param a b p = Ok true.
Proof.
  unfold eq_obj. induction ps as [|p ps IH]; simpl; [intuition|]. rewrite py_and_true, IH. split.
  - intros [H1 H2] q [<-|H]; auto.
  - intros H. split; [apply H; left; reflexivity|intros; apply H; right; assumption].
Qed.
Lemma dict_fold_true (u v : list (nat * list num)) :
  fold_right (fun iw acc => py_and (match dget Nat.eq_dec v (fst iw) with None => Err KeyError | Some w' => all2 isclose (snd iw) w' end) acc) (Ok true) u = Ok true <->
  forall i w, In (i, w) u -> exists w', dget Nat.eq_dec v i = Some w' /\ all2 isclose w w' = Ok true.
Proof.
  induction u as [|[i w] u IH]; simpl; [intuition|]. rewrite py_and_true, IH. split.
  - intros [H1 H2] j x [E|H]; [injection E as <- <-|apply H2, H]. destruct (dget Nat.eq_dec v i) as [w'|]; [|discriminate]. eauto.
  - intros H. split; [|intros; apply H; right; assumption]. destruct (H i w (or_introl eq_refl)) as (w' & -> & E). exact E.
Qed.

(** an object without NaN equals itself *)
Theorem eq_reflexive : forall o, well_formed o -> py_eq o o = Ok true.
Proof.
  intros o [F R]. apply eq_obj_true. intros p Hp. unfold eq_param. destruct (attr o p) as [v|] eqn:E.
  - specialize (F p v Hp E). destruct v as [z|l|l|d]; cbn [fits] in F.
    + apply memn_In in F. rewrite F. rewrite Z.eqb_refl. reflexivity.
    + destruct F as (F1 & F2 & F3). apply memn_In in F1. apply memn_false in F2. rewrite F1, F2. apply all2_refl. intros x Hx. apply isclose_refl, F3, Hx.
    + destruct F as (F1 & F2). apply memn_In in F1. apply memn_false in F2. rewrite F1, F2. apply all2_refl. intros x _. apply str_eqb_eq. reflexivity.
    + destruct F as (F1 & F2 & N & F3). apply memn_false in F1, F2. rewrite F1, F2. destruct (memn p dicts); [|reflexivity].
      assert (G : forall i w, In (i, w) d -> exists w', dget Nat.eq_dec d i = Some w' /\ all2 isclose w w' = Ok true).
      { intros i w H. exists w. split; [apply In_dget; assumption|]. apply all2_refl. intros x Hx. apply isclose_refl, (F3 i w H), Hx. }
      apply dict_fold_true in G. destruct d; exact G.
  - destruct (memn p req_params) eqn:M; [|reflexivity]. apply memn_In in M. exfalso. apply (R p M Hp E).
Qed.
Print Assumptions eq_reflexive.

(** what equality says: parameters of the same length agree within the tolerances *)
Definition close (x y : num) : Prop :=
  exists a b, x = Some a /\ y = Some b /\ (Qabs (a - b) <= (1 # 100000000) + (1 # 100000) * Qabs b)%Q.
Lemma isclose_close x y : isclose x y = true <-> close x y.
Proof.
  unfold close. destruct x as [a|], y as [b|]; simpl; try (split; [discriminate|intros (a' & b' & E1 & E2 & _); discriminate]).
  rewrite Qle_bool_iff. split; [eauto|]. intros (a' & b' & E1 & E2 & H). injection E1 as ->. injection E2 as ->. exact H.
Qed.
Lemma all2_nth {A} (f : A -> A -> bool) l m : all2 f l m = Ok true -> length l = length m ->
  forall k x y, nth_error l k = Some x -> nth_error m k = Some y -> f x y = true.
Proof.
  unfold all2. intros E L. rewrite L, Nat.eqb_refl in E. injection E as E. revert m L E.
  induction l as [|u l IH]; intros [|v m] L E k x y; try discriminate; destruct k; simpl; try discriminate.
  - intros H1 H2. injection H1 as <-. injection H2 as <-. simpl in E. apply andb_true_iff in E. apply E.
  - apply (IH m); [simpl in L; lia|]. simpl in E. apply andb_true_iff in E. apply E.
Qed.
Theorem eq_within_tolerance : forall a b, py_eq a b = Ok true ->
  (forall p u v, In p all_params -> In p immutables -> attr a p = Some (VImm u) -> attr b p = Some (VImm v) -> u = v) /\
  (forall p u v, In p all_params -> In p ndarrays -> ~ In p immutables -> attr a p = Some (VArr u) -> attr b p = Some (VArr v) -> length u = length v ->
     forall k x y, nth_error u k = Some x -> nth_error v k = Some y -> close x y) /\
  (forall p u v, In p all_params -> In p ndarrays -> ~ In p immutables -> attr a p = Some (VStr u) -> attr b p = Some (VStr v) -> length u = length v ->
     forall k x y, nth_error u k = Some x -> nth_error v k = Some y -> x = y) /\
  (forall p u v, In p all_params -> In p dicts -> ~ In p ndarrays -> ~ In p immutables -> attr a p = Some (VDict u) -> attr b p = Some (VDict v) ->
     forall i w, In (i, w) u -> exists w', dget Nat.eq_dec v i = Some w' /\
       (length w = length w' -> forall k x y, nth_error w k = Some x -> nth_error w' k = Some y -> close x y)).
Proof.
  intros a b E. unfold py_eq in E. pose proof (proj1 (eq_obj_true all_params a b) E) as H. clear E. split; [|split; [|split]].
  - intros p u v P I A B. specialize (H p P). unfold eq_param in H. rewrite A, B in H. apply memn_In in I. rewrite I in H.
    injection H as H. apply Z.eqb_eq, H.
  - intros p u v P I NI A B L k x y X Y. specialize (H p P). unfold eq_param in H. rewrite A, B in H. apply memn_In in I. apply memn_false in NI. rewrite I, NI in H.
    apply isclose_close. eapply all2_nth; eassumption.
  - intros p u v P I NI A B L k x y X Y. specialize (H p P). unfold eq_param in H. rewrite A, B in H. apply memn_In in I. apply memn_false in NI. rewrite I, NI in H.
    apply str_eqb_eq. eapply all2_nth; eassumption.
  - intros p u v P D ND NI A B i w W. specialize (H p P). unfold eq_param in H. rewrite A, B in H. apply memn_In in D. apply memn_false in ND, NI. rewrite D, ND, NI in H.
    assert (H' : fold_right (fun iw acc => py_and (match dget Nat.eq_dec v (fst iw) with None => Err KeyError | Some w' => all2 isclose (snd iw) w' end) acc) (Ok true) u = Ok true) by (destruct u; exact H).
    pose proof (proj1 (dict_fold_true u v) H' i w W) as (w' & G & E). exists w'. split; [exact G|]. intros L k x y X Y. apply isclose_close. eapply all2_nth; eassumption.
Qed.
Print Assumptions eq_within_tolerance.
(** ... an array with a single entry is compared with every entry of the other, and other lengths that differ are an error *)
Theorem eq_broadcast : forall a b p, In p all_params -> In p ndarrays -> ~ In p immutables -> py_eq a b = Ok true ->
  (forall x v, attr a p = Some (VArr [x]) -> attr b p = Some (VArr v) -> forall y, In y v -> close x y) /\
  (forall u y, attr a p = Some (VArr u) -> attr b p = Some (VArr [y]) -> forall x, In x u -> close x y) /\
  (forall u v, attr a p = Some (VArr u) -> attr b p = Some (VArr v) -> length u = length v \/ length u = 1 \/ length v = 1).
Proof.
  intros a b p P I NI E. unfold py_eq in E. pose proof (proj1 (eq_obj_true all_params a b) E p P) as H. clear E. unfold eq_param in H.
  apply memn_In in I. apply memn_false in NI. rewrite I, NI in H. split; [|split].
  - intros x v A B y Y. rewrite A, B in H. apply isclose_close. unfold all2 in H. destruct v as [|y1 [|y2 v]]; [destruct Y|..]; simpl in H; injection H as H.
    + destruct Y as [<-|[]]. apply andb_true_iff in H. apply H.
    + rewrite !andb_true_iff in H. destruct H as (H1 & H2 & H3). rewrite forallb_forall in H3. destruct Y as [<-|[<-|Y]]; auto.
  - intros u y A B x X. rewrite A, B in H. apply isclose_close. unfold all2 in H. destruct u as [|x1 [|x2 u]]; [destruct X|..]; simpl in H; injection H as H.
    + destruct X as [<-|[]]. apply andb_true_iff in H. apply H.
    + rewrite !andb_true_iff in H. destruct H as (H1 & H2 & H3). rewrite forallb_forall in H3. destruct X as [<-|[<-|X]]; auto.
  - intros u v A B. rewrite A, B in H. unfold all2 in H. destruct (Nat.eqb_spec (length u) (length v)) as [L|L]; [left; exact L|right].
    clear P I NI A B. destruct u as [|x1 [|x2 u]], v as [|y1 [|y2 v]]; simpl in L; try discriminate H; simpl; auto; congruence.
Qed.
Print Assumptions eq_broadcast.
(** the parameters the previous theorem speaks about *)
Theorem compared_parameters : forall p, In p req_params -> p <> s_ "symmetric_taper" -> p <> s_ "time_2_array" -> In p all_params /\ (In p immutables \/ In p ndarrays \/ In p dicts).
Proof.
  intros p H N1 N2. assert (F : forallb (fun p => str_eqb p (s_ "symmetric_taper") || str_eqb p (s_ "time_2_array") || (memn p all_params && (memn p immutables || memn p ndarrays || memn p dicts))) req_params = true) by (vm_compute; reflexivity).
  rewrite forallb_forall in F. specialize (F p H). rewrite !orb_true_iff, andb_true_iff, !orb_true_iff, !memn_In, !str_eqb_eq in F. tauto.
Qed.
Print Assumptions compared_parameters.

(** ** what equality does not say *)
(** a valid object with given values of some parameters and 0 / [1] for the other required ones *)
Definition default (p : pystr) : val :=
  if memn p immutables then VImm 0 else if memn p ndarrays then VArr [Some 1%Q] else VDict [(0, [Some 1%Q])].
Definition base_obj (over : uobj) : uobj := over ++ map (fun p => (p, default p)) (filter (fun p => memn p all_params) req_params).
Definition b_time := s_ "time_1_array".
Definition b_data := s_ "data_array".

(** Julian dates twenty days apart are "close" *)
Theorem eq_distinguishes_nights_refuted :
  exists a b, py_eq a b = Ok true /\ attr a b_time = Some (VArr [Some (2458000 # 1)%Q]) /\ attr b b_time = Some (VArr [Some (2458020 # 1)%Q]).
Proof.
  exists (base_obj [(b_time, VArr [Some (2458000 # 1)%Q])]), (base_obj [(b_time, VArr [Some (2458020 # 1)%Q])]).
  split; [vm_compute; reflexivity|split; vm_compute; reflexivity].
Qed.
Print Assumptions eq_distinguishes_nights_refuted.
Theorem eq_symmetric_refuted : exists a b, py_eq a b = Ok true /\ py_eq b a = Ok false.
Proof.
  exists (base_obj [(b_data, VDict [(0, [Some (100000 # 1)%Q])])]), (base_obj [(b_data, VDict [(0, [Some (10000100001 # 100000)%Q])])]).
  split; vm_compute; reflexivity.
Qed.
(** a window that only the right object has is not looked at; one that only the left has is an error *)
Theorem eq_same_windows_refuted : exists a b, py_eq a b = Ok true /\ py_eq b a = Err KeyError.
Proof.
  exists (base_obj [(b_data, VDict [(0, [Some 1%Q])])]), (base_obj [(b_data, VDict [(0, [Some 1%Q]); (1, [Some 2%Q])])]).
  split; vm_compute; reflexivity.
Qed.
(** an optional parameter in only one object is an error, not a difference *)
Theorem eq_total_refuted : exists a b, py_eq a b = Err AttributeError /\ py_eq a a = Ok true /\ py_eq b b = Ok true.
Proof. exists (base_obj []), (base_obj [(s_ "OmegaP", VArr [Some 1%Q])]). split; [|split]; vm_compute; reflexivity. Qed.
(** the second times, the symmetric taper and all statistics are never compared *)
Theorem eq_sees_parameter_refuted : forall p, In p [s_ "time_2_array"; s_ "symmetric_taper"; s_ "stats_array"] ->
  exists a b, py_eq a b = Ok true /\ attr a p = Some (VArr [Some 1%Q]) /\ attr b p = Some (VArr [Some 2%Q]).
Proof.
  intros p H. exists (base_obj [(p, VArr [Some 1%Q])]), (base_obj [(p, VArr [Some 2%Q])]).
  repeat (destruct H as [<-|H]; [split; [vm_compute; reflexivity|split; vm_compute; reflexivity]|]). destruct H.
Qed.
(** arrays of length 1 are broadcast *)
Theorem eq_same_shape_refuted : exists a b, py_eq a b = Ok true /\ attr a b_time = Some (VArr [Some 1%Q]) /\ attr b b_time = Some (VArr [Some 1%Q; Some 1%Q]).
Proof.
  exists (base_obj []), (base_obj [(b_time, VArr [Some 1%Q; Some 1%Q])]). split; [vm_compute; reflexivity|split; vm_compute; reflexivity].
Qed.
Theorem eq_nan_refuted : exists a, py_eq a a = Ok false.
Proof. exists (base_obj [(b_data, VDict [(0, [None])])]). vm_compute. reflexivity. Qed.
Print Assumptions eq_symmetric_refuted.
Print Assumptions eq_same_windows_refuted.
Print Assumptions eq_total_refuted.
Print Assumptions eq_sees_parameter_refuted.
Print Assumptions eq_same_shape_refuted.
Print Assumptions eq_nan_refuted.
Example eq_example : py_eq (base_obj [(b_data, VDict [(0, [Some 2%Q])])]) (base_obj [(b_data, VDict [(0, [Some 3%Q])])]) = Ok false.
Proof. vm_compute. reflexivity. Qed.
Example well_formed_example : well_formed (base_obj []).
Proof.
  assert (F : forallb (fun p => match attr (base_obj []) p with None => negb (memn p req_params) | Some (VImm _) => memn p immutables
     | Some (VArr [Some _]) => memn p ndarrays && negb (memn p immutables) | Some (VDict [(_, [Some _])]) => negb (memn p immutables) && negb (memn p ndarrays) | _ => false end) all_params = true) by (vm_compute; reflexivity).
  rewrite forallb_forall in F. split.
  - intros p v Hp E. specialize (F p Hp). rewrite E in F. destruct v as [z|l|l|d]; [apply memn_In, F| |discriminate|].
    + destruct l as [|[q|] [|? ?]]; try discriminate. apply andb_true_iff in F as [F1 F2]. apply memn_In in F1. apply negb_true_iff, memn_false in F2.
      split; [exact F1|]. split; [exact F2|]. intros x [<-|[]]. discriminate.
    + destruct d as [|[i [|[q|] [|? ?]]] [|? ?]]; try discriminate. apply andb_true_iff in F as [F1 F2]. apply negb_true_iff, memn_false in F1, F2.
      split; [exact F1|]. split; [exact F2|]. split; [repeat constructor; intros []|]. intros j l [H|[]]. injection H as <- <-. intros x [<-|[]]. discriminate.
  - intros p R Hp E. specialize (F p Hp). rewrite E in F. apply memn_In in R. rewrite R in F. discriminate.
Qed.
(** a compared parameter that both objects lack is an error when it is required, and is not when it is optional *)
Theorem eq_missing_in_both : forall a b p, attr a p = None -> attr b p = None ->
  (In p req_params -> (In p immutables \/ In p ndarrays \/ In p dicts) -> eq_param a b p = Err AttributeError) /\
  (~ In p req_params -> eq_param a b p = Ok true).
Proof.
  intros a b p A B. unfold eq_param. rewrite A, B. split.
  - intros R K. apply memn_In in R. rewrite R. assert (E : (memn p immutables || memn p ndarrays || memn p dicts)%bool = true).
    { rewrite !orb_true_iff, !memn_In. tauto. }
    rewrite E. reflexivity.
  - intros N. destruct (memn p req_params) eqn:E; [apply memn_In in E; contradiction | reflexivity].
Qed.
(** so that comparing two objects both without data fails *)
Corollary eq_needs_data : forall a b, (forall p, In p all_params -> p <> s_ "data_array" -> eq_param a b p = Ok true) -> attr a (s_ "data_array") = None -> attr b (s_ "data_array") = None ->
  exists e, py_eq a b = Err e.
Proof.
  intros a b H A B. exists AttributeError. unfold py_eq.
  assert (D : eq_param a b (s_ "data_array") = Err AttributeError).
  { apply eq_missing_in_both; [assumption .. | |]; [| right; right]; apply memn_In; vm_compute; reflexivity. }
  assert (G : forall ps, (forall p, In p ps -> In p all_params) -> In (s_ "data_array") ps -> eq_obj ps a b = Err AttributeError).
  { induction ps as [| p ps IH]; intros S I; [destruct I |]. cbn [eq_obj fold_right]. destruct (list_eq_dec Ascii.ascii_dec p (s_ "data_array")) as [-> | N].
    - rewrite D. reflexivity.
    - rewrite (H p (S p (or_introl eq_refl)) N). cbn [py_and bind]. apply IH; [intros q Q; apply S; right; exact Q |]. destruct I as [I | I]; [contradiction | exact I]. }
  apply G; [tauto |]. apply memn_In. vm_compute. reflexivity.
Qed.
Print Assumptions eq_missing_in_both. Print Assumptions eq_needs_data.
