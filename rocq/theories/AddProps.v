(** C355-C361: the arguments of the PSpecData constructor and of PSpecData.add. *)
From Coq Require Import Ascii String.
From Verif Require Import Prelude PyStr LabelModel AddModel AddSpec.
Open Scope nat_scope.

Lemma map_res_Ok {A B} (f : A -> result B) : forall l r, map_res f l = Ok r <-> Forall2 (fun x y => f x = Ok y) l r.
Proof.
  induction l as [|x l IH]; intros r; simpl; split.
  - intros E; injection E as <-; constructor.
  - intros F; inversion F; reflexivity.
  - destruct (f x) eqn:E; simpl; [|discriminate]. destruct (map_res f l) eqn:E2; simpl; [|discriminate].
    intros E3; injection E3 as <-. constructor; [exact E|]. apply IH; reflexivity.
  - intros F; inversion F; subst. rewrite H1; simpl. apply IH in H3. rewrite H3. reflexivity.
Qed.

Lemma Forall2_length {A B} (R : A -> B -> Prop) l1 l2 : Forall2 R l1 l2 -> List.length l1 = List.length l2.
Proof. induction 1; simpl; congruence. Qed.

Lemma ok_lift {A} (l : list (elem A)) : forallb (ok_elem true) l = true -> l = map lift (map el l).
Proof. induction l as [|x l IH]; [reflexivity|]. simpl. destruct x; simpl; intros E; [|rewrite <- IH by exact E; reflexivity|discriminate]. rewrite <- IH by exact E; reflexivity. Qed.
Lemma ok_objs {A} (l : list (elem A)) : forallb (ok_elem false) l = true -> l = map (@EIs A) (objs l) /\ map el l = map Some (objs l) /\ List.length (objs l) = List.length l.
Proof. induction l as [|x l IH]; [repeat split|]. simpl. destruct x; simpl; intros E; try discriminate. destruct (IH E) as (A1 & A2 & A3). rewrite A2, A3. rewrite A1 at 1. repeat split. Qed.
Lemma lift_ok {A} (l : list (option A)) : forallb (ok_elem true) (map lift l) = true.
Proof. induction l as [|[a|] l IH]; simpl; auto. Qed.
Lemma lift_el {A} (l : list (option A)) : map el (map lift l) = l.
Proof. induction l as [|[a|] l IH]; simpl; f_equal; auto. Qed.
Lemma some_lift {A} (l : list A) : map lift (map Some l) = map (@EIs A) l.
Proof. rewrite map_map. reflexivity. Qed.
Lemma EIs_ok {A} (l : list A) : forallb (ok_elem false) (map (@EIs A) l) = true.
Proof. induction l; simpl; auto. Qed.
Lemma EIs_objs {A} (l : list A) : objs (map (@EIs A) l) = l.
Proof. induction l; simpl; f_equal; auto. Qed.
Lemma repeat_lift {A} n : repeat (@ENone A) n = map lift (repeat None n).
Proof. induction n; simpl; f_equal; auto. Qed.

Section Props.
Context {D C H : Type}.
Notation entry := (entry D C).

(** four lists of one length are the columns of a list of entries *)
Lemma columns : forall (ds : list D) (ws ss : list (option D)) (cs : list (option C)), List.length ws = List.length ds -> List.length ss = List.length ds -> List.length cs = List.length ds ->
  exists es : list entry, map e_dset es = ds /\ map e_wgt es = ws /\ map e_std es = ss /\ map e_cal es = cs.
Proof.
  induction ds as [|d ds IH]; intros [|w ws] [|s ss] [|c cs] E1 E2 E3; simpl in *; try discriminate.
  - exists []. repeat split.
  - destruct (IH ws ss cs) as (es & A1 & A2 & A3 & A4); [lia..|]. exists (mke d w s c :: es). simpl. subst. repeat split.
Qed.
Lemma by_pos_inv {A} (a : arg A) l none : seq_of none a = Ok l -> forallb (ok_elem true) l = true -> by_position a (map el l) \/ (a = ANone /\ none = Ok l).
Proof.
  destruct a; simpl; intros E F; try discriminate; try (injection E as <-).
  - right; auto.
  - left. constructor.
  - left. rewrite (ok_lift l0 F) at 1. constructor.
Qed.
Lemma ok_false_true {A} (l : list (elem A)) : forallb (ok_elem false) l = true -> forallb (ok_elem true) l = true.
Proof. induction l as [|[] l IH]; simpl; intros E; try discriminate; auto. Qed.

Ltac breq := repeat match goal with
  | E : bind ?r _ = Ok _ |- _ => destruct r eqn:?; simpl in E; [|discriminate]
  | E : require ?c _ _ = Ok _ |- _ => destruct c eqn:?; simpl in E; [|discriminate]
  | E : (_ && _)%bool = true |- _ => apply andb_prop in E; destruct E
  end.

Lemma by_pos_seq {A} (a : arg A) l none : by_position a l -> seq_of none a = Ok (map lift l).
Proof. destruct 1; reflexivity. Qed.

(** the lists of a checked call are the columns of its entries *)
Definition cols (es : list entry) (ls : option (list pystr)) :=
  (map (fun e => EIs (e_dset e)) es, map lift (map e_wgt es), map lift (map e_std es), map lift (map e_cal es), ls).

Lemma to_dict_by_key {A} ks (a : arg A) l : (exists d, to_dict ks a = Ok d /\ pick d ks = Ok (map lift l)) -> by_key ks a l.
Proof.
  intros (d & E1 & E2). unfold pick in E2. destruct a; simpl in E1; try discriminate; injection E1 as <-.
  - right. split; [reflexivity|]. apply map_res_Ok in E2.
    assert (G : forall ks0, incl ks0 ks -> forall l0, Forall2 (fun k y => match dlook (map (fun k0 => (k0, @ENone A)) ks) k with Some v => Ok v | None => Err KeyError end = Ok y) ks0 (map lift l0) -> l0 = repeat None (List.length ks0)).
    { clear. induction ks0 as [|k ks0 IH]; intros I [|o l0] F; simpl in F; inversion F; subst; [reflexivity|]. simpl. f_equal; [|apply IH; [intros x Hx; apply I; right; exact Hx|assumption]].
      assert (X : forall ks1, dlook (map (fun k0 => (k0, @ENone A)) ks1) k = None \/ dlook (map (fun k0 => (k0, @ENone A)) ks1) k = Some ENone).
      { clear. induction ks1 as [|k1 ks1 IH]; simpl; [left; reflexivity|]. destruct (str_eqb k k1); auto. }
      destruct (X ks) as [E|E]; match goal with Y : match dlook _ _ with _ => _ end = _ |- _ => rewrite E in Y; [try discriminate Y; injection Y] end; destruct o; [discriminate|reflexivity]. }
    apply G; [apply incl_refl|exact E2].
  - left. exists l0. split; [reflexivity|]. apply map_res_Ok in E2.
    clear -E2. revert l E2. induction ks as [|k ks IH]; intros [|o l] F; simpl in F; inversion F; subst; constructor; [|apply IH; assumption].
    destruct (dlook l0 k); [injection H2 as ->; reflexivity|discriminate].
Qed.
Lemma str_eqb_refl s : str_eqb s s = true.
Proof. apply str_eqb_eq. reflexivity. Qed.

Lemma by_key_to_dict {A} ks (a : arg A) l : by_key ks a l -> exists d, to_dict ks a = Ok d /\ pick d ks = Ok (map lift l).
Proof.
  intros [(d & -> & F)|(-> & ->)].
  - exists d. split; [reflexivity|]. apply map_res_Ok. induction F; simpl; constructor; auto. rewrite H0. reflexivity.
  - eexists. split; [reflexivity|]. apply map_res_Ok.
    assert (G : forall ks0, incl ks0 ks -> Forall2 (fun k y => match dlook (map (fun k0 => (k0, @ENone A)) ks) k with Some v => Ok v | None => Err KeyError end = Ok y) ks0 (map lift (repeat None (List.length ks0)))).
    { induction ks0 as [|k ks0 IH]; intros I; simpl; constructor; [|apply IH; intros x Hx; apply I; right; exact Hx].
      assert (X : forall ks1, In k ks1 -> dlook (map (fun k0 => (k0, @ENone A)) ks1) k = Some ENone).
      { clear. induction ks1 as [|k1 ks1 IH]; simpl; [intros []|]. intros Hi. destruct (str_eqb k k1) eqn:E; auto. destruct Hi as [->|Hi]; auto.
        rewrite str_eqb_refl in E. discriminate. }
      rewrite X; [reflexivity|apply I; left; reflexivity]. }
    apply G, incl_refl.
Qed.
Lemma pick_length {A} (d : list (pystr * elem A)) ks l : pick d ks = Ok l -> List.length l = List.length ks.
Proof. intros E. apply map_res_Ok in E. symmetry. eapply Forall2_length; eauto. Qed.

Lemma checked_means (c : acall D C) r : checked c = Ok r <-> exists es ls, call_means c es ls /\ r = cols es ls.
Proof.
  split.
  - intros E. unfold checked in E. breq. injection E as <-.
    match goal with X : forallb (ok_elem false) ?l = true |- _ => rename l into ds; rename X into Od end.
    repeat match goal with X : Nat.eqb _ _ = true |- _ => apply Nat.eqb_eq in X end.
    destruct (ok_objs _ Od) as (G1 & G2 & G3).
    match goal with X : seq_of (Ok (repeat ENone (List.length ds))) (a_stds _) = Ok ?l |- _ => rename l into ss; rename X into Es end.
    match goal with X : seq_of (Ok [ENone]) _ = Ok ?l |- _ => rename l into ws; rename X into Ew end.
    match goal with X : seq_of _ (a_cals _) = Ok ?l |- _ => rename l into cs; rename X into Ec end.
    destruct (columns (objs ds) (map el ws) (map el ss) (map el cs)) as (es & A1 & A2 & A3 & A4); [rewrite map_length; lia..|].
    assert (Lg : List.length es = List.length ds) by (rewrite <- G3, <- A1, map_length; reflexivity).
    set (ls := match a_labels a with LNone => None | LStr s => Some [s] | LSeq l => Some l end) in *.
    assert (R : (ds, ws, ss, cs, ls) = cols es ls).
    { unfold cols. rewrite A2, A3, A4, <- !ok_lift by assumption. rewrite <- (map_map (@e_dset D C) (@EIs D)), A1, <- G1. reflexivity. }
    assert (Ds : map (fun e => Some (e_dset e)) es = map el ds) by (rewrite G2, <- A1, map_map; reflexivity).
    exists es, ls. split; [|exact R].
    destruct c as [cd cw cl cst ccal fl]. unfold unpack in Heqr0. simpl in Heqr0.
    destruct cd as [|d|t l|d|]; [injection Heqr0 as <-; cbn [a_dsets a_wgts a_labels a_stds a_cals a_flag] in *..| |injection Heqr0 as <-; cbn [a_dsets a_wgts a_labels a_stds a_cals a_flag] in *].
    1,5 : discriminate.
    1,2 : (apply means_lists; rewrite ?A2, ?A3, ?A4, ?Ds;
      [ destruct (by_pos_inv _ _ _ Heqr1 (ok_false_true _ Od)) as [P|[P _]]; [exact P|discriminate P]
      | destruct (by_pos_inv _ _ _ Ew ltac:(assumption)) as [P|[P Q]]; [left; exact P|right; split; [exact P|injection Q as <-; reflexivity]]
      | destruct (by_pos_inv _ _ _ Es ltac:(assumption)) as [P|[P Q]]; [left; exact P|right; split; [exact P|injection Q as <-; rewrite Lg, repeat_lift, lift_el; reflexivity]]
      | destruct (by_pos_inv _ _ _ Ec ltac:(assumption)) as [P|[P Q]]; [left; exact P|right; split; [exact P|injection Q as <-; rewrite Lg, repeat_lift, lift_el; reflexivity]]
      | subst ls; destruct cl; simpl in *; auto;
        repeat match goal with X : Nat.eqb _ _ = true |- _ => apply Nat.eqb_eq in X end; split; auto; simpl in *; lia ]).
    destruct cl; try discriminate. breq. injection Heqr0 as <-. simpl in *.
    injection Heqr1 as <-. injection Es as <-. injection Ew as <-. injection Ec as <-.
    subst ls. apply means_dict; rewrite ?A2, ?A3, ?A4, ?Ds; apply to_dict_by_key; eexists; (split; [first [eassumption|reflexivity]|]); rewrite <- ok_lift by (first [assumption|apply ok_false_true; assumption]); eassumption.
  - intros (es & ls & M & ->). unfold checked. destruct M as [ds ws labs ss cs fl es ls M1 M2 M3 M4 M5|d ws ss cs fl es M1 M2 M3 M4].
    + assert (U : unpack (mkac ds ws labs ss cs fl) = Ok (mkac ds ws labs ss cs fl)) by (inversion M1; reflexivity).
      rewrite U. simpl. rewrite (by_pos_seq _ _ _ M1). simpl.
      replace (seq_of (Ok [ENone]) ws) with (@Ok (list (elem D)) (map lift (map e_wgt es))) by (destruct M2 as [P|[-> P]]; [symmetry; apply by_pos_seq; exact P|simpl; rewrite P; reflexivity]).
      simpl. rewrite map_length, map_length.
      replace (seq_of (Ok (repeat ENone (List.length es))) ss) with (@Ok (list (elem D)) (map lift (map e_std es))) by (destruct M3 as [P|[-> P]]; [symmetry; apply by_pos_seq; exact P|simpl; rewrite P, repeat_lift; reflexivity]).
      simpl.
      replace (seq_of (Ok (repeat ENone (List.length es))) cs) with (@Ok (list (elem C)) (map lift (map e_cal es))) by (destruct M4 as [P|[-> P]]; [symmetry; apply by_pos_seq; exact P|simpl; rewrite P, repeat_lift; reflexivity]).
      simpl. rewrite !map_length, Nat.eqb_refl. simpl.
      unfold cols. rewrite !lift_ok, <- (map_map (fun e : entry => e_dset e) Some), some_lift, EIs_ok, map_map. simpl.
      destruct labs; simpl in *; subst; try reflexivity.
      * destruct M5 as [-> ->]. reflexivity.
      * destruct M5 as [<- ->]. rewrite Nat.eqb_refl. reflexivity.
    + apply by_key_to_dict in M1, M2, M3, M4.
      destruct M1 as (d1 & E1 & F1), M2 as (d2 & E2 & F2), M3 as (d3 & E3 & F3), M4 as (d4 & E4 & F4).
      simpl in E1. injection E1 as <-.
      unfold unpack. simpl. rewrite E2, E3, E4. simpl. rewrite F1, F2, F3, F4. simpl.
      apply pick_length in F1. rewrite !map_length in *. rewrite <- F1, !Nat.eqb_refl. simpl.
      unfold cols. rewrite !lift_ok, <- (map_map (fun e : entry => e_dset e) Some), some_lift, EIs_ok, map_map. simpl. reflexivity.
Qed.

Lemma cols_zip es : zip3 (objs (map (fun e : entry => EIs (e_dset e)) es)) (map el (map lift (map e_std es))) (map el (map lift (map e_cal es))) = map (fun e => (e_dset e, e_std e, e_cal e)) es.
Proof. rewrite !lift_el, <- (map_map (fun e : entry => e_dset e) (@EIs D)), EIs_objs. induction es; simpl; f_equal; auto. Qed.
Lemma means_unique (c : acall D C) es ls es' ls' : call_means c es ls -> call_means c es' ls' -> es = es' /\ ls = ls'.
Proof.
  intros M M'. assert (E : checked c = Ok (cols es ls)) by (apply checked_means; eauto). assert (E' : checked c = Ok (cols es' ls')) by (apply checked_means; eauto).
  rewrite E in E'. injection E' as X1 X2 X3 X4 ->. split; [|reflexivity].
  apply (f_equal objs) in X1. apply (f_equal (map el)) in X2, X3, X4. rewrite !lift_el in *.
  rewrite <- !(map_map (fun e : entry => e_dset e) (@EIs D)), !EIs_objs in X1.
  clear -X1 X2 X3 X4. revert es' X1 X2 X3 X4. induction es as [|[] es IH]; intros [|[] es'] X1 X2 X3 X4; simpl in *; try discriminate; [reflexivity|].
  injection X1 as -> X1. injection X2 as -> X2. injection X3 as -> X3. injection X4 as -> X4. f_equal; auto.
Qed.

Lemma means_labels (c : acall D C) es l : call_means c es (Some l) -> List.length l = List.length es.
Proof.
  remember (Some l) as o eqn:Eo. destruct 1 as [ds ws labs ss cs fl es ls M1 M2 M3 M4 M5|d ws ss cs fl es M1 M2 M3 M4].
  - subst. destruct labs; simpl in *; [discriminate|destruct M5 as [-> E]; injection E as ->; reflexivity|destruct M5 as [<- E]; injection E as ->; reflexivity].
  - injection Eo as <-. destruct M1 as [(d' & E & F)|(E & F)]; [|discriminate]. apply Forall2_length in F. rewrite !map_length in *. lia.
Qed.

Section World.
Context (nfreqs ntimes : D -> nat) (calib : H -> D -> C -> bool -> H * option pyerr).
Notation add_call := (add_call nfreqs ntimes calib).
Notation add_run := (add_run nfreqs ntimes calib).
Notation pspec := (pspec D).
Notation calibrate := (calibrate calib).

Lemma cal_loop_spec fl es : forall h, cal_loop calib fl h (map (fun e => (e_dset e, e_std e, e_cal e)) es) = calibrate fl h es.
Proof.
  induction es as [|e es IH]; intros h; [reflexivity|]. cbn [map cal_loop calibrate]. destruct (e_cal e) as [c|]; [|apply IH].
  unfold cal1. destruct (calib h (e_dset e) c fl) as [h' [x|]] eqn:E; destruct (e_std e) as [s|]; cbn; rewrite ?E; auto.
  destruct (calib h' s c fl) as [h'' [y|]]; auto.
Qed.

(** C355, C356: a call that means something appends its entries in order, with the labels asked for (the keys of a dict,
    or "dset" and a number), and the channel range starts over from the first dataset *)
Theorem C355_add_appends : forall (st : pspec) h c es ls h', call_means c es ls -> calibrate (a_flag c) h es = (h', None) ->
  es <> [] \/ p_dsets st <> [] ->
  exists st', add_call st h c = (st', h', None) /\
    p_dsets st' = p_dsets st ++ map e_dset es /\ p_wgts st' = p_wgts st ++ map e_wgt es /\ p_stds st' = p_stds st ++ map e_std es /\
    p_labels st' = fix_labels [] (p_labels st ++ match ls with Some l => l | None => default_labels (List.length (p_dsets st)) (List.length es) end).
Proof.
  intros st h c es ls h' M K Ne. unfold AddModel.add_call.
  assert (E : checked c = Ok (cols es ls)) by (apply checked_means; eauto). rewrite E. unfold cols. rewrite cols_zip, cal_loop_spec, K.
  rewrite <- (map_map (fun e : entry => e_dset e) (@EIs D)), EIs_objs, !lift_el, !map_length.
  destruct (p_dsets st ++ map e_dset es) as [|d0 dl] eqn:Ed.
  - exfalso. apply app_eq_nil in Ed. destruct Ed as [A1 A2]. apply map_eq_nil in A2. tauto.
  - eexists. split; [reflexivity|]. simpl. rewrite <- Ed. repeat split.
Qed.
(** ... and it is so for every call that is not refused *)
Theorem C355_accepted_only : forall (st : pspec) h c st' h', add_call st h c = (st', h', None) ->
  exists es ls, call_means c es ls /\ calibrate (a_flag c) h es = (h', None) /\ (es <> [] \/ p_dsets st <> []).
Proof.
  intros st h c st' h' E. unfold AddModel.add_call in E. destruct (checked c) as [r|e] eqn:Ec; [|discriminate].
  apply checked_means in Ec. destruct Ec as (es & ls & M & ->). unfold cols in E. rewrite cols_zip, cal_loop_spec in E.
  rewrite <- (map_map (fun e : entry => e_dset e) (@EIs D)), EIs_objs in E.
  exists es, ls. split; [exact M|]. destruct (calibrate (a_flag c) h es) as [h1 [e|]]; [discriminate|].
  destruct (p_dsets st ++ map e_dset es) as [|d0 dl] eqn:Ed; [discriminate|]. injection E as _ <-. split; [reflexivity|].
  destruct es; [right|left; discriminate]. intros Z; rewrite Z in Ed; discriminate.
Qed.

(** a call is accepted exactly when it means something, no calibration raises, and there is a dataset in the end *)
Theorem C355_accepted_iff : forall (st : pspec) h c, (exists st' h', add_call st h c = (st', h', None)) <->
  exists es ls h', call_means c es ls /\ calibrate (a_flag c) h es = (h', None) /\ (es <> [] \/ p_dsets st <> []).
Proof.
  intros st h c. split.
  - intros (st' & h' & E). destruct (C355_accepted_only _ _ _ _ _ E) as (es & ls & X). exists es, ls, h'. exact X.
  - intros (es & ls & h' & M & K & Ne). destruct (C355_add_appends _ _ _ _ _ _ M K Ne) as (st' & E & _). eauto.
Qed.

(** a refused call leaves the object as it was; the contents of the datasets are as they were too, unless a calibration raised *)
Theorem C357_refused_changes_nothing : forall (st : pspec) h c st' h' e, aligned st ->
  add_call st h c = (st', h', Some e) ->
  st' = st /\ (h' = h \/ exists es ls, call_means c es ls /\ calibrate (a_flag c) h es = (h', Some e)).
Proof.
  intros st h c st' h' e (W1 & W2 & L) E. unfold AddModel.add_call in E. destruct (checked c) as [r|e0] eqn:Ec; [|injection E as <- <- _; auto].
  pose proof Ec as Ec'. apply checked_means in Ec. destruct Ec as (es & ls & M & ->). unfold cols in E. rewrite cols_zip, cal_loop_spec in E.
  rewrite <- (map_map (fun e : entry => e_dset e) (@EIs D)), EIs_objs, !lift_el in E.
  destruct (calibrate (a_flag c) h es) as [h1 [e1|]] eqn:K.
  - injection E as <- <- <-. split; [reflexivity|]. right. eauto.
  - destruct (p_dsets st ++ map e_dset es) as [|d0 dl] eqn:Ed; [|discriminate]. injection E as <- <- _.
    apply app_eq_nil in Ed. destruct Ed as [A1 A2]. apply map_eq_nil in A2. subst es. simpl in K. injection K as <-. split; [|left; reflexivity].
    rewrite A1 in L, W1, W2. destruct st as [d w s l n t sp f m]. cbn [p_dsets p_wgts p_stds p_labels p_Nfreqs p_Ntimes p_spw p_spwNfreqs p_Ndlys List.length] in *. subst.
    destruct l, w, s; try discriminate.
    assert (Z : match ls with Some l => l | None => [] end = []).
    { destruct ls as [l|]; [|reflexivity]. apply means_labels in M. destruct l; [reflexivity|discriminate]. }
    destruct ls as [l0|]; [rewrite Z|]; reflexivity.
Qed.

Lemma fix_length rest : forall done, List.length (fix_labels done rest) = List.length done + List.length rest.
Proof. induction rest as [|l r IH]; intros done; cbn [fix_labels List.length]; [lia|]. rewrite IH, app_length. cbn [List.length]. lia. Qed.
Lemma add_step (st : pspec) h c st' h' r : aligned st -> add_call st h c = (st', h', r) ->
  aligned st' /\
  ((r = None /\ exists es ls, call_means c es ls /\ p_dsets st' = p_dsets st ++ map e_dset es /\ p_wgts st' = p_wgts st ++ map e_wgt es /\ p_stds st' = p_stds st ++ map e_std es) \/ (r <> None /\ st' = st)).
Proof.
  intros (A1 & A2 & A3) E. destruct r as [e|].
  - assert (st' = st) as ->.
    { eapply C357_refused_changes_nothing; [|exact E]. repeat split; assumption. }
    split; [repeat split; assumption|right; split; [discriminate|reflexivity]].
  - destruct (C355_accepted_only _ _ _ _ _ E) as (es & ls & M & K & Ne).
    destruct (C355_add_appends _ _ _ _ _ _ M K Ne) as (st1 & E1 & B1 & B2 & B3 & B4). rewrite E in E1. injection E1 as <-.
    split; [|left; split; [reflexivity|exists es, ls; auto]].
    unfold aligned. rewrite B1, B2, B3, B4, fix_length, !app_length, !map_length. cbn [List.length]. repeat split; try lia.
    destruct ls as [l|]; [rewrite (means_labels _ _ _ M)|unfold default_labels; rewrite map_length, seq_length]; lia.
Qed.

(** the calls of a history that were not refused *)
Fixpoint accepted (st : pspec) (h : H) (cs : list (acall D C)) : list (acall D C) :=
  match cs with
  | [] => []
  | c :: cs' => match add_call st h c with (st', h', None) => c :: accepted st' h' cs' | (st', h', Some _) => accepted st' h' cs' end
  end.

Lemma run_cons (st : pspec) h c cs : add_run st h (c :: cs) = let '(s, h', _) := add_call st h c in add_run s h' cs.
Proof. unfold AddModel.add_run. simpl. destruct (add_call st h c) as [[s h'] r]. reflexivity. Qed.

(** C355: after any history of calls, the datasets, weights, error sets and labels are lists of one length, and they are
    the entries of the accepted calls, in order *)
Theorem C355_history : forall (cs : list (acall D C)) (st : pspec) h, aligned st ->
  aligned (fst (add_run st h cs)) /\
  exists ess, Forall2 (fun c es => exists ls, call_means c es ls) (accepted st h cs) ess /\
    p_dsets (fst (add_run st h cs)) = p_dsets st ++ map e_dset (concat ess) /\
    p_wgts (fst (add_run st h cs)) = p_wgts st ++ map e_wgt (concat ess) /\
    p_stds (fst (add_run st h cs)) = p_stds st ++ map e_std (concat ess).
Proof.
  induction cs as [|c cs IH]; intros st h A.
  - split; [exact A|]. exists []. simpl. rewrite !app_nil_r. repeat split; constructor.
  - rewrite run_cons. cbn [accepted]. destruct (add_call st h c) as [[s h'] r] eqn:E.
    destruct (add_step _ _ _ _ _ _ A E) as (A' & Cs). destruct (IH s h' A') as (B1 & ess & B2 & B3 & B4 & B5). split; [exact B1|].
    destruct Cs as [(-> & es & ls & M & D1 & D2 & D3)|(N & ->)].
    + exists (es :: ess). split; [constructor; [exists ls; exact M|exact B2]|]. simpl. rewrite B3, B4, B5, D1, D2, D3, !map_app, !app_assoc. repeat split.
    + destruct r as [e|]; [|contradiction N; reflexivity]. exists ess. auto.
Qed.

(** C356: a dict is the lists of its values under its keys, which become the labels *)
Theorem C356_dict_is_lists : forall (st : pspec) h d ws ss cs fl (es : list entry),
  by_key (map fst d) (ADict d) (map (fun e => Some (e_dset e)) es) -> by_key (map fst d) ws (map e_wgt es) ->
  by_key (map fst d) ss (map e_std es) -> by_key (map fst d) cs (map e_cal es) ->
  add_call st h (mkac (ADict d) ws LNone ss cs fl) =
  add_call st h (mkac (ASeq false (map (fun e => EIs (e_dset e)) es)) (ASeq false (map lift (map e_wgt es))) (LSeq (map fst d))
                      (ASeq false (map lift (map e_std es))) (ASeq false (map lift (map e_cal es))) fl).
Proof.
  intros st h d ws ss cs fl es M1 M2 M3 M4.
  assert (M : call_means (mkac (ADict d) ws LNone ss cs fl) es (Some (map fst d))) by (constructor; assumption).
  assert (M' : call_means (mkac (ASeq false (map (fun e => EIs (e_dset e)) es)) (ASeq false (map lift (map e_wgt es))) (LSeq (map fst d))
                      (ASeq false (map lift (map e_std es))) (ASeq false (map lift (map e_cal es))) fl) es (Some (map fst d))).
  { constructor; try (left; constructor).
    - rewrite <- (map_map (fun e : entry => e_dset e) (@EIs D)), <- some_lift, (map_map (fun e : entry => e_dset e) Some). constructor.
    - simpl. split; [|reflexivity]. eapply means_labels. exact M. }
  assert (E : checked (mkac (ADict d) ws LNone ss cs fl) = Ok (cols es (Some (map fst d)))) by (apply checked_means; eauto).
  assert (E' : checked (mkac (ASeq false (map (fun e => EIs (e_dset e)) es)) (ASeq false (map lift (map e_wgt es))) (LSeq (map fst d))
                      (ASeq false (map lift (map e_std es))) (ASeq false (map lift (map e_cal es))) fl) = Ok (cols es (Some (map fst d)))) by (apply checked_means; eauto).
  unfold AddModel.add_call. rewrite E, E'. reflexivity.
Qed.

(** C358: the channel range starts over with every accepted call: all channels of the first dataset, whatever was set before *)
Theorem C358_add_resets_range : forall (st : pspec) h c st' h', add_call st h c = (st', h', None) ->
  exists d0 rest, p_dsets st' = d0 :: rest /\ p_spw st' = Some (0, nfreqs d0) /\ p_spwNfreqs st' = Some (nfreqs d0) /\ p_Ndlys st' = Some (nfreqs d0) /\
    p_Nfreqs st' = Some (nfreqs d0) /\ p_Ntimes st' = Some (ntimes d0) /\ (forall d1 r1, p_dsets st = d1 :: r1 -> d1 = d0).
Proof.
  intros st h c st' h' E. destruct (C355_accepted_only _ _ _ _ _ E) as (es & ls & M & K & Ne).
  unfold AddModel.add_call in E. assert (Ec : checked c = Ok (cols es ls)) by (apply checked_means; eauto). rewrite Ec in E. unfold cols in E.
  rewrite cols_zip, cal_loop_spec, K, <- (map_map (fun e : entry => e_dset e) (@EIs D)), EIs_objs in E.
  destruct (p_dsets st ++ map e_dset es) as [|d0 dl] eqn:Ed; [discriminate|]. injection E as <-. exists d0, dl.
  cbn [p_dsets p_spw p_spwNfreqs p_Ndlys p_Nfreqs p_Ntimes]. repeat split. intros d1 r1 Es. rewrite Es in Ed. injection Ed as ->. reflexivity.
Qed.
End World.
End Props.
