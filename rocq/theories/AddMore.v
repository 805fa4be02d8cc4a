(** C28, C357-C361: labels of full calls of [add], missing weights, error sets of the constructor, calibrations, and
    dataset indices. *)
From Coq Require Import Ascii String.
From Verif Require Import Prelude PyStr LabelModel LabelProofs LabelProps AddModel AddSpec AddProps.
Open Scope nat_scope.

Section More.
Context {D C H : Type} (nfreqs ntimes : D -> nat) (calib : H -> D -> C -> bool -> H * option pyerr).
Notation add_call := (@add_call D C H nfreqs ntimes calib).
Notation add_run := (@add_run D C H nfreqs ntimes calib).
Notation construct := (@construct D C H nfreqs ntimes calib).
Notation entry := (entry D C).

Lemma aligned_empty : aligned (@p_empty D).
Proof. repeat split. Qed.

(** the datasets and labels of a history of full calls are those of a history of the label model: C28 holds of them *)
Lemma label_history : forall (cs : list (acall D C)) (st : pspec D) h, aligned st ->
  exists calls, Forall2 (fun c (k : list D * option (list pystr)) => exists es, call_means c es (snd k) /\ fst k = map e_dset es) (accepted nfreqs ntimes calib st h cs) calls /\
    mkpd (p_dsets (fst (add_run st h cs))) (p_labels (fst (add_run st h cs))) = add_all (mkpd (p_dsets st) (p_labels st)) calls.
Proof.
  induction cs as [|c cs IH]; intros st h A.
  - exists []. split; [constructor|reflexivity].
  - rewrite run_cons. cbn [accepted]. destruct (add_call st h c) as [[s h'] r] eqn:E.
    destruct (add_step _ _ _ _ _ _ _ _ _ A E) as (A' & _). destruct (IH s h' A') as (calls & F & Q). destruct r as [e|].
    + assert (s = st) as -> by (eapply C357_refused_changes_nothing; eassumption). exists calls. split; [exact F|exact Q].
    + destruct (C355_accepted_only _ _ _ _ _ _ _ _ E) as (es & ls & M & K & Ne).
      destruct (C355_add_appends nfreqs ntimes calib st h c es ls h' M K Ne) as (st1 & E1 & B1 & _ & _ & B4). rewrite E in E1. injection E1 as <-.
      exists ((map e_dset es, ls) :: calls). split; [constructor; [exists es; auto|exact F]|].
      rewrite Q. unfold add_all. cbn [fold_left fst snd]. f_equal. unfold add. cbn [dsets labels].
      assert (G : Nat.eqb (List.length (map e_dset es)) (List.length (match ls with Some l => l | None => default_labels (List.length (p_dsets st)) (List.length (map e_dset es)) end)) = true).
      { apply Nat.eqb_eq. rewrite map_length. destruct ls as [l|]; [rewrite (means_labels c es l M); reflexivity|unfold default_labels; rewrite map_length, seq_length; reflexivity]. }
      unfold require. rewrite G, B1, B4, map_length. reflexivity.
Qed.
(** C28 of full calls: after any history that leaves fewer than 100000 datasets in the object, the labels are pairwise
    distinct, and there is one per dataset *)
Theorem C28_full_unique : forall (cs : list (acall D C)) h, List.length (p_dsets (fst (add_run p_empty h cs))) <= Z.to_nat 99999 ->
  NoDup (p_labels (fst (add_run p_empty h cs))) /\ List.length (p_labels (fst (add_run p_empty h cs))) = List.length (p_dsets (fst (add_run p_empty h cs))).
Proof.
  intros cs h B. destruct (C355_history nfreqs ntimes calib cs p_empty h aligned_empty) as ((_ & _ & L) & _).
  split; [|exact L]. destruct (label_history cs p_empty h aligned_empty) as (calls & F & Q).
  change (mkpd (p_dsets p_empty) (p_labels (@p_empty D))) with (@pd_init D) in Q.
  assert (O : offered calls = List.length (dsets (add_all (@pd_init D) calls))).
  { assert (G : forall calls accs (s : pd D), Forall2 (fun c (k : list D * option (list pystr)) => exists es : list entry, call_means c es (snd k) /\ fst k = map e_dset es) accs calls -> List.length (dsets (add_all s calls)) = List.length (dsets s) + offered calls).
    { clear. induction calls as [|k calls IH]; intros accs s F; [cbn; lia|]. inversion F as [|c ? accs' ? (es & M & Em) F']; subst.
      change (offered (k :: calls)) with (List.length (fst k) + offered calls). change (add_all s (k :: calls)) with (add_all (match add s (fst k) (snd k) with Ok s' => s' | Err _ => s end) calls).
      rewrite (IH _ _ F'). unfold add. unfold require.
      assert (G : Nat.eqb (List.length (fst k)) (List.length (match snd k with Some l => l | None => default_labels (List.length (dsets s)) (List.length (fst k)) end)) = true).
      { apply Nat.eqb_eq. destruct (snd k) as [l|]; [rewrite Em, map_length, (means_labels c es l M); reflexivity|unfold default_labels; rewrite map_length, seq_length; reflexivity]. }
      rewrite G. cbn [dsets]. rewrite app_length. lia. }
    rewrite (G _ _ _ F). reflexivity. }
  rewrite <- Q in O. cbn [dsets] in O. rewrite <- O in B.
  destruct (C28_labels_unique D calls B) as [N _]. rewrite <- Q in N. exact N.
Qed.

(** -- C359: missing weights -- *)

(** [add] takes missing weights as one None: one dataset, also in a list, is added with its flags as weights, and so is any
    dict of datasets ... *)
Theorem C359_no_weights_one : forall (st : pspec D) h d0 t ds, ds = AOne d0 \/ ds = ASeq t [EIs d0] ->
  exists st', add_call st h (mkac ds ANone LNone ANone ANone true) = (st', h, None) /\ p_dsets st' = p_dsets st ++ [d0] /\ p_wgts st' = p_wgts st ++ [None].
Proof.
  intros st h d0 t ds E.
  assert (M : call_means (mkac ds ANone LNone ANone ANone true) [mke (C := C) d0 None None None] None).
  { constructor; cbn; [|right; auto|right; auto|right; auto|reflexivity]. destruct E as [->| ->]; [constructor|]. apply (bp_seq t [Some d0]). }
  destruct (C355_add_appends nfreqs ntimes calib st h _ _ _ h M) as (st' & E1 & B1 & B2 & _); [reflexivity|left; discriminate|].
  exists st'. split; [exact E1|]. split; [exact B1|exact B2].
Qed.
Lemma dict_given (l l' : list (pystr * D)) : NoDup (map fst l) -> incl l' l ->
  Forall2 (fun k o => dlook (map (fun kv : pystr * D => (fst kv, EIs (snd kv))) l) k = Some (lift o)) (map fst l') (map (fun x => Some (snd x)) l').
Proof.
  intros Nd. induction l' as [|[k v] l' IH]; intros I; cbn [map fst snd]; constructor; [|apply IH; intros x Hx; apply I; right; exact Hx].
  assert (Hi : In (k, v) l) by (apply I; left; reflexivity). clear -Hi Nd. revert Nd Hi. induction l as [|[k1 v1] l IH]; intros Nd Hi; [destruct Hi|].
  cbn [map dlook fst snd]. cbn [map fst] in Nd. apply NoDup_cons_iff in Nd. destruct Nd as [Nk Nd].
  destruct (str_eqb k k1) eqn:E.
  + destruct Hi as [Hi|Hi]; [injection Hi as -> ->; reflexivity|]. apply str_eqb_eq in E. subst. exfalso. apply Nk. apply in_map_iff. exists (k1, v). auto.
  + destruct Hi as [Hi|Hi]; [injection Hi as -> ->; rewrite str_eqb_refl in E; discriminate|]. apply IH; assumption.
Qed.
Theorem C359_no_weights_dict : forall (st : pspec D) h k0 d0 (d : list (pystr * D)), NoDup (map fst ((k0, d0) :: d)) ->
  exists st', add_call st h (mkac (ADict (map (fun kv => (fst kv, EIs (snd kv))) ((k0, d0) :: d))) ANone LNone ANone ANone true) = (st', h, None) /\
    p_dsets st' = p_dsets st ++ d0 :: map snd d /\ p_wgts st' = p_wgts st ++ repeat None (S (List.length d)).
Proof.
  intros st h k0 d0 d Nd. set (l := (k0, d0) :: d) in *.
  pose (es := map (fun kv : pystr * D => mke (C := C) (snd kv) None None None) l).
  assert (Mk : map fst (map (fun kv : pystr * D => (fst kv, EIs (snd kv))) l) = map fst l) by (rewrite map_map; reflexivity).
  assert (Rp : forall A, repeat None (List.length (map fst l)) = map (fun _ : entry => @None A) es) by (intros A; unfold es; rewrite map_map, map_length; generalize l; clear; intros l; induction l; simpl; f_equal; auto).
  assert (M : call_means (mkac (ADict (map (fun kv => (fst kv, EIs (snd kv))) l)) ANone LNone ANone ANone true) es (Some (map fst l))).
  { rewrite <- Mk at 1. constructor; rewrite Mk.
    - left. eexists. split; [reflexivity|]. unfold es. rewrite map_map. cbn [e_dset].
      apply (dict_given l l Nd), incl_refl.
    - right. split; [reflexivity|]. rewrite Rp. unfold es. rewrite !map_map. reflexivity.
    - right. split; [reflexivity|]. rewrite Rp. unfold es. rewrite !map_map. reflexivity.
    - right. split; [reflexivity|]. rewrite Rp. unfold es. rewrite !map_map. reflexivity. }
  destruct (C355_add_appends nfreqs ntimes calib st h _ _ _ h M) as (st' & E1 & B1 & B2 & _).
  { unfold es. generalize l. clear. intros l. induction l; cbn; auto. }
  { left. discriminate. }
  exists st'. split; [exact E1|]. rewrite B1, B2. unfold es, l. rewrite !map_map. cbn. split; [reflexivity|]. f_equal. f_equal. clear. induction d; cbn; f_equal; auto.
Qed.
(** ... but a list of another number of datasets is refused *)
Theorem C359_no_weights_list_refuted : forall (st : pspec D) h t (ds : list D), List.length ds <> 1 ->
  add_call st h (mkac (ASeq t (map (@EIs D) ds)) ANone LNone ANone ANone true) = (st, h, Some AssertionError).
Proof.
  intros st h t ds N. unfold AddModel.add_call, checked. cbn [unpack bind seq_of a_dsets a_wgts a_stds a_cals]. rewrite map_length.
  unfold require. cbn [List.length]. destruct (Nat.eqb_spec (List.length ds) 1) as [E|E]; [contradiction|reflexivity].
Qed.
(** the constructor takes them as None for each dataset of a list ... *)
Theorem C359_constructor_list : forall h t (ds : list D) ws labs ss cs fl, ws = ASeq false (repeat ENone (List.length ds)) ->
  construct h (mkac (ASeq t (map (@EIs D) ds)) ANone labs ss cs fl) = construct h (mkac (ASeq t (map (@EIs D) ds)) ws labs ss cs fl).
Proof. intros h t ds ws labs ss cs fl ->. unfold AddModel.construct. cbn [a_dsets a_wgts a_stds a_labels a_cals a_flag]. rewrite map_length. reflexivity. Qed.
(** ... and refuses every dict of datasets that comes without weights, which [add] accepts *)
Theorem C359_constructor_dict_refuted : forall h (d : list (pystr * elem D)) ss cs fl, d <> [] ->
  construct h (mkac (ADict d) ANone LNone ss cs fl) = (h, inr TypeError).
Proof.
  intros h d ss cs fl N. unfold AddModel.construct. cbn [a_dsets a_wgts a_stds a_labels a_cals a_flag].
  destruct d as [|p d]; [contradiction N; reflexivity|]. destruct ss; reflexivity.
Qed.

(** -- C360: the error sets of the constructor -- *)

(** the constructor drops every error set when one of a list is missing; [add] keeps those that are given *)
Theorem C360_constructor_drops_stds_refuted : forall h t t' (ds : list D) (ss : list (option D)), ds <> [] -> In None ss ->
  exists st, construct h (mkac (ASeq t (map (@EIs D) ds)) ANone LNone (ASeq t' (map lift ss)) ANone true) = (h, inl st) /\ p_stds st = repeat None (List.length ds).
Proof.
  intros h t t' ds ss N I.
  assert (X : existsb (fun e : elem D => match e with ENone => true | _ => false end) (map lift ss) = true).
  { apply existsb_exists. exists ENone. split; [apply in_map_iff; exists None; auto|reflexivity]. }
  unfold AddModel.construct. cbn [a_dsets a_wgts a_stds a_labels a_cals a_flag]. rewrite X, map_length.
  assert (Z : Nat.eqb (List.length ds) 0 = false) by (destruct ds; [contradiction N; reflexivity|reflexivity]). rewrite Z.
  pose (es := map (fun d => mke (C := C) d None None None) ds).
  assert (R : forall A, repeat (@None A) (List.length ds) = map (fun _ => None) ds) by (intros A; clear; induction ds; cbn; f_equal; auto).
  assert (M : call_means (mkac (ASeq t (map (@EIs D) ds)) (ASeq false (repeat ENone (List.length ds))) LNone ANone ANone true) es None).
  { constructor; unfold es; rewrite ?map_map, ?map_length; cbn [e_dset e_wgt e_std e_cal].
    - replace (map (@EIs D) ds) with (map lift (map (@Some D) ds)) by (rewrite map_map; reflexivity). constructor.
    - left. rewrite repeat_lift, R. constructor.
    - right. rewrite R. auto.
    - right. rewrite R. auto.
    - reflexivity. }
  destruct (C355_add_appends nfreqs ntimes calib p_empty h _ _ _ h M) as (st' & E1 & B1 & B2 & B3 & _).
  { unfold es. clear. induction ds; cbn; auto. }
  { left. unfold es. intros Q. apply map_eq_nil in Q. contradiction. }
  rewrite E1. exists st'. split; [reflexivity|]. rewrite B3. unfold es. rewrite map_map, R. reflexivity.
Qed.
Theorem C360_add_keeps_stds : forall (st : pspec D) h t t' t'' (ds : list D) (ws ss : list (option D)), ds <> [] ->
  List.length ws = List.length ds -> List.length ss = List.length ds ->
  exists st', add_call st h (mkac (ASeq t (map (@EIs D) ds)) (ASeq t'' (map lift ws)) LNone (ASeq t' (map lift ss)) ANone true) = (st', h, None) /\
    p_stds st' = p_stds st ++ ss /\ p_wgts st' = p_wgts st ++ ws /\ p_dsets st' = p_dsets st ++ ds.
Proof.
  intros st h t t' t'' ds ws ss N L1 L2.
  destruct (columns (C := C) ds ws ss (repeat None (List.length ds)) L1 L2 (repeat_length _ _)) as (es & A1 & A2 & A3 & A4).
  assert (Le : List.length es = List.length ds) by (rewrite <- A1, map_length; reflexivity).
  assert (M : call_means (mkac (ASeq t (map (@EIs D) ds)) (ASeq t'' (map lift ws)) LNone (ASeq t' (map lift ss)) ANone true) es None).
  { constructor; rewrite ?A2, ?A3, ?A4.
    - replace (map (@EIs D) ds) with (map lift (map (fun e : entry => Some (e_dset e)) es)) by (rewrite <- A1, !map_map; reflexivity). constructor.
    - left. constructor.
    - left. constructor.
    - right. rewrite Le. auto.
    - reflexivity. }
  destruct (C355_add_appends nfreqs ntimes calib st h _ _ _ h M) as (st' & E1 & B1 & B2 & B3 & _).
  { clear -A4. revert A4. generalize (List.length ds). intros n A. assert (G : forall e, In e es -> e_cal e = None).
    { intros e He. apply (repeat_spec n None). rewrite <- A. apply in_map. exact He. }
    clear A. induction es as [|e es IH]; [reflexivity|]. cbn. rewrite (G e (or_introl eq_refl)). apply IH. intros e' He. apply G. right. exact He. }
  { left. intros ->. apply N. rewrite <- A1. reflexivity. }
  exists st'. split; [exact E1|]. rewrite B1, B2, B3, A1, A2, A3. auto.
Qed.

(** -- C361: calibrations -- *)

(** one calibration for several datasets, "one for all dsets" in the constructor's documentation, is refused *)
Theorem C361_one_for_all_refuted : forall (st : pspec D) h t (ds : list D) c fl, List.length ds <> 1 ->
  add_call st h (mkac (ASeq t (map (@EIs D) ds)) (ASeq t (repeat ENone (List.length ds))) LNone ANone (AOne c) fl) = (st, h, Some AssertionError) /\
  (ds <> [] -> construct h (mkac (ASeq t (map (@EIs D) ds)) ANone LNone ANone (AOne c) fl) = (h, inr AssertionError)).
Proof.
  intros st h t ds c fl N.
  assert (G : forall (st : pspec D) t', add_call st h (mkac (ASeq t (map (@EIs D) ds)) (ASeq t' (repeat ENone (List.length ds))) LNone ANone (AOne c) fl) = (st, h, Some AssertionError)).
  { intros st' t'. unfold AddModel.add_call, checked. cbn [unpack bind seq_of a_dsets a_wgts a_stds a_cals]. rewrite map_length, !repeat_length.
    unfold require. rewrite !Nat.eqb_refl. cbn [List.length]. destruct (Nat.eqb_spec 1 (List.length ds)) as [E|E]; [congruence|reflexivity]. }
  split; [apply G|]. intros Ne. unfold AddModel.construct. cbn [a_dsets a_wgts a_stds a_labels a_cals a_flag]. rewrite map_length.
  destruct (Nat.eqb_spec (List.length ds) 0) as [E|E]; [destruct ds; [contradiction Ne; reflexivity|discriminate]|]. rewrite G. reflexivity.
Qed.
(** a calibration that raises leaves the earlier datasets of the call calibrated although none of them was added *)
Theorem C361_failed_calibration_refuted : forall (st : pspec D) h h1 h2 t d1 d2 c1 c2 fl e, calib h d1 c1 fl = (h1, None) -> calib h1 d2 c2 fl = (h2, Some e) ->
  add_call st h (mkac (ASeq t [EIs d1; EIs d2]) (ASeq t [ENone; ENone]) LNone ANone (ASeq t [EIs c1; EIs c2]) fl) = (st, h2, Some e).
Proof.
  intros st h h1 h2 t d1 d2 c1 c2 fl e E1 E2. unfold AddModel.add_call, checked. cbn. rewrite E1, E2. reflexivity.
Qed.

(** -- dataset indices -- *)

(** a text that is a label is its position, another text a KeyError; an integer is taken as it is, in range or not, and
    anything else is a TypeError *)
Theorem C361_dset_idx : forall (st : pspec D),
  (forall i l, NoDup (p_labels st) -> nth_error (p_labels st) i = Some l -> idx_of st (IStr l) = Ok (Z.of_nat i)) /\
  (forall l, idx_of st (IStr l) = Err KeyError <-> ~ In l (p_labels st)) /\
  (forall z, idx_of st (IInt z) = Ok z) /\ idx_of st IBad = Err TypeError.
Proof.
  intros st. split; [|split; [|split; reflexivity]].
  - intros i l N E. unfold idx_of. rewrite (proj1 (index_str_spec l (p_labels st) N i) E). reflexivity.
  - intros l. unfold idx_of. split.
    + intros E I. apply In_nth_error in I. destruct (index_str l (p_labels st)) eqn:X; [discriminate|].
      destruct I as (n & I). clear -X I. revert n I X. generalize (p_labels st). induction l0 as [|y l0 IH]; intros [|n] E X; cbn in *; try discriminate.
      * injection E as ->. rewrite str_eqb_refl in X. discriminate.
      * destruct (str_eqb l y); [discriminate|]. apply (IH n E). destruct (index_str l l0); [discriminate|reflexivity].
    + intros I. rewrite (proj2 (index_str_none l (p_labels st)) I). reflexivity.
Qed.
End More.

(** -- the calibrations of one dataset -- *)

(** contents that record which calibrations were applied to which dataset; a calibration never raises *)
Definition log_world (D C : Type) := D -> list C.
Definition log_calib {D C} (dec : forall x y : D, {x = y} + {x <> y}) (h : log_world D C) (d : D) (c : C) (_ : bool) : log_world D C * option pyerr :=
  (fun x => if dec x d then h x ++ [c] else h x, None).
(** C361: an accepted call calibrates each dataset, and its error set, once with the calibration of its entry, in the order of
    the entries, and nothing else; a dataset that occurs twice is calibrated twice *)
Theorem C361_calibrated_once : forall (D C : Type) (dec : forall x y : D, {x = y} + {x <> y}) nfreqs ntimes (st st' : pspec D) (h h' : log_world D C) c,
  add_call nfreqs ntimes (log_calib dec) st h c = (st', h', None) ->
  exists es ls, call_means c es ls /\
  forall x, h' x = h x ++ flat_map (fun e => match e_cal e with
     | Some k => (if dec x (e_dset e) then [k] else []) ++ (match e_std e with Some s => if dec x s then [k] else [] | None => [] end)
     | None => [] end) es.
Proof.
  intros D C dec nfreqs ntimes st st' h h' c E. destruct (C355_accepted_only _ _ _ _ _ _ _ _ E) as (es & ls & M & K & _). exists es, ls. split; [exact M|].
  clear -K. revert h K. induction es as [|e es IH]; intros h K x; cbn in *.
  - injection K as <-. rewrite app_nil_r. reflexivity.
  - destruct (e_cal e) as [k|]; [|apply IH; exact K].
    destruct (e_std e) as [s|]; cbn in K; rewrite (IH _ K x); cbn; destruct (dec x (e_dset e)); try destruct (dec x s); rewrite <- ?app_assoc, ?app_nil_r; reflexivity.
Qed.

(** examples: two accepted calls and a refused one; a dict with weights for one dataset only is a KeyError; labels made unique *)
Definition ex_calib (h : nat) (d : nat) (c : nat) (f : bool) : nat * option pyerr := (h + d * c, None).
Definition ex_run := @add_run nat nat nat (fun d => 10 * d) (fun d => 2) ex_calib p_empty 0
  [ mkac (ASeq false [EIs 3; EIs 4]) (ASeq true [EIs 30; ENone]) (LSeq [s_ "a"; s_ "b"]) (ASeq false [ENone; EIs 41]) (ASeq false [EIs 5; ENone]) true;
    mkac (ASeq false [EIs 6]) (ASeq false []) LNone ANone ANone true;
    mkac (ADict [(s_ "a", EIs 7)]) (ADict [(s_ "zz", ENone); (s_ "a", EIs 70)]) LNone ANone ANone true ].
Example ex_run_lists : p_dsets (fst ex_run) = [3; 4; 7] /\ p_wgts (fst ex_run) = [Some 30; None; Some 70] /\ p_stds (fst ex_run) = [None; Some 41; None] /\
  p_labels (fst ex_run) = [s_ "a"; s_ "b"; s_ "a.1"] /\ p_spw (fst ex_run) = Some (0, 30) /\ snd ex_run = 15.
Proof. repeat split. Qed.
Example ex_dict_missing : @add_call nat nat nat (fun d => d) (fun d => d) ex_calib p_empty 0
  (mkac (ADict [(s_ "a", EIs 7); (s_ "b", EIs 8)]) (ADict [(s_ "a", EIs 70)]) LNone ANone ANone true) = (p_empty, 0, Some KeyError).
Proof. reflexivity. Qed.
Example ex_int_index : @idx_of nat p_empty (IInt 7) = Ok 7%Z.
Proof. reflexivity. Qed.
Example ex_twice : forall h', exists h, log_calib Nat.eq_dec (fst (log_calib Nat.eq_dec (fun _ => []) 3 7 true)) 3 7 true = (h, None) /\ h 3 = [7; 7] /\ (h' = h -> h' 4 = []).
Proof. intros h'. eexists. split; [reflexivity|]. split; [reflexivity|]. intros ->. reflexivity. Qed.
