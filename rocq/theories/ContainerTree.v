(** Properties C14, C339: the tree of a container, and what set_pspec may write in SWMR mode (container.py:291-357, 466-493). *)
From Coq Require Import String.
From Verif Require Import PyDict PyStr.
From Verif Require Import Prelude ContainerModel ContainerProofs ContainerHist ContainerHandles ContainerProps.
Open Scope nat_scope.

Section T.
Context {obj item : Type} (valid : obj -> bool) (items : obj -> list item) (env : nat -> bool).
Notation op := (@op obj).
Notation state := (@state item).

Definition names_of (f : @file item) (g : pystr) : list pystr := map fst (tagged (group_of f g)).
Lemma nested_id {A} (m : M A) (s : state) r : c_open s = true -> m s = (s, Ok r) -> transactional env true m s = (s, Ok r).
Proof. intros O E. unfold transactional. rewrite (open_open env s O), E, orb_true_r. reflexivity. Qed.
Lemma loop_open (s : state) f gs : c_open s = true -> disk s = Some f -> (forall g, In g gs -> dget pystr_dec f g <> None) ->
  tree_loop env gs s = (s, Ok (map (fun g => (g, names_of f g)) gs)).
Proof.
  intros O D. induction gs as [|g gs IH]; intro H; [reflexivity|]. cbn [tree_loop map]. unfold mbind at 1.
  rewrite (nested_id (spectra_body g) s (names_of f g) O).
  - unfold mbind. rewrite IH by (intros; apply H; right; assumption). reflexivity.
  - unfold spectra_body, with_file. rewrite O, D. unfold names_of, group_of. destruct (dget pystr_dec f g) eqn:E; [reflexivity|]. exfalso. apply (H g (or_introl eq_refl) E).
Qed.
Definition tree_of (f : @file item) : list (pystr * list pystr) :=
  map (fun g => (g, names_of f g)) (filter (fun g => if pystr_dec g header then false else true) (map fst f)).
Lemma in_keys {V} (f : list (pystr * V)) g : In g (map fst f) <-> dget pystr_dec f g <> None.
Proof.
  pose proof (dget_None pystr_dec f g) as D. destruct (in_dec pystr_dec g (map fst f)) as [H|H]; [|tauto].
  destruct (dget pystr_dec f g); [split; [discriminate|auto]|]. tauto.
Qed.
Lemma tree_open (s : state) f : c_open s = true -> disk s = Some f -> tree_body env s = (s, Ok (tree_of f)).
Proof.
  intros O D. unfold tree_body, mbind.
  rewrite (nested_id groups_body s (filter (fun g => if pystr_dec g header then false else true) (map fst f)) O) by (unfold groups_body, with_file; rewrite O, D; reflexivity).
  apply loop_open; [exact O|exact D|]. intros g Hg. apply filter_In in Hg. apply in_keys. apply Hg.
Qed.
Lemma tree_of_groups f g : In g (map fst (tree_of f)) <-> g <> header /\ dget pystr_dec f g <> None.
Proof.
  unfold tree_of. rewrite map_map. cbn [fst]. rewrite map_id, filter_In, in_keys. destruct (pystr_dec g header); [split; [intros [_ C]; discriminate C|tauto] | tauto].
Qed.
Lemma tree_of_names f g ps : unique_links (Some f) -> In (g, ps) (tree_of f) -> forall p, In p ps <-> stored (Some f) g p <> None.
Proof.
  intros U H p. unfold tree_of in H. apply in_map_iff in H. destruct H as [g' [E H]]. injection E as -> <-. apply filter_In in H. destruct H as [H _]. apply in_keys in H.
  unfold names_of, group_of. destruct (dget pystr_dec f g) as [es|] eqn:E; [|congruence]. rewrite (tagged_In es p (proj2 U _ _ E)).
  unfold stored. cbn [find]. unfold find_in. rewrite E. split.
  - intros [e [-> ->]]. discriminate.
  - destruct (dget pystr_dec es p) as [e|]; [|congruence]. destruct (e_tag e) eqn:T; [|congruence]. eauto.
Qed.

(** The tree has one entry for every group except the header, and each entry lists exactly the complete spectra of its group; and
    the file has to be opened only once. *)
Theorem C14_tree : forall s, reach valid items env s -> unique_links (disk s) -> can_run env s ->
  exists t, snd (run_op valid items env OTree s) = Ok (ATree t) /\ NoDup (map fst t) /\
    (forall g, In g (map fst t) <-> g <> header /\ has (disk s) g) /\
    (forall g ps, In (g, ps) t -> forall p, In p ps <-> stored (disk s) g p <> None).
Proof.
  intros s R U [s1 E]. pose proof (reach_inv valid items env s R) as I. destruct (open_ok_file valid items env s s1 I E) as [O [f D]].
  pose proof (open_unique valid items env s s1 U E) as U1. rewrite D in U1.
  exists (tree_of f). split; [|split; [|split]].
  - unfold run_op, transactional. rewrite E. cbn [body]. unfold fmap, mbind. rewrite (tree_open s1 f O D). reflexivity.
  - unfold tree_of. rewrite map_map. cbn [fst]. rewrite map_id. apply NoDup_filter. apply U1.
  - intro g. rewrite tree_of_groups. split; intros [N H]; (split; [exact N|]).
    + apply (open_has_rev valid items env s s1 g N E). rewrite D. exact H.
    + pose proof (open_has valid items env s s1 g E H) as Q. rewrite D in Q. exact Q.
  - intros g ps H p. rewrite (tree_of_names f g ps U1 H p). unfold stored. rewrite <- (open_find valid items env s s1 g p E), D. reflexivity.
Qed.

Lemma in_tree_spec f g p : unique_links (Some f) -> in_tree g p (tree_of f) = true <-> g <> header /\ stored (Some f) g p <> None.
Proof.
  intro U. unfold in_tree. destruct (dget pystr_dec (tree_of f) g) as [ps|] eqn:E.
  - pose proof (dget_In pystr_dec _ _ _ E) as H. assert (K : In g (map fst (tree_of f))) by (apply in_map_iff; exists (g, ps); auto).
    apply tree_of_groups in K. pose proof (tree_of_names f g ps U H p) as Q. destruct (in_dec pystr_dec p ps); [tauto|]. split; [discriminate|tauto].
  - split; [discriminate|]. intros [N S]. exfalso. apply (proj1 (dget_None pystr_dec _ _) E). apply tree_of_groups. split; [exact N|].
    unfold stored in S. cbn [find] in S. unfold find_in in S. destruct (dget pystr_dec f g); congruence.
Qed.

(** ** C339: SWMR *)
(** what a single set does on a read-write SWMR container whose file can be opened *)
Lemma swmr_set s s1 g p x ov : inv s -> unique_links (disk s) -> c_mode s = ModeRW -> c_swmr s = true -> open_ env s = (s1, Ok tt) ->
  exists f, disk s1 = Some f /\ unique_links (Some f) /\ forall s' r, run_op valid items env (OSet g (PName p) (PObj (Some x)) ov) s = (s', r) ->
    (in_tree g p (tree_of f) = false -> disk s' = disk s1 /\ r = Err ValueError) /\
    (in_tree g p (tree_of f) = true -> disk s' = replay (Some f) (fst (set_writes valid items f g p x ov)) /\
       r = match snd (set_writes valid items f g p x ov) with None => Ok ADone | Some e => Err e end).
Proof.
  intros I U Hm Hs E. destruct (open_ok_file valid items env s s1 I E) as [O [f Ef]].
  pose proof (open_unique valid items env s s1 U E) as U1. rewrite Ef in U1.
  destruct (grows_open valid items env nobody _ _ _ E) as [w1 [X1 _]].
  exists f. split; [exact Ef|]. split; [exact U1|]. intros s' r H. unfold run_op, transactional in H. rewrite E in H. cbn [body] in H.
  unfold fmap, mbind at 1, set_body in H. rewrite (x_mode _ _ _ X1), Hm in H.
  unfold set_one_body in H. rewrite (x_mode _ _ _ X1), Hm, (x_swmr _ _ _ X1), Hs in H.
  unfold mbind at 1 2 in H. rewrite (nested_id (tree_body env) s1 (tree_of f) O (tree_open s1 f O Ef)) in H.
  split; intro T; rewrite T in H.
  - unfold raise in H. destruct (c_keep s1); injection H as <- <-; split; reflexivity.
  - unfold ret, with_file in H. rewrite O, Ef in H. destruct (set_writes valid items f g p x ov) as [ws e]. cbn [fst snd].
    assert (Ed2 : disk (log_w s1 ws) = replay (Some f) ws).
    { unfold disk. cbn [w_init w_log log_w]. rewrite replay_app. unfold disk in Ef. rewrite Ef. reflexivity. }
    rewrite <- Ed2. destruct e as [e|]; unfold do_writes in H; cbn [fst] in H.
    + destruct (c_keep (log_w s1 ws)); injection H as <- <-; split; reflexivity.
    + destruct (c_keep (log_w s1 ws) || false); injection H as <- <-; split; reflexivity.
Qed.
Theorem swmr_no_new_spectra : forall s s' g p x ov r, reach valid items env s -> unique_links (disk s) ->
  c_mode s = ModeRW -> c_swmr s = true -> can_run env s ->
  run_op valid items env (OSet g (PName p) (PObj (Some x)) ov) s = (s', r) ->
  stored (disk s) g p = None -> r = Err ValueError /\ forall g' p', stored (disk s') g' p' = stored (disk s) g' p'.
Proof.
  intros s s' g p x ov r R U Hm Hs [s1 E] H N. destruct (swmr_set s s1 g p x ov (reach_inv valid items env s R) U Hm Hs E) as [f [D [U1 Q]]].
  assert (SS : forall g' p', stored (disk s1) g' p' = stored (disk s) g' p') by (intros; unfold stored; rewrite (open_find valid items env s s1 _ _ E); reflexivity).
  destruct (Q _ _ H) as [Q1 _]. destruct (in_tree g p (tree_of f)) eqn:T.
  - exfalso. apply in_tree_spec in T; [|exact U1]. rewrite <- D, SS in T. tauto.
  - destruct (Q1 eq_refl) as [D' ->]. split; [reflexivity|]. intros. rewrite D'. apply SS.
Qed.
Theorem swmr_existing_spectra : forall s s' g p x ov r, reach valid items env s -> unique_links (disk s) ->
  c_mode s = ModeRW -> c_swmr s = true -> can_run env s -> g <> header ->
  run_op valid items env (OSet g (PName p) (PObj (Some x)) ov) s = (s', r) ->
  stored (disk s) g p <> None ->
  (ov = true -> valid x = true -> r = Ok ADone /\ stored (disk s') g p = Some (items x)) /\
  (ov = false -> r = Err AttributeError /\ stored (disk s') g p = stored (disk s) g p).
Proof.
  intros s s' g p x ov r R U Hm Hs [s1 E] Ng H N. destruct (swmr_set s s1 g p x ov (reach_inv valid items env s R) U Hm Hs E) as [f [D [U1 Q]]].
  assert (SS : forall g' p', stored (Some f) g' p' = stored (disk s) g' p') by (intros; rewrite <- D; unfold stored; rewrite (open_find valid items env s s1 _ _ E); reflexivity).
  destruct (Q _ _ H) as [_ Q2]. rewrite <- SS in N. destruct (Q2 (proj2 (in_tree_spec f g p U1) (conj Ng N))) as [D' ->].
  destruct (replay_some (fst (set_writes valid items f g p x ov)) f) as [f' Er]. destruct (set_full valid items f g p x ov f' _ Er eq_refl) as [F1 [F2 _]].
  assert (NF : find_in f g p <> None) by (unfold stored in N; cbn [find] in N; destruct (find_in f g p); congruence).
  split; intros ->.
  - intro V. assert (S0 : snd (set_writes valid items f g p x true) = None). { unfold set_writes, store_writes. rewrite V. destruct (find_in f g p); reflexivity. }
    rewrite S0 in *. split; [reflexivity|]. rewrite D', Er. unfold stored. cbn [find]. rewrite (proj1 (F1 eq_refl)). reflexivity.
  - assert (S0 : snd (set_writes valid items f g p x false) = Some AttributeError). { unfold set_writes. destruct (store_writes valid items g p x). destruct (find_in f g p); [reflexivity|congruence]. }
    rewrite S0 in *. split; [reflexivity|]. rewrite <- SS, D', Er. unfold stored. cbn [find]. rewrite F2; auto. discriminate.
Qed.
End T.
Print Assumptions C14_tree.
Print Assumptions swmr_no_new_spectra.
Print Assumptions swmr_existing_spectra.

(** a file with a header and one group, opened read-write with SWMR: the stored spectrum can be replaced, a new one is refused *)
Example swmr_case :
  let f : @file nat := [(header, []); (s_ "g", [(s_ "a", mkentry true [1; 2])])] in
  let s := fst (init noenv ModeRW false true 0 (Some f) 0) in
  can_run noenv s /\ unique_links (disk s) /\ reach exvalid exitems noenv s /\
  snd (run_op exvalid exitems noenv OTree s) = Ok (ATree [(s_ "g", [s_ "a"])]) /\
  snd (run_op exvalid exitems noenv (OSet (s_ "g") (PName (s_ "b")) (PObj (Some (true, [7]))) true) s) = Err ValueError /\
  snd (run_op exvalid exitems noenv (OSet (s_ "g") (PName (s_ "a")) (PObj (Some (true, [7]))) true) s) = Ok ADone.
Proof.
  cbv zeta. repeat split; try (vm_compute; reflexivity).
  - eexists. vm_compute. reflexivity.
  - constructor; [intros [C|[]]; vm_compute in C; discriminate C|]. constructor; [intros []|constructor].
  - intros g es H. apply dget_In in H. destruct H as [H|[H|[]]]; injection H as <- <-; [constructor|]. constructor; [intros []|constructor].
  - eexists ModeRW, false, true, 0, _, 0, _, [], []. split; reflexivity.
Qed.
