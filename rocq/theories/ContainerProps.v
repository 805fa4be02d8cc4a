(** Properties C14, C15, C16: the container file.

    [stored file g p] is what the file holds under (g, p) as a usable spectrum. A history is any
    list of calls on a container object; [env] decides which attempts to open the file are
    refused by the operating system. *)
From Coq Require Import String.
From Verif Require Import PyDict PyStr.
From Verif Require Import Prelude ContainerModel ContainerProofs ContainerHist ContainerHandles.
Open Scope nat_scope.

Section P.
Context {obj item : Type} (valid : obj -> bool) (items : obj -> list item) (env : nat -> bool).
Notation op := (@op obj).
Notation state := (@state item).

(** the contents of the complete (tagged) spectrum (g, p) of a file *)
Definition stored (o : option (@file item)) (g p : pystr) : option (list item) :=
  match find o g p with
  | Some e => if e_tag e then Some (e_body e) else None
  | None => None
  end.
(** the call gets an open file *)
Definition can_run (s : state) : Prop := exists s1, open_ env s = (s1, Ok tt).

(** what the file looks like if the process dies after [k] of the writes made between [s] and [s'] *)
Definition crash_file (s s' : state) (k : nat) : option (@file item) :=
  replay (disk s) (firstn k (skipn (length (w_log s)) (w_log s'))).

Lemma crash_blocks s s' rs (h : list op) : run valid items env h s = (s', rs) ->
  exists ws, blocks valid items (fun g p x ov => exists o, In o h /\ writes_of o g p x ov) (disk s) ws /\
    disk s' = replay (disk s) ws /\ (forall k, crash_file s s' k = replay (disk s) (firstn k ws)).
Proof.
  intros E. destruct (run_grows valid items env h s s' rs E) as [ws [X [B _]]]. exists ws.
  split; [exact B|]. split; [exact (ext_disk _ _ _ X)|]. intros k. unfold crash_file. rewrite (x_log _ _ _ X).
  rewrite skipn_app, skipn_all, Nat.sub_diag. reflexivity.
Qed.

(** after a crash-free run the file is the last crash file *)
Lemma crash_all s s' rs (h : list op) : run valid items env h s = (s', rs) ->
  crash_file s s' (length (w_log s')) = disk s'.
Proof.
  intros E. destruct (run_grows valid items env h s s' rs E) as [ws [X [B _]]].
  unfold crash_file. rewrite (ext_disk _ _ _ X), (x_log _ _ _ X), skipn_app, skipn_all, Nat.sub_diag. cbn [app skipn].
  rewrite firstn_all2; [reflexivity|]. rewrite app_length. lia.
Qed.

Lemma run_one (o : op) s s' r : run_op valid items env o s = (s', r) -> run valid items env [o] s = (s', [r]).
Proof. intros E. cbn [run]. rewrite E. reflexivity. Qed.

(** * C14 *)
(** get_pspec returns what is stored, or an error *)
Theorem C14_get : forall s g p, reach valid items env s -> can_run s ->
  (forall b, stored (disk s) g p = Some b ->
     snd (run_op valid items env (OGet g (Some p)) s) = Ok (ASpectra [b])) /\
  (stored (disk s) g p = None -> exists e, snd (run_op valid items env (OGet g (Some p)) s) = Err e).
Proof.
  intros s g p R [s1 E]. rewrite (get_answer valid items env s s1 g p (reach_inv valid items env s R) E).
  unfold stored. destruct (find (disk s) g p) as [e|]; [destruct (e_tag e)|]; split; intros; try congruence; eauto.
Qed.

(** a spectrum that was set is what get_pspec returns later, it is listed, and so is its group,
    after any further calls that do not set the same (group, name) *)
Theorem C14_read_your_writes : forall s s1 s2 g p x ov a (h : list op) rs,
  reach valid items env s -> unique_links (disk s) ->
  run_op valid items env (OSet g (PName p) (PObj (Some x)) ov) s = (s1, Ok a) ->
  run valid items env h s1 = (s2, rs) ->
  (forall o x' ov', In o h -> ~ writes_of o g p x' ov') ->
  can_run s2 ->
  snd (run_op valid items env (OGet g (Some p)) s2) = Ok (ASpectra [items x]) /\
  (exists l, snd (run_op valid items env (OSpectra g) s2) = Ok (ANames l) /\ In p l) /\
  (g <> header -> exists l, snd (run_op valid items env OGroups s2) = Ok (ANames l) /\ In g l).
Proof.
  intros s s1 s2 g p x ov a h rs R U E1 E2 N [s3 E3].
  pose proof (reach_inv valid items env s R) as I.
  destruct (set_ok valid items env s s1 g p x ov a I E1) as [F [Hg _]].
  pose proof (reach_op valid items env s _ s1 _ R E1) as R1. pose proof (reach_run valid items env s1 h s2 rs R1 E2) as R2.
  pose proof (reach_inv valid items env s2 R2) as I2.
  destruct (run_grows valid items env h s1 s2 rs E2) as [ws [X [B _]]].
  assert (F2 : find (disk s2) g p = Some (mkentry true (items x))).
  { rewrite (ext_disk _ _ _ X), <- (firstn_all ws). rewrite <- F. apply (blocks_untouched valid items _ _ _ _ _ B).
    intros x' ov' [o [Ho Hw]]. exact (N o x' ov' Ho Hw). }
  assert (H2 : has (disk s2) g).
  { rewrite (ext_disk _ _ _ X), <- (firstn_all ws). exact (blocks_has valid items _ _ _ _ B _ Hg). }
  assert (U2 : unique_links (disk s2)).
  { rewrite (ext_disk _ _ _ X). apply unique_replay.
    destruct (grows_op valid items env _ _ _ _ E1) as [w1 [X1 _]]. rewrite (ext_disk _ _ _ X1). apply unique_replay, U. }
  split; [|split].
  - rewrite (get_answer valid items env s2 s3 g p I2 E3), F2. reflexivity.
  - destruct (spectra_answer valid items env s2 s3 g I2 U2 E3 H2) as [l [El Hl]]. exists l. split; [exact El|].
    apply Hl. eexists. split; [exact F2 | reflexivity].
  - intros Nh. destruct (groups_answer valid items env s2 s3 I2 E3) as [l [El Hl]]. exists l. split; [exact El|].
    apply Hl. split; [exact Nh|]. exact (open_has valid items env s2 s3 g E3 H2).
Qed.

(** no call changes a (group, name) it was not asked to set, even if the process dies during it *)
Theorem C14_isolation : forall s s' (h : list op) rs g p,
  run valid items env h s = (s', rs) -> (forall o x ov, In o h -> ~ writes_of o g p x ov) ->
  find (disk s') g p = find (disk s) g p /\ forall k, find (crash_file s s' k) g p = find (disk s) g p.
Proof.
  intros s s' h rs g p E N. destruct (crash_blocks s s' rs h E) as [ws [B [D C]]].
  assert (K : forall k, find (replay (disk s) (firstn k ws)) g p = find (disk s) g p).
  { apply (blocks_untouched valid items _ _ _ _ _ B). intros x ov [o [Ho Hw]]. exact (N o x ov Ho Hw). }
  split; [|intros k; rewrite C; apply K]. rewrite D, <- (firstn_all ws). apply K.
Qed.

(** without overwrite an existing spectrum is never changed, even if the process dies *)
Theorem C14_no_overwrite : forall s s' (h : list op) rs g p b,
  run valid items env h s = (s', rs) ->
  (forall o x ov, In o h -> writes_of o g p x ov -> ov = false) ->
  stored (disk s) g p = Some b ->
  stored (disk s') g p = Some b /\ forall k, stored (crash_file s s' k) g p = Some b.
Proof.
  intros s s' h rs g p b E N Hb. destruct (crash_blocks s s' rs h E) as [ws [B [D C]]].
  unfold stored in Hb. destruct (find (disk s) g p) as [e|] eqn:Ef; [|discriminate].
  assert (K : forall k, find (replay (disk s) (firstn k ws)) g p = Some e).
  { apply (blocks_no_overwrite valid items _ _ _ _ _ _ B); [|exact Ef]. intros x ov [o [Ho Hw]]. exact (N o x ov Ho Hw). }
  split; [|intros k; rewrite C; unfold stored; rewrite K; exact Hb].
  rewrite D, <- (firstn_all ws). unfold stored. rewrite K. exact Hb.
Qed.

(** a container opened read-only never changes the file *)
Theorem C14_read_only : forall s s' (h : list op) rs, c_mode s = ModeR ->
  run valid items env h s = (s', rs) -> w_log s' = w_log s /\ disk s' = disk s.
Proof.
  intros s s' h rs Hm E. destruct (run_grows valid items env h s s' rs E) as [ws [X [B R]]].
  rewrite R in X by exact Hm. rewrite (ext_disk _ _ _ X), (x_log _ _ _ X), app_nil_r. split; reflexivity.
Qed.

(** spectra() lists the complete spectra of the group, groups() the groups except the header *)
Theorem C14_listing : forall s, reach valid items env s -> unique_links (disk s) -> can_run s ->
  (forall g, has (disk s) g -> exists l, snd (run_op valid items env (OSpectra g) s) = Ok (ANames l) /\
     forall p, In p l <-> stored (disk s) g p <> None) /\
  (exists l, snd (run_op valid items env OGroups s) = Ok (ANames l) /\
     forall g, In g l <-> g <> header /\ has (disk s) g).
Proof.
  intros s R U [s1 E]. pose proof (reach_inv valid items env s R) as I. split.
  - intros g Hg. destruct (spectra_answer valid items env s s1 g I U E Hg) as [l [El Hl]]. exists l. split; [exact El|].
    intros p. rewrite Hl. unfold stored. split.
    + intros [e [Ef Et]]. rewrite Ef, Et. discriminate.
    + destruct (find (disk s) g p) as [e|]; [|congruence]. destruct (e_tag e) eqn:Et; [|congruence]. eauto.
  - destruct (groups_answer valid items env s s1 I E) as [l [El Hl]]. exists l. split; [exact El|].
    intros g. rewrite Hl. split; intros [Ng Hg]; (split; [exact Ng|]).
    + exact (open_has_rev valid items env s s1 g Ng E Hg).
    + exact (open_has valid items env s s1 g E Hg).
Qed.

(** * C15 *)
(** a single set on an opened read-write container, without SWMR *)
Lemma set_runs s s1 g p x ov : inv s -> c_mode s = ModeRW -> c_swmr s = false -> open_ env s = (s1, Ok tt) ->
  exists f, disk s1 = Some f /\ forall s' r, run_op valid items env (OSet g (PName p) (PObj (Some x)) ov) s = (s', r) ->
    disk s' = replay (Some f) (fst (set_writes valid items f g p x ov)) /\
    w_log s' = w_log s1 ++ fst (set_writes valid items f g p x ov) /\
    r = match snd (set_writes valid items f g p x ov) with None => Ok ADone | Some e => Err e end.
Proof.
  intros I Hm Hs E. destruct (open_ok_file valid items env s s1 I E) as [O [f Ef]].
  destruct (grows_open valid items env nobody _ _ _ E) as [w1 [X1 _]].
  exists f. split; [exact Ef|]. intros s' r H. unfold run_op, transactional in H. rewrite E in H. cbn [body] in H.
  unfold fmap, mbind at 1, set_body in H. rewrite (x_mode _ _ _ X1), Hm in H.
  unfold set_one_body in H. rewrite (x_mode _ _ _ X1), Hm, (x_swmr _ _ _ X1), Hs in H.
  unfold mbind, ret, with_file in H. rewrite O, Ef in H.
  destruct (set_writes valid items f g p x ov) as [ws e]. cbn [fst snd].
  assert (Ed2 : disk (log_w s1 ws) = replay (Some f) ws).
  { unfold disk. cbn [w_init w_log log_w]. rewrite replay_app. unfold disk in Ef. rewrite Ef. reflexivity. }
  rewrite <- Ed2. destruct e as [e|]; unfold do_writes in H; cbn [fst] in H.
  - destruct (c_keep (log_w s1 ws)); injection H as <- <-; repeat split; reflexivity.
  - destruct (c_keep (log_w s1 ws) || false); injection H as <- <-; repeat split; reflexivity.
Qed.

(** overwriting with an object that fails its check destroys the stored spectrum, and the name
    can then not be set again without overwrite: for every container and every spectrum in it *)
Theorem C15_failed_overwrite_refuted : forall s s' s'' g p x y old r r',
  reach valid items env s -> c_mode s = ModeRW -> c_swmr s = false -> can_run s ->
  stored (disk s) g p = Some old -> valid x = false ->
  run_op valid items env (OSet g (PName p) (PObj (Some x)) true) s = (s', r) -> can_run s' ->
  run_op valid items env (OSet g (PName p) (PObj (Some y)) false) s' = (s'', r') ->
  r = Err AssertionError /\ stored (disk s') g p = None /\
  (exists e, snd (run_op valid items env (OGet g (Some p)) s') = Err e) /\ r' = Err AttributeError.
Proof.
  intros s s' s'' g p x y old r r' R Hm Hs [s1 E] Hst Hx E1 [s1' E'] E2.
  pose proof (reach_inv valid items env s R) as I.
  destruct (set_runs s s1 g p x true I Hm Hs E) as [f [Ef St]]. destruct (St _ _ E1) as [D [_ Hr]].
  assert (Ff : find_in f g p = find (disk s) g p) by (rewrite <- (open_find valid items env s s1 g p E), Ef; reflexivity).
  destruct (replay_some (fst (set_writes valid items f g p x true)) f) as [f' Er].
  pose proof Er as Er'. rewrite set_writes_split, replay_app in Er'.
  destruct (replay_some (set_head f g) f) as [f1 E1']. rewrite E1' in Er'.
  pose proof E1' as E1''. rewrite <- (firstn_all (set_head f g)) in E1''. destruct (set_head_replay f g f1 _ E1'') as [H1 _].
  destruct (pure_replay g p _ (set_tail_pure valid items f g p x true) f1 f' Er') as [P1 _].
  unfold stored in Hst. destruct (find (disk s) g p) as [e|] eqn:Efd; [|discriminate].
  assert (P2 : find (disk s') g p = Some (mkentry false [])).
  { rewrite D, Er. cbn [find]. rewrite P1, H1. unfold set_tail, store_writes. rewrite Ff, Hx. reflexivity. }
  pose proof (reach_op valid items env s _ s' _ R E1) as R'. pose proof (reach_inv valid items env s' R') as I'.
  destruct (grows_op valid items env _ _ _ _ E1) as [w1 [X1 _]].
  assert (Hm' : c_mode s' = ModeRW) by (rewrite (x_mode _ _ _ X1); exact Hm).
  assert (Hs' : c_swmr s' = false) by (rewrite (x_swmr _ _ _ X1); exact Hs).
  destruct (set_runs s' s1' g p y false I' Hm' Hs' E') as [f2 [Ef2 St2]]. destruct (St2 _ _ E2) as [_ [_ Hr']].
  assert (Ff2 : find_in f2 g p = Some (mkentry false [])) by (rewrite <- P2, <- (open_find valid items env s' s1' g p E'), Ef2; reflexivity).
  repeat split.
  - rewrite Hr. unfold set_writes, store_writes. rewrite Hx, Ff. reflexivity.
  - unfold stored. rewrite P2. reflexivity.
  - rewrite (get_answer valid items env s' s1' g p I' E'), P2. eexists; reflexivity.
  - rewrite Hr'. unfold set_writes. rewrite Ff2. destruct (store_writes valid items g p y). reflexivity.
Qed.

(** a process that dies right after the deletion has lost the old spectrum and not stored the new *)
Theorem C15_crash_refuted : forall s s' g p x old r,
  reach valid items env s -> c_mode s = ModeRW -> c_swmr s = false -> c_open s = true ->
  stored (disk s) g p = Some old ->
  run_op valid items env (OSet g (PName p) (PObj (Some x)) true) s = (s', r) ->
  exists k, stored (crash_file s s' k) g p = None.
Proof.
  intros s s' g p x old r R Hm Hs Ho Hst E1.
  pose proof (reach_inv valid items env s R) as I. pose proof (open_open env s Ho) as E.
  destruct (set_runs s s g p x true I Hm Hs E) as [f [Ef St]]. destruct (St _ _ E1) as [D [L _]].
  unfold stored in Hst. rewrite Ef in Hst. cbn [find] in Hst.
  destruct (find_in f g p) as [e|] eqn:Efd; [|discriminate].
  exists 1. unfold crash_file. rewrite L, skipn_app, skipn_all, Nat.sub_diag, Ef. cbn [app skipn].
  rewrite set_writes_split. unfold set_head, set_tail. rewrite Efd.
  destruct (dget pystr_dec f g) eqn:Eg; [|unfold find_in in Efd; rewrite Eg in Efd; discriminate].
  cbn [app firstn replay fold_left apply_w]. unfold stored. cbn [find]. rewrite find_del.
  destruct (pystr_dec g g), (pystr_dec p p); congruence || reflexivity.
Qed.

(** but no crash, at any point of any history, leaves a damaged spectrum that looks complete: a
    spectrum that can be read is the one that was there before or exactly one that was set *)
Theorem C15_never_torn : forall s s' (h : list op) rs k g p b,
  run valid items env h s = (s', rs) -> stored (crash_file s s' k) g p = Some b ->
  stored (disk s) g p = Some b \/
  exists o x ov, In o h /\ writes_of o g p x ov /\ valid x = true /\ b = items x.
Proof.
  intros s s' h rs k g p b E Hb. destruct (crash_blocks s s' rs h E) as [ws [B [D C]]].
  rewrite C in Hb. unfold stored in Hb.
  destruct (find (replay (disk s) (firstn k ws)) g p) as [e|] eqn:Ef; [|discriminate].
  destruct (e_tag e) eqn:Et; [|discriminate]. injection Hb as <-.
  destruct (blocks_complete valid items _ _ _ _ _ B k e Ef Et) as [H|[x [ov [[o [Ho Hw]] [Hv He]]]]].
  - left. unfold stored. rewrite H, Et. reflexivity.
  - right. exists o, x, ov. auto.
Qed.

(** and the entry can be repaired by setting it again with overwrite *)
Theorem C15_recoverable : forall s s1 g p x,
  reach valid items env s -> c_mode s = ModeRW -> c_swmr s = false -> can_run s -> valid x = true ->
  run_op valid items env (OSet g (PName p) (PObj (Some x)) true) s = s1 ->
  snd s1 = Ok ADone /\ stored (disk (fst s1)) g p = Some (items x).
Proof.
  intros s s1 g p x R Hm Hs [s0 E] Hv E1. pose proof (reach_inv valid items env s R) as I.
  destruct s1 as [s1 r]. destruct (set_runs s s0 g p x true I Hm Hs E) as [f [Ef St]]. destruct (St _ _ E1) as [D [_ Hr]].
  assert (Hn : snd (set_writes valid items f g p x true) = None).
  { unfold set_writes, store_writes. rewrite Hv. destruct (find_in f g p); reflexivity. }
  rewrite Hn in Hr. subst r. split; [reflexivity|]. cbn [fst].
  destruct (set_ok valid items env s s1 g p x true ADone I E1) as [F _]. unfold stored. rewrite F. reflexivity.
Qed.

(** * C16 *)
(** in transactional mode every call leaves the file closed, whether it returns or raises *)
Theorem C16_closed_after_call : forall (o : op) s s' r, run_op valid items env o s = (s', r) ->
  c_keep s = false -> c_swmr s = false \/ c_mode s = ModeR \/ has_header s -> c_open s' = false.
Proof. exact (op_closed valid items env). Qed.

(** with keep_open the handle stays open through every history *)
Theorem C16_kept_open : forall s, reach valid items env s -> c_keep s = true -> c_open s = true.
Proof. intros s R. exact (proj2 (reach_inv valid items env s R)). Qed.

(** opening makes at most maxiter+1 attempts; it fails with OSError only if all of them were
    refused, or a missing file is opened read-only; otherwise it ends with an open file *)
Theorem C16_open_bounded : forall (s s' : state) r, c_open s = false -> c_swmr s = false ->
  open_ env s = (s', r) ->
  w_att s' - w_att s <= c_maxiter s + 1 /\
  ((r = Ok tt /\ c_open s' = true /\ disk s' <> None) \/
   (r = Err OSError /\ c_open s' = false /\
    ((forall k, k <= c_maxiter s -> env (w_att s + k) = true) \/ (c_mode s = ModeR /\ disk s = None)))).
Proof.
  intros s s' r Hc Hs E. destruct (open_spec valid items env s s' r Hc E) as [A T]. split; [lia|].
  destruct T as [T|[[T1 [T2 T3]]|[_ [_ [_ [C _]]]]]]; [left; exact T| |congruence].
  right. split; [exact T1|]. split; [exact T2|]. destruct T3 as [T3|T3]; [left; exact T3|right].
  unfold can_open in T3. destruct (c_mode s); [|tauto]. destruct (disk s); [|auto]. exfalso. apply T3. right. discriminate.
Qed.
End P.
Print Assumptions C14_get.
Print Assumptions C14_read_your_writes.
Print Assumptions C14_isolation.
Print Assumptions C14_no_overwrite.
Print Assumptions C14_read_only.
Print Assumptions C14_listing.
Print Assumptions C15_failed_overwrite_refuted.
Print Assumptions C15_crash_refuted.
Print Assumptions C15_never_torn.
Print Assumptions C15_recoverable.
Print Assumptions C16_closed_after_call.
Print Assumptions C16_kept_open.
Print Assumptions C16_open_bounded.

(** * concrete cases: objects are (valid?, contents) *)
Definition exvalid (x : bool * list nat) : bool := fst x.
Definition exitems (x : bool * list nat) : list nat := snd x.
Definition noenv (n : nat) : bool := false.
Definition ex_ops : list (@op (bool * list nat)) :=
  [OSet (s_ "g") (PName (s_ "a")) (PObj (Some (true, [1; 2]))) false;
   OSet (s_ "g") (PNames [s_ "b"; s_ "c"]) (PList [Some (true, [3]); Some (true, [4; 5])]) false].
Definition ex_state (keep : bool) : @state nat := fst (init noenv ModeRW keep false 2 None 0).
Definition ex_after keep := fst (run exvalid exitems noenv ex_ops (ex_state keep)).

Example C14_case : reach exvalid exitems noenv (ex_after false) /\ unique_links (disk (ex_after false)) /\
  can_run noenv (ex_after false) /\ stored (disk (ex_after false)) (s_ "g") (s_ "c") = Some [4; 5] /\
  snd (run_op exvalid exitems noenv OTree (ex_after false)) = Ok (ATree [(s_ "g", [s_ "a"; s_ "b"; s_ "c"])]).
Proof.
  split.
  { exists ModeRW, false, false, 2, None, 0, (ex_state false), ex_ops, (snd (run exvalid exitems noenv ex_ops (ex_state false))).
    split; [reflexivity|]. unfold ex_after. destruct (run exvalid exitems noenv ex_ops (ex_state false)); reflexivity. }
  split; [unfold disk; apply unique_replay; exact I|].
  split; [eexists; vm_compute; reflexivity|]. split; vm_compute; reflexivity.
Qed.

Example C15_case :
  let s := ex_after true in
  let '(s', r) := run_op exvalid exitems noenv (OSet (s_ "g") (PName (s_ "a")) (PObj (Some (false, []))) true) s in
  stored (disk s) (s_ "g") (s_ "a") = Some [1; 2] /\ r = Err AssertionError /\
  snd (run_op exvalid exitems noenv (OGet (s_ "g") (Some (s_ "a"))) s') = Err TypeError.
Proof. vm_compute. auto. Qed.

(** SWMR read-write on a file without header: the failing call leaves the file open although
    keep_open=False, and the next call runs on that handle *)
Theorem C16_swmr_left_open_refuted : forall (file0 : @file nat), dget pystr_dec file0 header = None ->
  exists s s', init noenv ModeRW false true 0 (Some file0) 0 = (s, Ok tt) /\ c_keep s = false /\
    run_op exvalid exitems noenv OGroups s = (s', Err ValueError) /\ c_open s' = true /\
    exists l, snd (run_op exvalid exitems noenv OGroups s') = Ok (ANames l).
Proof.
  intros f H. eexists; eexists. split; [reflexivity|]. split; [reflexivity|]. split; [|split].
  - unfold run_op, transactional, open_. cbn [c_open]. unfold mbind. cbn [c_maxiter try_open w_att noenv c_mode orb].
    unfold disk at 1. cbn [w_init w_log replay fold_left]. cbn [c_mode set_open tick].
    unfold update_header, with_file. cbn [c_open set_open tick]. unfold disk at 1. cbn [w_init w_log set_open tick replay fold_left disk].
    unfold disk. cbn [w_init w_log replay fold_left]. rewrite H. cbn [c_swmr]. reflexivity.
  - reflexivity.
  - eexists. reflexivity.
Qed.
Print Assumptions C16_swmr_left_open_refuted.

(** opening that is refused twice and then granted, with maxiter = 2 *)
Example C16_retry_case :
  let env := fun n => n <? 2 in
  let s := fst (init env ModeRW false false 2 (@None (@file nat)) 0) in
  can_run env s /\ snd (open_ env (fst (init env ModeRW false false 1 (@None (@file nat)) 0))) = Err OSError.
Proof. cbv zeta. split; [eexists; vm_compute; reflexivity | vm_compute; reflexivity]. Qed.
