(** Open and closed handles, and answers of the reading operations. *)
From Coq Require Import String.
From Verif Require Import PyDict PyStr.
From Verif Require Import Prelude ContainerModel ContainerProofs ContainerHist.
Open Scope nat_scope.

Section H.
Context {obj item : Type} (valid : obj -> bool) (items : obj -> list item) (env : nat -> bool).
Notation entry := (@entry item).
Notation file := (@file item).
Notation write := (@write item).
Notation state := (@state item).
Notation M := (@M item).
Notation op := (@op obj).
Implicit Types (f : file) (g p : pystr) (s : state).

Definition nobody : pystr -> pystr -> obj -> bool -> Prop := fun _ _ _ _ => False.

(** * opening *)
Definition can_open s : Prop := c_mode s = ModeRW \/ disk s <> None.

Lemma try_open_spec n : forall s s' r, try_open env n s = (s', r) ->
  w_att s < w_att s' <= w_att s + S n /\
  ((r = Ok tt /\ c_open s' = true /\ disk s' <> None /\ can_open s /\ env (w_att s' - 1) = false) \/
   (r = Err OSError /\ c_open s' = c_open s /\
    ((forall k, k <= n -> env (w_att s + k) = true) \/ ~ can_open s))).
Proof.
  assert (Step : forall s, env (w_att s) || match c_mode s, disk s with ModeR, None => true | _, _ => false end = true ->
     env (w_att s) = true \/ ~ can_open s).
  { intros s H. apply orb_true_iff in H. destruct H as [H|H]; [auto|]. right. unfold can_open.
    destruct (c_mode s), (disk s); try discriminate H. intros [C|C]; congruence. }
  assert (Succ : forall s, env (w_att s) || match c_mode s, disk s with ModeR, None => true | _, _ => false end = false ->
     env (w_att s) = false /\ can_open s /\
     disk (set_open (match c_mode s, disk s with ModeRW, None => log_w (tick s) [WFile] | _, _ => tick s end) true) <> None).
  { intros s H. apply orb_false_iff in H. destruct H as [H1 H2]. split; [exact H1|]. unfold can_open.
    destruct (c_mode s) eqn:Em, (disk s) as [f|] eqn:Ed; try discriminate H2.
    - split; [right; congruence|]. change (disk s <> None). congruence.
    - split; [left; reflexivity|]. change (disk s <> None). congruence.
    - split; [left; reflexivity|]. unfold disk. cbn [w_init w_log set_open log_w tick].
      rewrite replay_app. unfold disk in Ed. rewrite Ed. discriminate. }
  induction n as [|n IH]; intros s s' r E; cbn [try_open] in E;
    destruct (env (w_att s) || _) eqn:Er.
  - injection E as <- <-. cbn [tick w_att c_open]. split; [lia|]. right. split; [reflexivity|]. split; [reflexivity|].
    destruct (Step s Er) as [H|H]; [left|right; exact H]. intros k Hk. replace (w_att s + k) with (w_att s) by lia. exact H.
  - destruct (Succ s Er) as [H1 [H2 H3]]. injection E as <- <-.
    assert (A : w_att (set_open (match c_mode s with ModeR => tick s | ModeRW => match disk s with Some _ => tick s | None => log_w (tick s) [WFile] end end) true) = S (w_att s))
      by (destruct (c_mode s), (disk s); reflexivity).
    split; [rewrite A; lia|]. left. repeat split; auto. rewrite A. replace (S (w_att s) - 1) with (w_att s) by lia. exact H1.
  - destruct (IH _ _ _ E) as [I1 I2]. cbn [tick w_att] in I1. split; [lia|].
    destruct I2 as [I2|[I2 [I3 I4]]]; [left; exact I2|]. right. split; [exact I2|]. split; [exact I3|].
    destruct (Step s Er) as [H|H]; [|right; exact H]. destruct I4 as [I4|I4]; [left|right; exact I4].
    intros [|k] Hk; [rewrite Nat.add_0_r; exact H|]. replace (w_att s + S k) with (w_att (tick s) + k) by (cbn; lia).
    apply I4. lia.
  - destruct (Succ s Er) as [H1 [H2 H3]]. injection E as <- <-.
    assert (A : w_att (set_open (match c_mode s with ModeR => tick s | ModeRW => match disk s with Some _ => tick s | None => log_w (tick s) [WFile] end end) true) = S (w_att s))
      by (destruct (c_mode s), (disk s); reflexivity).
    split; [rewrite A; lia|]. left. repeat split; auto. rewrite A. replace (S (w_att s) - 1) with (w_att s) by lia. exact H1.
Qed.

(** the header group exists *)
Definition has_header s : Prop := has (disk s) header.

Lemma open_spec s s' r : c_open s = false -> open_ env s = (s', r) ->
  w_att s < w_att s' <= w_att s + S (c_maxiter s) /\
  ((r = Ok tt /\ c_open s' = true /\ disk s' <> None) \/
   (r = Err OSError /\ c_open s' = false /\
     ((forall k, k <= c_maxiter s -> env (w_att s + k) = true) \/ ~ can_open s)) \/
   (r = Err ValueError /\ c_open s' = true /\ disk s' <> None /\
     c_swmr s = true /\ c_mode s = ModeRW /\ ~ has_header s)).
Proof.
  intros Hc E. unfold open_ in E. rewrite Hc in E. unfold mbind in E.
  destruct (try_open env (c_maxiter s) s) as [s1 r1] eqn:E1.
  pose proof (try_open_spec _ _ _ _ E1) as [A T].
  destruct (grows_try valid items env nobody _ _ _ _ E1) as [ws [X [B _]]].
  destruct T as [[-> [O1 [D1 [C1 N1]]]]|[-> [O1 D1]]].
  - destruct (c_mode s1) eqn:Em.
    + injection E as <- <-. split; [exact A|]. left. auto.
    + unfold update_header, with_file in E. rewrite O1 in E.
      destruct (disk s1) as [f|] eqn:Ed; [|congruence].
      destruct (dget pystr_dec f header) eqn:Eh.
      * injection E as <- <-. split; [exact A|]. left. rewrite Ed. auto.
      * destruct (c_swmr s1) eqn:Es.
        -- injection E as <- <-. split; [exact A|]. right. right. rewrite Ed.
           rewrite (x_swmr _ _ _ X) in Es. rewrite (x_mode _ _ _ X) in Em. repeat split; auto.
           intros Hh. unfold has_header in Hh. pose proof (blocks_has valid items nobody _ _ header B (length ws) Hh) as Hb.
           rewrite firstn_all, <- (ext_disk _ _ _ X), Ed in Hb. cbn [has] in Hb. unfold has_group in Hb. congruence.
        -- injection E as <- <-. cbn [log_w w_att c_open]. split; [exact A|]. left. split; [reflexivity|]. split; [exact O1|].
           unfold disk. cbn [w_init w_log log_w]. rewrite replay_app. unfold disk in Ed. rewrite Ed. discriminate.
  - injection E as <- <-. split; [exact A|]. right. left. split; [reflexivity|]. split; [congruence | exact D1].
Qed.

Lemma open_open s : c_open s = true -> open_ env s = (s, Ok tt).
Proof. intros H. unfold open_. rewrite H. reflexivity. Qed.

(** * the handle after a call *)
Lemma trans_closed {A} (m : M A) s s' r : transactional env false m s = (s', r) ->
  (forall s1 s2 r2, m s1 = (s2, r2) -> c_keep s2 = c_keep s1) ->
  c_keep s = false -> c_swmr s = false \/ c_mode s = ModeR \/ has_header s -> c_open s' = false.
Proof.
  intros E K Hk Hs. unfold transactional in E. destruct (open_ env s) as [s1 [[]|e]] eqn:Eo.
  - destruct (grows_open valid items env nobody _ _ _ Eo) as [w1 [X1 _]].
    destruct (m s1) as [s2 [a|e]] eqn:Em; injection E as <- <-;
    rewrite (K _ _ _ Em), (x_keep _ _ _ X1), Hk; reflexivity.
  - injection E as <- <-. destruct (c_open s) eqn:Hc; [rewrite (open_open s Hc) in Eo; discriminate|].
    destruct (open_spec s s1 _ Hc Eo) as [_ [[? _]|[[_ [? _]]|[_ [_ [_ [C1 [C2 C3]]]]]]]]; [discriminate|assumption|].
    destruct Hs as [Hs|[Hs|Hs]]; [congruence|congruence|contradiction].
Qed.

Lemma op_closed (o : op) s s' r : run_op valid items env o s = (s', r) ->
  c_keep s = false -> c_swmr s = false \/ c_mode s = ModeR \/ has_header s -> c_open s' = false.
Proof.
  intros E. unfold run_op in E. apply (trans_closed _ _ _ _ E).
  intros s1 s2 r2 E2. cbn [body] in E2.
  assert (G : exists ws, ext s1 s2 ws).
  { destruct o; cbn [body] in E2; unfold fmap, mbind in E2.
    - destruct (set_body valid items env g nm x overwrite s1) as [s3 r3] eqn:E3.
      assert (s2 = s3) by (destruct r3; unfold ret in E2; congruence). subst s3.
      unfold set_body in E3. destruct (c_mode s1) eqn:Em; [injection E3 as <- <-; eexists; apply ext_refl|].
      destruct nm as [p|ps], x as [x|xs]; try (injection E3 as <- <-; eexists; apply ext_refl).
      + destruct (grows_set_one valid items env (fun _ _ _ _ => True) g p x overwrite (fun _ _ => I) _ _ _ E3) as [ws [X _]]. eauto.
      + destruct (length ps =? length xs); [|injection E3 as <- <-; eexists; apply ext_refl].
        destruct (grows_set_list valid items env (fun _ _ _ _ => True) g ps xs overwrite (fun _ _ _ => I) _ _ _ E3) as [ws [X _]]. eauto.
    - destruct (get_body g p s1) as [s3 r3] eqn:E3. assert (s2 = s3) by (destruct r3; unfold ret in E2; congruence). subst s3.
      destruct (grows_get valid items nobody g p _ _ _ E3) as [ws [X _]]; eauto.
    - destruct (spectra_body g s1) as [s3 r3] eqn:E3. assert (s2 = s3) by (destruct r3; unfold ret in E2; congruence). subst s3.
      destruct (grows_spectra valid items nobody g _ _ _ E3) as [ws [X _]]; eauto.
    - destruct (groups_body s1) as [s3 r3] eqn:E3. assert (s2 = s3) by (destruct r3; unfold ret in E2; congruence). subst s3.
      destruct (grows_groups valid items nobody _ _ _ E3) as [ws [X _]]; eauto.
    - destruct (tree_body env s1) as [s3 r3] eqn:E3. assert (s2 = s3) by (destruct r3; unfold ret in E2; congruence). subst s3.
      destruct (grows_tree valid items env nobody _ _ _ E3) as [ws [X _]]; eauto.
    - unfold with_file in E2. destruct (c_open s1); [destruct (disk s1)|]; cbn in E2; injection E2 as <- <-; eexists; apply ext_refl. }
  destruct G as [ws X]. exact (x_keep _ _ _ X).
Qed.

(** * a container kept open stays open, and an open container has a file *)
Definition sane s : Prop := c_open s = true -> disk s <> None.
Definition held s : Prop := c_keep s = true -> c_open s = true.
Definition inv s : Prop := sane s /\ held s.
Definition keeps {A} (m : M A) : Prop := forall s s' r, m s = (s', r) -> inv s -> inv s'.

Lemma keeps_id {A} (m : M A) : (forall s, fst (m s) = s) -> keeps m.
Proof. intros H s s' r E I. pose proof (H s) as Hs. rewrite E in Hs. cbn in Hs. subst s'. exact I. Qed.
Lemma keeps_bind {A B} (m : M A) (k : A -> M B) : keeps m -> (forall a, keeps (k a)) -> keeps (mbind m k).
Proof.
  intros H1 H2 s s' r E I. unfold mbind in E. destruct (m s) as [s1 [a|e]] eqn:E1.
  - exact (H2 a _ _ _ E (H1 _ _ _ E1 I)).
  - injection E as <- <-. exact (H1 _ _ _ E1 I).
Qed.
Lemma keeps_open : keeps (open_ env).
Proof.
  intros s s' r E [I1 I2]. destruct (c_open s) eqn:Hc.
  - rewrite (open_open s Hc) in E. injection E as <- <-. split; [exact I1 | exact I2].
  - destruct (open_spec s s' r Hc E) as [_ T].
    destruct (grows_open valid items env nobody _ _ _ E) as [ws [X _]].
    assert (Hk : c_keep s = false) by (destruct (c_keep s) eqn:K; [unfold held in I2; rewrite K in I2; specialize (I2 eq_refl); congruence | reflexivity]).
    split.
    + intros Ho. destruct T as [[_ [_ D]]|[[_ [C _]]|[_ [_ [D _]]]]]; [exact D | congruence | exact D].
    + intros K. rewrite (x_keep _ _ _ X) in K. congruence.
Qed.
Lemma keeps_trans nested {A} (m : M A) : keeps m -> keeps (transactional env nested m).
Proof.
  intros H s s' r E I. unfold transactional in E. destruct (open_ env s) as [s1 [[]|e]] eqn:Eo.
  - pose proof (keeps_open _ _ _ Eo I) as I1.
    destruct (m s1) as [s2 [a|e]] eqn:Em; injection E as <- <-; pose proof (H _ _ _ Em I1) as I2.
    + destruct (c_keep s2) eqn:K; [exact I2|]. cbn. destruct nested; [exact I2|]. split; [intros C; discriminate C|].
      intros C. cbn in C. congruence.
    + destruct (c_keep s2) eqn:K; [exact I2|]. split; [intros C; discriminate C|]. intros C. cbn in C. congruence.
  - injection E as <- <-. exact (keeps_open _ _ _ Eo I).
Qed.
Lemma keeps_file_id {A} (k : file -> M A) : (forall f s, fst (k f s) = s) -> keeps (with_file k).
Proof.
  intros H. apply keeps_id. intros s. unfold with_file. destruct (c_open s); [|reflexivity].
  destruct (disk s) as [f|]; [apply H | reflexivity].
Qed.
Lemma keeps_spectra g : keeps (@spectra_body item g).
Proof. apply keeps_file_id. intros f s. destruct (dget pystr_dec f g); reflexivity. Qed.
Lemma keeps_groups : keeps (@groups_body item).
Proof. apply keeps_file_id. intros f s. reflexivity. Qed.
Lemma keeps_tree : keeps (tree_body env).
Proof.
  apply keeps_bind; [apply keeps_trans, keeps_groups|]. intros gs.
  induction gs as [|g gs IH]; cbn [tree_loop]; [apply keeps_id; reflexivity|].
  apply keeps_bind; [apply keeps_trans, keeps_spectra|]. intros l.
  apply keeps_bind; [exact IH|]. intros r. apply keeps_id. reflexivity.
Qed.
Lemma log_inv s ws : c_open s = true -> disk s <> None -> inv s -> inv (log_w s ws).
Proof.
  intros Ho Hd [I1 I2]. split; [|exact I2]. intros _. unfold disk. cbn [w_init w_log log_w]. rewrite replay_app.
  unfold disk in Hd. destruct (replay (w_init s) (w_log s)) as [f|]; [|congruence].
  destruct (replay_some ws f) as [f' ->]. discriminate.
Qed.
Lemma keeps_set_one g p x ov : keeps (set_one_body valid items env g p x ov).
Proof.
  intros s s' r E I. unfold set_one_body in E. destruct (c_mode s) eqn:Em; [injection E as <- <-; exact I|].
  match type of E with ?m s = _ => assert (K : keeps m); [|exact (K _ _ _ E I)] end. clear E.
  apply keeps_bind; [|intros [] s1 s2 r2 E2 I2].
  - destruct (c_swmr s); [|apply keeps_id; reflexivity]. apply keeps_bind; [apply keeps_trans, keeps_tree|].
    intros t. destruct (in_tree g p t); apply keeps_id; reflexivity.
  - destruct x as [x|]; [|injection E2 as <- <-; exact I2]. unfold with_file in E2.
    destruct (c_open s1) eqn:Ho; [|injection E2 as <- <-; exact I2].
    destruct (disk s1) as [f|] eqn:Ed; [|injection E2 as <- <-; exact I2].
    destruct (set_writes valid items f g p x ov) as [ws e].
    assert (Hs : s2 = log_w s1 ws) by (destruct e; cbn in E2; injection E2 as <- <-; reflexivity). subst s2.
    apply log_inv; [exact Ho | congruence | exact I2].
Qed.
Lemma keeps_set_list g : forall ps xs ov, keeps (set_list valid items env g ps xs ov).
Proof.
  induction ps as [|p ps IH]; intros xs ov; cbn [set_list]; [apply keeps_id; reflexivity|].
  destruct xs as [|[x|] xs]; [apply keeps_id; reflexivity| |apply keeps_id; reflexivity].
  apply keeps_bind; [apply keeps_trans, keeps_set_one | intros _; apply IH].
Qed.
Lemma keeps_op (o : op) : keeps (run_op valid items env o).
Proof.
  apply keeps_trans. destruct o; cbn [body]; unfold fmap.
  - apply keeps_bind; [|intros; apply keeps_id; reflexivity]. intros s s' r E I. unfold set_body in E.
    destruct (c_mode s); [injection E as <- <-; exact I|].
    destruct nm as [p|ps], x as [x|xs]; try (injection E as <- <-; exact I).
    + exact (keeps_set_one _ _ _ _ _ _ _ E I).
    + destruct (length ps =? length xs); [exact (keeps_set_list _ _ _ _ _ _ _ E I)|injection E as <- <-; exact I].
  - apply keeps_bind; [|intros; apply keeps_id; reflexivity]. apply keeps_file_id. intros f s.
    destruct (dget pystr_dec f g) as [es|]; [|reflexivity]. destruct p as [p|]; [|reflexivity]. destruct (dget pystr_dec es p); reflexivity.
  - apply keeps_bind; [apply keeps_spectra | intros; apply keeps_id; reflexivity].
  - apply keeps_bind; [apply keeps_groups | intros; apply keeps_id; reflexivity].
  - apply keeps_bind; [apply keeps_tree | intros; apply keeps_id; reflexivity].
  - apply keeps_file_id. reflexivity.
Qed.
Lemma keeps_run : forall (h : list op) s s' rs, run valid items env h s = (s', rs) -> inv s -> inv s'.
Proof.
  induction h as [|o h IH]; intros s s' rs E I; cbn [run] in E; [injection E as <- <-; exact I|].
  destruct (run_op valid items env o s) as [s1 r] eqn:E1. destruct (run valid items env h s1) as [s2 rs2] eqn:E2.
  injection E as <- <-. exact (IH _ _ _ E2 (keeps_op o _ _ _ E1 I)).
Qed.

Lemma init_inv mode keep swmr maxiter d att s : init env mode keep swmr maxiter d att = (s, Ok tt) ->
  inv s /\ c_mode s = mode /\ c_keep s = keep /\ c_swmr s = swmr /\ c_maxiter s = maxiter.
Proof.
  unfold init. destruct keep; intros E.
  - set (s0 := mkstate mode true swmr maxiter false d [] att) in *.
    destruct (grows_open valid items env nobody _ _ _ E) as [ws [X _]].
    destruct (open_spec s0 s (Ok tt) eq_refl E) as [_ [[_ [O D]]|[[C _]|[C _]]]]; try discriminate.
    split; [split; [intros _; exact D | intros _; exact O]|]. destruct X. auto.
  - injection E as <-. split; [split; intros C; discriminate C|]. auto.
Qed.

(** states of a container object: constructed, then any calls *)
Definition reach (s : state) : Prop :=
  exists mode keep swmr maxiter d att s0 (h : list op) rs,
    init env mode keep swmr maxiter d att = (s0, Ok tt) /\ run valid items env h s0 = (s, rs).
Lemma reach_inv s : reach s -> inv s.
Proof.
  intros [mode [keep [swmr [mi [d [att [s0 [h [rs [E1 E2]]]]]]]]]].
  apply (keeps_run h s0 s rs E2). apply (init_inv _ _ _ _ _ _ _ E1).
Qed.
Lemma run_app : forall (h1 h2 : list op) s, run valid items env (h1 ++ h2) s =
  (fst (run valid items env h2 (fst (run valid items env h1 s))),
   snd (run valid items env h1 s) ++ snd (run valid items env h2 (fst (run valid items env h1 s)))).
Proof.
  induction h1 as [|o h1 IH]; intros h2 s; cbn [app run].
  - cbn [fst snd app]; destruct (run valid items env h2 s); reflexivity.
  - destruct (run_op valid items env o s) as [s1 r]. rewrite IH.
    destruct (run valid items env h1 s1) as [s2 r2]. cbn [fst snd app]. reflexivity.
Qed.
Lemma reach_run s (h : list op) s' rs : reach s -> run valid items env h s = (s', rs) -> reach s'.
Proof.
  intros [mode [keep [swmr [mi [d [att [s0 [h0 [rs0 [E1 E2]]]]]]]]]] E.
  exists mode, keep, swmr, mi, d, att, s0, (h0 ++ h), (rs0 ++ rs). split; [exact E1|].
  rewrite run_app, E2. cbn [fst snd]. rewrite E. reflexivity.
Qed.
Lemma reach_op s (o : op) s' r : reach s -> run_op valid items env o s = (s', r) -> reach s'.
Proof.
  intros R E. apply (reach_run s [o] s' [r] R). cbn [run]. rewrite E. reflexivity.
Qed.

(** * reading *)
Lemma open_find s s1 g p : open_ env s = (s1, Ok tt) -> find (disk s1) g p = find (disk s) g p.
Proof.
  intros E. destruct (grows_open valid items env nobody _ _ _ E) as [ws [X [B _]]].
  rewrite (ext_disk _ _ _ X), <- (firstn_all ws). apply (blocks_untouched valid items nobody _ _ _ _ B). intros ? ? [].
Qed.
Lemma open_has s s1 g : open_ env s = (s1, Ok tt) -> has (disk s) g -> has (disk s1) g.
Proof.
  intros E. destruct (grows_open valid items env nobody _ _ _ E) as [ws [X [B _]]].
  rewrite (ext_disk _ _ _ X), <- (firstn_all ws). apply (blocks_has valid items nobody _ _ _ B).
Qed.
Lemma open_ok_file s s1 : inv s -> open_ env s = (s1, Ok tt) -> c_open s1 = true /\ exists f, disk s1 = Some f.
Proof.
  intros I E. assert (O : c_open s1 = true).
  { destruct (c_open s) eqn:Hc; [rewrite (open_open s Hc) in E; injection E as <-; exact Hc|].
    destruct (open_spec s s1 _ Hc E) as [_ [[_ [O _]]|[[C _]|[C _]]]]; [exact O | discriminate..]. }
  split; [exact O|]. destruct (keeps_open _ _ _ E I) as [Sa _]. specialize (Sa O).
  destruct (disk s1) as [f|]; [eauto | congruence].
Qed.

Lemma get_answer s s1 g p : inv s -> open_ env s = (s1, Ok tt) ->
  snd (run_op valid items env (OGet g (Some p)) s) =
  match find (disk s) g p with
  | Some e => if e_tag e then Ok (ASpectra [e_body e]) else Err TypeError
  | None => Err KeyError
  end.
Proof.
  intros I E. destruct (open_ok_file s s1 I E) as [O [f Ef]].
  rewrite <- (open_find s s1 g p E). unfold run_op, transactional. rewrite E. cbn [body]. unfold fmap, mbind, get_body, with_file.
  rewrite O, Ef. cbn [find]. unfold find_in. destruct (dget pystr_dec f g) as [es|]; [|reflexivity].
  destruct (dget pystr_dec es p) as [e|]; [|reflexivity]. unfold load. destruct (e_tag e); reflexivity.
Qed.

(** link names are unique *)
Definition unique_links (o : option file) : Prop :=
  match o with
  | None => True
  | Some f => NoDup (map fst f) /\ forall g es, dget pystr_dec f g = Some es -> NoDup (map fst es)
  end.
Lemma dremove_NoDup {V} (d : list (pystr * V)) k : NoDup (map fst d) -> NoDup (map fst (dremove d k)).
Proof.
  unfold dremove. induction d as [|[k0 v0] d IH]; cbn [map fst filter]; intros N; [constructor|]. inversion N as [|? ? N1 N2]; subst.
  destruct (pystr_dec k0 k); cbn [map fst]; [auto|]. constructor; [|auto].
  intros Hi. apply N1. apply in_map_iff in Hi. destruct Hi as [[k1 v1] [<- Hi]]. apply filter_In in Hi.
  apply (in_map fst) with (x := (k1, v1)). apply Hi.
Qed.
Lemma unique_dset f g es : unique_links (Some f) -> NoDup (map fst es) -> unique_links (Some (dset pystr_dec f g es)).
Proof.
  intros [U1 U2] N. split; [apply dset_NoDup; exact U1|]. intros g' es' E. rewrite dget_dset in E.
  destruct (pystr_dec g' g); [injection E as <-; exact N | exact (U2 _ _ E)].
Qed.
Lemma unique_group f g : unique_links (Some f) -> NoDup (map fst (group_of f g)).
Proof. intros [_ U]. unfold group_of. destruct (dget pystr_dec f g) eqn:E; [exact (U _ _ E) | constructor]. Qed.
Lemma unique_apply o (w : write) : unique_links o -> unique_links (apply_w o w).
Proof.
  intros U. destruct o as [f|]; [|destruct w; cbn; try exact I; split; [constructor | intros ? ? E; discriminate E]].
  pose proof (fun g => unique_group f g U) as UG.
  destruct w; cbn [apply_w].
  - exact U.
  - apply unique_dset; [exact U | constructor].
  - apply unique_dset; [exact U|]. apply dset_NoDup, UG.
  - apply unique_dset; [exact U|]. apply dremove_NoDup, UG.
  - destruct (find_in f g p); [|exact U]. apply unique_dset; [exact U|]. apply dset_NoDup, UG.
  - destruct (find_in f g p); [|exact U]. apply unique_dset; [exact U|]. apply dset_NoDup, UG.
Qed.
Lemma unique_replay (ws : list write) : forall o, unique_links o -> unique_links (replay o ws).
Proof. induction ws as [|w ws IH]; intros o U; [exact U|]. cbn. apply IH, unique_apply, U. Qed.

Lemma tagged_In (es : list (pystr * entry)) p : NoDup (map fst es) ->
  In p (map fst (tagged es)) <-> exists e, dget pystr_dec es p = Some e /\ e_tag e = true.
Proof.
  intros N. unfold tagged. rewrite in_map_iff. split.
  - intros [[p' e] [<- H]]. apply filter_In in H. exists e. split; [|apply H]. apply In_dget; [exact N | apply H].
  - intros [e [H1 H2]]. exists (p, e). split; [reflexivity|]. apply filter_In. split; [|exact H2].
    apply dget_In in H1. exact H1.
Qed.

Lemma open_unique s s1 : unique_links (disk s) -> open_ env s = (s1, Ok tt) -> unique_links (disk s1).
Proof.
  intros U E. destruct (grows_open valid items env nobody _ _ _ E) as [ws [X [B _]]].
  rewrite (ext_disk _ _ _ X). apply unique_replay; exact U.
Qed.

Lemma spectra_answer s s1 g : inv s -> unique_links (disk s) -> open_ env s = (s1, Ok tt) -> has (disk s) g ->
  exists l, snd (run_op valid items env (OSpectra g) s) = Ok (ANames l) /\
    forall p, In p l <-> exists e, find (disk s) g p = Some e /\ e_tag e = true.
Proof.
  intros I U E Hg. destruct (open_ok_file s s1 I E) as [O [f Ef]]. pose proof (open_has s s1 g E Hg) as Hg1.
  pose proof (open_unique s s1 U E) as U1. rewrite Ef in Hg1, U1. cbn in Hg1. unfold has_group in Hg1.
  unfold run_op, transactional. rewrite E. cbn [body]. unfold fmap, mbind, spectra_body, with_file. rewrite O, Ef.
  destruct (dget pystr_dec f g) as [es|] eqn:Eg; [|congruence]. eexists. split; [reflexivity|].
  intros p. rewrite (tagged_In es p (proj2 U1 _ _ Eg)). rewrite <- (open_find s s1 g p E), Ef. cbn [find]. unfold find_in.
  rewrite Eg. reflexivity.
Qed.

Lemma groups_answer s s1 : inv s -> open_ env s = (s1, Ok tt) ->
  exists l, snd (run_op valid items env OGroups s) = Ok (ANames l) /\
    forall g, In g l <-> g <> header /\ has (disk s1) g.
Proof.
  intros I E. destruct (open_ok_file s s1 I E) as [O [f Ef]].
  unfold run_op, transactional. rewrite E. cbn [body]. unfold fmap, mbind, groups_body, with_file. rewrite O, Ef.
  eexists. split; [reflexivity|]. intros g. rewrite filter_In. cbn [has]. unfold has_group.
  assert (Q : In g (map fst f) <-> dget pystr_dec f g <> None).
  { pose proof (dget_None pystr_dec f g) as D. destruct (in_dec pystr_dec g (map fst f)) as [H|H]; [|tauto].
    destruct (dget pystr_dec f g); [split; [discriminate|auto]|]. tauto. }
  destruct (pystr_dec g header) as [->|N]; [split; [intros [_ C]; discriminate C | tauto]|].
  rewrite Q. tauto.
Qed.

(** other groups are not affected by opening *)
Lemma open_has_rev s s1 g : g <> header -> open_ env s = (s1, Ok tt) -> has (disk s1) g -> has (disk s) g.
Proof.
  intros N E. destruct (grows_open valid items env nobody _ _ _ E) as [ws [X [B _]]]. rewrite (ext_disk _ _ _ X). clear X E.
  induction B as [o|ws B IH|f ws H B IH|f g0 p0 x ov wa wb Ha E B IH]; intros Hg.
  - exact Hg.
  - change (replay None (WFile :: ws)) with (replay (Some []) ws) in Hg. apply IH in Hg. cbn in Hg. contradiction Hg; reflexivity.
  - change (replay (Some f) (WGroup header :: ws)) with (replay (Some (dset pystr_dec f header [])) ws) in Hg.
    apply IH in Hg. cbn [has] in *. unfold has_group in *. rewrite dget_dset in Hg. destruct (pystr_dec g header); congruence.
  - contradiction Ha.
Qed.

(** a successful single set *)
Lemma set_ok s s' g p x ov a : inv s -> run_op valid items env (OSet g (PName p) (PObj (Some x)) ov) s = (s', Ok a) ->
  find (disk s') g p = Some (mkentry true (items x)) /\ has (disk s') g /\ valid x = true /\
  (ov = true \/ find (disk s) g p = None).
Proof.
  intros I E. unfold run_op, transactional in E. destruct (open_ env s) as [s1 [[]|e]] eqn:Eo; [|discriminate].
  pose proof (keeps_open _ _ _ Eo I) as I1.
  cbn [body] in E. unfold fmap, mbind at 1 in E.
  destruct (set_body valid items env g (PName p) (PObj (Some x)) ov s1) as [s2 [[]|e]] eqn:Es; [|destruct (c_keep s2); discriminate].
  cbn [ret] in E. injection E as E _.
  assert (D : disk s' = disk s2) by (subst s'; destruct (c_keep s2 || false); reflexivity). rewrite D. clear E D.
  unfold set_body in Es. destruct (c_mode s1) eqn:Em; [discriminate|].
  unfold set_one_body in Es. rewrite Em in Es. unfold mbind at 1 in Es.
  match type of Es with context [match ?m s1 with _ => _ end] => destruct (m s1) as [s3 [[]|e3]] eqn:E3 end; [|discriminate].
  assert (F : find (disk s3) g p = find (disk s) g p).
  { rewrite <- (open_find s s1 g p Eo).
    assert (G : grows valid items nobody (if c_swmr s1 then mbind (transactional env true (tree_body env))
              (fun t : list (pystr * list pystr) => if in_tree g p t then ret tt else raise ValueError) else ret tt)).
    { destruct (c_swmr s1); [|apply grows_ret]. apply grows_bind; [apply grows_trans, grows_tree|].
      intros t. destruct (in_tree g p t); [apply grows_ret | apply grows_raise]. }
    destruct (G _ _ _ E3) as [ws [X [B _]]]. rewrite (ext_disk _ _ _ X), <- (firstn_all ws).
    apply (blocks_untouched valid items nobody _ _ _ _ B). intros ? ? []. }
  rewrite <- F. unfold with_file in Es. destruct (c_open s3); [|discriminate].
  destruct (disk s3) as [f|] eqn:Ed; [|discriminate].
  destruct (set_writes valid items f g p x ov) as [ws e] eqn:Ew. destruct e; [cbn in Es; discriminate|].
  cbn in Es. injection Es as <-.
  assert (Ed2 : disk (log_w s3 ws) = replay (Some f) ws).
  { unfold disk. cbn [w_init w_log log_w]. rewrite replay_app. unfold disk in Ed. rewrite Ed. reflexivity. }
  rewrite Ed2. destruct (replay_some ws f) as [f' Er]. rewrite Er. cbn [find has].
  pose proof (set_full valid items f g p x ov f' None) as SF. rewrite Ew in SF. cbn [fst snd] in SF.
  destruct (SF Er eq_refl) as [S1 [_ S3]]. destruct (S1 eq_refl) as [A1 [A2 A3]]. auto.
Qed.
End H.
