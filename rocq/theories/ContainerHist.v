(** Histories of container operations: the structure of the log of writes, and file handles. *)
From Coq Require Import String.
From Verif Require Import PyDict PyStr.
From Verif Require Import Prelude ContainerModel ContainerProofs.
Open Scope nat_scope.

Section Hist.
Context {obj item : Type} (valid : obj -> bool) (items : obj -> list item) (env : nat -> bool).
Notation entry := (@entry item).
Notation file := (@file item).
Notation write := (@write item).
Notation state := (@state item).
Notation M := (@M item).
Notation op := (@op obj).
Implicit Types (f : file) (g p : pystr) (s : state) (al : pystr -> pystr -> obj -> bool -> Prop).

(** * the log is a sequence of complete calls *)
Inductive blocks (allowed : pystr -> pystr -> obj -> bool -> Prop) : option file -> list write -> Prop :=
| b_nil o : blocks allowed o []
| b_file ws : blocks allowed (Some []) ws -> blocks allowed None (WFile :: ws)
| b_header f ws : dget pystr_dec f header = None ->
    blocks allowed (Some (dset pystr_dec f header [])) ws -> blocks allowed (Some f) (WGroup header :: ws)
| b_set f g p x ov ws1 ws2 : allowed g p x ov -> ws1 = fst (set_writes valid items f g p x ov) ->
    blocks allowed (replay (Some f) ws1) ws2 -> blocks allowed (Some f) (ws1 ++ ws2).

Lemma blocks_app al o ws1 : blocks al o ws1 -> forall ws2, blocks al (replay o ws1) ws2 -> blocks al o (ws1 ++ ws2).
Proof.
  induction 1 as [o|ws B IH|f ws H B IH|f g p x ov wa wb Ha E B IH]; intros ws2 B2.
  - exact B2.
  - cbn. apply b_file. apply IH. exact B2.
  - cbn. apply b_header; [exact H|]. apply IH. exact B2.
  - rewrite <- app_assoc. eapply b_set; [exact Ha | exact E |]. apply IH. rewrite <- replay_app. exact B2.
Qed.

Lemma blocks_mono (al al' : pystr -> pystr -> obj -> bool -> Prop) o ws :
  (forall g p x ov, al g p x ov -> al' g p x ov) -> blocks al o ws -> blocks al' o ws.
Proof.
  intros Hm. induction 1; [constructor | constructor; assumption | constructor; assumption | econstructor; eauto].
Qed.

Record ext (s s' : state) (ws : list write) : Prop := {
  x_mode : c_mode s' = c_mode s;
  x_keep : c_keep s' = c_keep s;
  x_swmr : c_swmr s' = c_swmr s;
  x_maxiter : c_maxiter s' = c_maxiter s;
  x_init : w_init s' = w_init s;
  x_log : w_log s' = w_log s ++ ws;
  x_att : w_att s <= w_att s' }.

Lemma ext_refl s : ext s s [].
Proof. constructor; try reflexivity. rewrite app_nil_r. reflexivity. Qed.
Lemma ext_trans s1 s2 s3 w1 w2 : ext s1 s2 w1 -> ext s2 s3 w2 -> ext s1 s3 (w1 ++ w2).
Proof. intros [] []. constructor; try congruence; try lia. rewrite x_log1, x_log0, app_assoc. reflexivity. Qed.
Lemma ext_disk s s' ws : ext s s' ws -> disk s' = replay (disk s) ws.
Proof. intros []. unfold disk. rewrite x_init0, x_log0, replay_app. reflexivity. Qed.
Lemma ext_close s s' ws b : ext s s' ws -> ext s (set_open s' b) ws.
Proof. intros []. constructor; assumption. Qed.

Definition grows (al : pystr -> pystr -> obj -> bool -> Prop) {A} (m : M A) : Prop :=
  forall s s' r, m s = (s', r) ->
  exists ws, ext s s' ws /\ blocks al (disk s) ws /\ (c_mode s = ModeR -> ws = []).

Lemma grows_id al {A} (m : M A) : (forall s, fst (m s) = s) -> grows al m.
Proof.
  intros H s s' r E. pose proof (H s) as Hs. rewrite E in Hs. cbn in Hs. subst s'.
  exists []. split; [apply ext_refl|]. split; [constructor | reflexivity].
Qed.

Lemma grows_bind al {A B} (m : M A) (k : A -> M B) : grows al m -> (forall a, grows al (k a)) -> grows al (mbind m k).
Proof.
  intros H1 H2 s s' r E. unfold mbind in E. destruct (m s) as [s1 [a|e]] eqn:E1.
  - destruct (H1 _ _ _ E1) as [w1 [X1 [B1 R1]]]. destruct (H2 a _ _ _ E) as [w2 [X2 [B2 R2]]].
    exists (w1 ++ w2). split; [eapply ext_trans; eassumption|]. split.
    + apply blocks_app; [exact B1|]. rewrite <- (ext_disk _ _ _ X1). exact B2.
    + intros R. rewrite R1 by exact R. rewrite R2; [reflexivity|]. rewrite (x_mode _ _ _ X1). exact R.
  - injection E as <- <-. apply (H1 _ _ _ E1).
Qed.

Lemma grows_file al {A} (k : file -> M A) : (forall f s, disk s = Some f -> forall s' r, k f s = (s', r) ->
   exists ws, ext s s' ws /\ blocks al (disk s) ws /\ (c_mode s = ModeR -> ws = [])) -> grows al (with_file k).
Proof.
  intros H s s' r E. unfold with_file in E. destruct (c_open s).
  - destruct (disk s) as [f|] eqn:Ed; [rewrite <- Ed; exact (H f s Ed _ _ E)|].
    injection E as <- <-. exists []. split; [apply ext_refl|]. split; [constructor | reflexivity].
  - injection E as <- <-. exists []. split; [apply ext_refl|]. split; [constructor | reflexivity].
Qed.

Lemma grows_file_id al {A} (k : file -> M A) : (forall f s, fst (k f s) = s) -> grows al (with_file k).
Proof.
  intros H. apply grows_id. intros s. unfold with_file. destruct (c_open s); [|reflexivity].
  destruct (disk s) as [f|]; [apply H | reflexivity].
Qed.

Lemma ext_log s ws : ext s (log_w s ws) ws.
Proof. constructor; try reflexivity. Qed.
Lemma ext_tick s : ext s (tick s) [].
Proof. constructor; try reflexivity; [cbn; rewrite app_nil_r; reflexivity | cbn; lia]. Qed.

Lemma grows_try al n : grows al (try_open env n).
Proof.
  induction n as [|n IH]; intros s s' r E; cbn [try_open] in E.
  - destruct (env (w_att s) || _) eqn:Er.
    + injection E as <- <-. exists []. split; [apply ext_tick|]. split; [constructor|reflexivity].
    + injection E as <- <-. destruct (c_mode s) eqn:Em; [|destruct (disk s) as [f|] eqn:Ed].
      * exists []. split; [apply ext_close, ext_tick|]. split; [constructor|reflexivity].
      * exists []. split; [apply ext_close, ext_tick|]. split; [constructor|congruence].
      * exists [WFile]. split; [|split; [apply b_file; constructor|congruence]].
        apply ext_close. change [WFile] with (@nil write ++ [WFile]).
        eapply ext_trans; [apply ext_tick | apply ext_log].
  - destruct (env (w_att s) || _) eqn:Er.
    + destruct (IH _ _ _ E) as [ws [X [B R]]]. exists ws. split; [|split; [exact B|exact R]].
      change ws with ([] ++ ws). eapply ext_trans; [apply ext_tick | exact X].
    + injection E as <- <-. destruct (c_mode s) eqn:Em; [|destruct (disk s) as [f|] eqn:Ed].
      * exists []. split; [apply ext_close, ext_tick|]. split; [constructor|reflexivity].
      * exists []. split; [apply ext_close, ext_tick|]. split; [constructor|congruence].
      * exists [WFile]. split; [|split; [apply b_file; constructor|congruence]].
        apply ext_close. change [WFile] with (@nil write ++ [WFile]).
        eapply ext_trans; [apply ext_tick | apply ext_log].
Qed.

Lemma grows_open al : grows al (open_ env).
Proof.
  intros s s' r E. unfold open_ in E. destruct (c_open s).
  - injection E as <- <-. exists []. split; [apply ext_refl|]. split; [constructor | reflexivity].
  - revert E. apply grows_bind; [apply grows_try|]. intros [] s1 s2 r2 E.
    destruct (c_mode s1) eqn:Em.
    + injection E as <- <-. exists []. split; [apply ext_refl|]. split; [constructor | reflexivity].
    + unfold update_header, with_file in E. destruct (c_open s1).
      * destruct (disk s1) as [f|] eqn:Ed.
        -- destruct (dget pystr_dec f header) eqn:Eh.
           ++ injection E as <- <-. exists []. split; [apply ext_refl|]. split; [constructor | reflexivity].
           ++ destruct (c_swmr s1).
              ** injection E as <- <-. exists []. split; [apply ext_refl|]. split; [constructor | reflexivity].
              ** injection E as <- <-. exists [WGroup header]. split; [apply ext_log|].
                 split; [|congruence]. apply b_header; [exact Eh|]. constructor.
        -- injection E as <- <-. exists []. split; [apply ext_refl|]. split; [constructor | reflexivity].
      * injection E as <- <-. exists []. split; [apply ext_refl|]. split; [constructor | reflexivity].
Qed.

Lemma grows_trans al nested {A} (m : M A) : grows al m -> grows al (transactional env nested m).
Proof.
  intros H s s' r E. unfold transactional in E. destruct (open_ env s) as [s1 [[]|e]] eqn:Eo.
  - destruct (grows_open al _ _ _ Eo) as [w1 [X1 [B1 R1]]].
    destruct (m s1) as [s2 [a|e]] eqn:Em; injection E as <- <-;
    destruct (H _ _ _ Em) as [w2 [X2 [B2 R2]]]; exists (w1 ++ w2);
    (split; [eapply ext_trans; [exact X1|]|split;
       [apply blocks_app; [exact B1|]; rewrite <- (ext_disk _ _ _ X1); exact B2
       |intros R; rewrite R1 by exact R; rewrite R2; [reflexivity|]; rewrite (x_mode _ _ _ X1); exact R]]).
    + destruct (c_keep s2 || nested); [exact X2 | apply ext_close; exact X2].
    + destruct (c_keep s2); [exact X2 | apply ext_close; exact X2].
  - injection E as <- <-. apply (grows_open al _ _ _ Eo).
Qed.

Lemma grows_spectra al g : grows al (spectra_body g).
Proof. apply grows_file_id. intros f s. destruct (dget pystr_dec f g); reflexivity. Qed.
Lemma grows_groups al : grows al (@groups_body item).
Proof. apply grows_file_id. intros f s. reflexivity. Qed.
Lemma grows_ret al {A} (a : A) : grows al (ret a : M A).
Proof. apply grows_id. reflexivity. Qed.
Lemma grows_raise al {A} e : grows al (raise e : M A).
Proof. apply grows_id. reflexivity. Qed.
Lemma grows_tree_loop al gs : grows al (tree_loop env gs).
Proof.
  induction gs as [|g gs IH]; cbn [tree_loop]; [apply grows_ret|].
  apply grows_bind; [apply grows_trans, grows_spectra|]. intros l.
  apply grows_bind; [exact IH|]. intros r. apply grows_ret.
Qed.
Lemma grows_tree al : grows al (tree_body env).
Proof. apply grows_bind; [apply grows_trans, grows_groups|]. intros gs. apply grows_tree_loop. Qed.
Lemma grows_get al g (p : option pystr) : grows al (get_body g p).
Proof.
  apply grows_file_id. intros f s. destruct (dget pystr_dec f g) as [es|]; [|reflexivity].
  destruct p as [p|]; [|reflexivity]. destruct (dget pystr_dec es p); reflexivity.
Qed.

Lemma grows_set_one al g p x ov : (forall x', x = Some x' -> al g p x' ov) ->
  grows al (set_one_body valid items env g p x ov).
Proof.
  intros Ha s s' r E. unfold set_one_body in E. destruct (c_mode s) eqn:Em.
  - injection E as <- <-. exists []. split; [apply ext_refl|]. split; [constructor | reflexivity].
  - assert (G : grows al (if c_swmr s then mbind (transactional env true (tree_body env)) (fun t => if in_tree g p t then ret tt else raise ValueError) else ret tt)).
    { destruct (c_swmr s); [|apply grows_ret]. apply grows_bind; [apply grows_trans, grows_tree|].
      intros t. destruct (in_tree g p t); [apply grows_ret | apply grows_raise]. }
    unfold mbind at 1 in E.
    match type of G with grows _ ?m => set (mm := m) in * end.
    destruct (mm s) as [s1 [a|e]] eqn:E1.
    + destruct (G _ _ _ E1) as [w1 [X1 [B1 R1]]].
      destruct x as [x|].
      * unfold with_file in E. destruct (c_open s1).
        -- destruct (disk s1) as [f|] eqn:Ed.
           ++ destruct (set_writes valid items f g p x ov) as [ws e] eqn:Ew.
              assert (Hs' : s' = log_w s1 ws).
              { destruct e; cbn in E; injection E as <- <-; reflexivity. }
              subst s'. exists (w1 ++ ws). split; [eapply ext_trans; [exact X1 | apply ext_log]|].
              split; [|congruence]. apply blocks_app; [exact B1|]. rewrite <- (ext_disk _ _ _ X1), Ed.
              rewrite <- (app_nil_r ws). apply (b_set al f g p x ov ws []).
              ** apply Ha. reflexivity.
              ** rewrite Ew. reflexivity.
              ** constructor.
           ++ injection E as <- <-. exists w1. split; [exact X1|split; [exact B1|first [exact R1|congruence]]].
        -- injection E as <- <-. exists w1. split; [exact X1|split; [exact B1|first [exact R1|congruence]]].
      * injection E as <- <-. exists w1. split; [exact X1|split; [exact B1|first [exact R1|congruence]]].
    + injection E as <- <-. destruct (G _ _ _ E1) as [w1 [X1 [B1 R1]]]. exists w1. split; [exact X1|split; [exact B1|first [exact R1|congruence]]].
Qed.

Lemma grows_set_list al g : forall ps xs ov, (forall p x, In (p, Some x) (combine ps xs) -> al g p x ov) ->
  grows al (set_list valid items env g ps xs ov).
Proof.
  induction ps as [|p ps IH]; intros xs ov Ha; cbn [set_list]; [apply grows_ret|].
  destruct xs as [|x xs]; [apply grows_ret|]. destruct x as [x|]; [|apply grows_raise].
  apply grows_bind.
  - apply grows_trans, grows_set_one. intros x' E. injection E as <-. apply Ha. left. reflexivity.
  - intros _. apply IH. intros p' x' Hi. apply Ha. right. exact Hi.
Qed.

(** the (group, name, object, overwrite) that an operation may write *)
Definition writes_of (o : op) (g p : pystr) (x : obj) (ov : bool) : Prop :=
  match o with
  | OSet g' nm a ov' => g = g' /\ ov = ov' /\
      match nm, a with
      | PName p', PObj (Some x') => p = p' /\ x = x'
      | PNames ps, PList xs => In (p, Some x) (combine ps xs)
      | _, _ => False
      end
  | _ => False
  end.

Theorem grows_op (o : op) : grows (writes_of o) (run_op valid items env o).
Proof.
  apply grows_trans. destruct o; cbn [body]; unfold fmap.
  - apply grows_bind; [|intros; apply grows_ret]. unfold set_body. intros s s' r E.
    destruct (c_mode s) eqn:Em.
    + injection E as <- <-. exists []. split; [apply ext_refl|]. split; [constructor | reflexivity].
    + rewrite <- Em. destruct nm as [p|ps], x as [x|xs].
      * revert E. apply grows_set_one. intros x' ->. cbn. auto.
      * injection E as <- <-. exists []. split; [apply ext_refl|]. split; [constructor | reflexivity].
      * injection E as <- <-. exists []. split; [apply ext_refl|]. split; [constructor | reflexivity].
      * destruct (length ps =? length xs).
        -- revert E. apply grows_set_list. intros p' x' Hi. cbn. auto.
        -- injection E as <- <-. exists []. split; [apply ext_refl|]. split; [constructor | reflexivity].
  - apply grows_bind; [apply grows_get | intros; apply grows_ret].
  - apply grows_bind; [apply grows_spectra | intros; apply grows_ret].
  - apply grows_bind; [apply grows_groups | intros; apply grows_ret].
  - apply grows_bind; [apply grows_tree | intros; apply grows_ret].
  - apply grows_file_id. reflexivity.
Qed.

(** whole histories *)
Theorem run_grows : forall (h : list op) s s' rs, run valid items env h s = (s', rs) ->
  exists ws, ext s s' ws /\ blocks (fun g p x ov => exists o, In o h /\ writes_of o g p x ov) (disk s) ws /\
    (c_mode s = ModeR -> ws = []).
Proof.
  induction h as [|o h IH]; intros s s' rs E; cbn [run] in E.
  - injection E as <- <-. exists []. split; [apply ext_refl|]. split; [constructor | reflexivity].
  - destruct (run_op valid items env o s) as [s1 r] eqn:E1. destruct (run valid items env h s1) as [s2 rs2] eqn:E2.
    injection E as <- <-. destruct (grows_op o _ _ _ E1) as [w1 [X1 [B1 R1]]].
    destruct (IH _ _ _ E2) as [w2 [X2 [B2 R2]]]. exists (w1 ++ w2).
    split; [eapply ext_trans; eassumption|]. split.
    + apply blocks_app.
      * eapply blocks_mono; [|exact B1]. intros g p x ov Hw. exists o. split; [left; reflexivity | exact Hw].
      * rewrite <- (ext_disk _ _ _ X1). eapply blocks_mono; [|exact B2].
        intros g p x ov [o' [Hi Hw]]. exists o'. split; [right; exact Hi | exact Hw].
    + intros R. rewrite R1 by exact R. rewrite R2; [reflexivity|]. rewrite (x_mode _ _ _ X1). exact R.
Qed.

(** * what the entries look like at any point of the log *)
Definition find (o : option file) g p : option entry := match o with Some f => find_in f g p | None => None end.
Definition has (o : option file) g : Prop := match o with Some f => has_group f g | None => False end.

Lemma firstn_app_cases {A} k (l1 l2 : list A) :
  firstn k (l1 ++ l2) = firstn k l1 \/ firstn k (l1 ++ l2) = l1 ++ firstn (k - length l1) l2.
Proof.
  destruct (Nat.le_gt_cases k (length l1)) as [H|H].
  - left. rewrite firstn_app. replace (k - length l1) with 0 by lia. cbn. rewrite app_nil_r. reflexivity.
  - right. rewrite firstn_app, firstn_all2 by lia. reflexivity.
Qed.

(** entries nobody writes keep their value, at every crash point *)
Lemma blocks_untouched al o ws g p : blocks al o ws -> (forall x ov, ~ al g p x ov) ->
  forall k, find (replay o (firstn k ws)) g p = find o g p.
Proof.
  intros B Hn. induction B as [o|ws B IH|f ws H B IH|f g0 p0 x ov wa wb Ha E B IH]; intros k.
  - destruct k; reflexivity.
  - destruct k as [|k]; [reflexivity|]. cbn [firstn]. change (replay None (WFile :: firstn k ws)) with (replay (Some []) (firstn k ws)).
    rewrite IH. reflexivity.
  - destruct k as [|k]; [reflexivity|]. cbn [firstn].
    change (replay (Some f) (WGroup header :: firstn k ws)) with (replay (Some (dset pystr_dec f header [])) (firstn k ws)).
    rewrite IH. cbn [find]. apply find_group. exact H.
  - assert (N : (g, p) <> (g0, p0)) by (intros C; injection C as -> ->; exact (Hn _ _ Ha)).
    assert (St : forall j f', replay (Some f) (firstn j wa) = Some f' -> find_in f' g p = find_in f g p).
    { intros j f' Ej. subst wa. apply (set_prefix valid items) in Ej. apply Ej. exact N. }
    destruct (firstn_app_cases k wa wb) as [-> | ->].
    + destruct (replay_some (firstn k wa) f) as [f' E']. rewrite E'. cbn [find]. exact (St _ _ E').
    + rewrite replay_app, IH. destruct (replay_some wa f) as [f' E']. rewrite E'. cbn [find].
      apply (St (length wa)). rewrite firstn_all. exact E'.
Qed.

(** without overwrite an existing entry keeps its value, at every crash point *)
Lemma blocks_no_overwrite al o ws g p e : blocks al o ws -> (forall x ov, al g p x ov -> ov = false) ->
  find o g p = Some e -> forall k, find (replay o (firstn k ws)) g p = Some e.
Proof.
  intros B Hn. induction B as [o|ws B IH|f ws H B IH|f g0 p0 x ov wa wb Ha E B IH]; intros He k.
  - destruct k; exact He.
  - discriminate.
  - destruct k as [|k]; [exact He|]. cbn [firstn].
    change (replay (Some f) (WGroup header :: firstn k ws)) with (replay (Some (dset pystr_dec f header [])) (firstn k ws)).
    apply IH. cbn [find]. rewrite find_group by exact H. exact He.
  - assert (St : forall j f', replay (Some f) (firstn j wa) = Some f' -> find_in f' g p = Some e).
    { intros j f' Ej. subst wa. apply (set_prefix valid items) in Ej. destruct Ej as [P1 [P2 _]].
      destruct (list_eq_dec Ascii.ascii_dec g g0) as [->|Ng]; [destruct (list_eq_dec Ascii.ascii_dec p p0) as [->|Np]|].
      - apply Hn in Ha. subst ov. cbn [find] in He. rewrite He in P2.
        inversion P2 as [Hf|[C|C] Hf|n [C|C] _ Hf|[C|C] _ Hf]; try discriminate C. reflexivity.
      - rewrite P1 by congruence. exact He.
      - rewrite P1 by congruence. exact He. }
    destruct (firstn_app_cases k wa wb) as [-> | ->].
    + destruct (replay_some (firstn k wa) f) as [f' E']. rewrite E'. cbn [find]. exact (St _ _ E').
    + rewrite replay_app. apply IH. destruct (replay_some wa f) as [f' E']. rewrite E'. cbn [find].
      apply (St (length wa)). rewrite firstn_all. exact E'.
Qed.

(** a tagged entry is complete: it was there before, or it holds exactly one written object *)
Lemma blocks_complete al o ws g p : blocks al o ws -> forall k e,
  find (replay o (firstn k ws)) g p = Some e -> e_tag e = true ->
  find o g p = Some e \/ exists x ov, al g p x ov /\ valid x = true /\ e_body e = items x.
Proof.
  intros B. induction B as [o|ws B IH|f ws H B IH|f g0 p0 x ov wa wb Ha E B IH]; intros k e He Ht.
  - left. destruct k; exact He.
  - destruct k as [|k]; [left; exact He|]. cbn [firstn] in He.
    change (replay None (WFile :: firstn k ws)) with (replay (Some []) (firstn k ws)) in He.
    destruct (IH _ _ He Ht) as [C|C]; [discriminate | right; exact C].
  - destruct k as [|k]; [left; exact He|]. cbn [firstn] in He.
    change (replay (Some f) (WGroup header :: firstn k ws)) with (replay (Some (dset pystr_dec f header [])) (firstn k ws)) in He.
    destruct (IH _ _ He Ht) as [C|C]; [left | right; exact C]. cbn [find] in *. rewrite find_group in C by exact H. exact C.
  - assert (St : forall j f', replay (Some f) (firstn j wa) = Some f' -> find_in f' g p = Some e ->
       find_in f g p = Some e \/ exists x ov, al g p x ov /\ valid x = true /\ e_body e = items x).
    { intros j f' Ej Hf. subst wa. apply (set_prefix valid items) in Ej. destruct Ej as [P1 [P2 _]].
      destruct (list_eq_dec Ascii.ascii_dec g g0) as [->|Ng]; [destruct (list_eq_dec Ascii.ascii_dec p p0) as [->|Np]|].
      - rewrite Hf in P2. inversion P2 as [Ho|C Ho|n C D Ho|C D Ho]; subst.
        + left. reflexivity.
        + discriminate Ht.
        + right. exists x, ov. repeat split; assumption.
      - left. rewrite <- P1 by congruence. exact Hf.
      - left. rewrite <- P1 by congruence. exact Hf. }
    destruct (firstn_app_cases k wa wb) as [Eq|Eq]; rewrite Eq in He.
    + destruct (replay_some (firstn k wa) f) as [f' E']. rewrite E' in He. exact (St _ _ E' He).
    + rewrite replay_app in He. destruct (IH _ _ He Ht) as [C|C]; [|right; exact C].
      destruct (replay_some wa f) as [f' E']. rewrite E' in C. cbn [find] in C.
      apply (St (length wa) f'); [rewrite firstn_all; exact E' | exact C].
Qed.

Lemma blocks_has al o ws g : blocks al o ws -> forall k, has o g -> has (replay o (firstn k ws)) g.
Proof.
  intros _ k H. destruct o as [f|]; [|contradiction]. destruct (replay_some (firstn k ws) f) as [f' E].
  rewrite E. exact (replay_has _ _ _ _ E H).
Qed.
End Hist.
