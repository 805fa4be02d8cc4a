(** Lemmas about the container model. *)
From Coq Require Import String.
From Verif Require Import PyDict PyStr.
From Verif Require Import Prelude ContainerModel.
Open Scope nat_scope.

Lemma dget_dremove {V} (d : list (pystr * V)) k k' :
  dget pystr_dec (dremove d k) k' = if pystr_dec k' k then None else dget pystr_dec d k'.
Proof.
  unfold dremove. induction d as [|[k0 v0] d IH]; cbn [filter dget fst].
  - destruct (pystr_dec k' k); reflexivity.
  - destruct (pystr_dec k0 k) as [->|N]; cbn [dget].
    + rewrite IH. destruct (pystr_dec k' k); reflexivity.
    + destruct (pystr_dec k' k0) as [->|N']; [destruct (pystr_dec k0 k); congruence | exact IH].
Qed.

Section Proofs.
Context {obj item : Type} (valid : obj -> bool) (items : obj -> list item).
Notation entry := (@entry item).
Notation file := (@file item).
Notation write := (@write item).
Notation state := (@state item).

Implicit Types (f : file) (g p : pystr) (s : state).

(** * one write *)
Definition upd f g p (e : entry) : file := dset pystr_dec f g (dset pystr_dec (group_of f g) p e).

Lemma find_upd f g p e g' p' : find_in (upd f g p e) g' p' =
  if pystr_dec g' g then if pystr_dec p' p then Some e else find_in f g' p' else find_in f g' p'.
Proof.
  unfold find_in, upd, group_of. rewrite dget_dset. destruct (pystr_dec g' g) as [->|N]; [|reflexivity].
  rewrite dget_dset. destruct (pystr_dec p' p); [reflexivity|].
  destruct (dget pystr_dec f g); reflexivity.
Qed.

Lemma find_del f g p g' p' : find_in (dset pystr_dec f g (dremove (group_of f g) p)) g' p' =
  if pystr_dec g' g then if pystr_dec p' p then None else find_in f g' p' else find_in f g' p'.
Proof.
  unfold find_in, group_of. rewrite dget_dset. destruct (pystr_dec g' g) as [->|N]; [|reflexivity].
  rewrite dget_dremove. destruct (pystr_dec p' p); [reflexivity|].
  destruct (dget pystr_dec f g); reflexivity.
Qed.

Lemma find_group f g g' p' : dget pystr_dec f g = None -> find_in (dset pystr_dec f g []) g' p' = find_in f g' p'.
Proof.
  intros H. unfold find_in. rewrite dget_dset. destruct (pystr_dec g' g) as [->|N]; [|reflexivity].
  rewrite H. reflexivity.
Qed.

Definition has_group f g : Prop := dget pystr_dec f g <> None.

Lemma has_dset f g l g' : has_group f g' -> has_group (dset pystr_dec f g l) g'.
Proof. unfold has_group. rewrite dget_dset. destruct (pystr_dec g' g); [discriminate | auto]. Qed.
Lemma has_dset_same f g l : has_group (dset pystr_dec f g l) g.
Proof. unfold has_group. rewrite dget_dset. destruct (pystr_dec g g); [discriminate | congruence]. Qed.

Lemma apply_some f (w : write) : exists f', apply_w (Some f) w = Some f'.
Proof. eexists. reflexivity. Qed.
Lemma replay_some (ws : list write) : forall f, exists f', replay (Some f) ws = Some f'.
Proof. induction ws as [|w ws IH]; intros f; [eexists; reflexivity|]. cbn. apply IH. Qed.
Lemma replay_app (o : option file) ws1 ws2 : replay o (ws1 ++ ws2) = replay (replay o ws1) ws2.
Proof. apply fold_left_app. Qed.

(** the write touches only entry (g, p), and makes no new group except when there is none *)
Definition mild (g p : pystr) f (w : write) : Prop :=
  match w with
  | WFile => True
  | WGroup g' => g' = g /\ dget pystr_dec f g' = None
  | WEntry g' p' | WDelete g' p' | WItem g' p' _ | WTag g' p' => g' = g /\ p' = p
  end.

Lemma mild_other f g p w f' g' p' : mild g p f w -> apply_w (Some f) w = Some f' ->
  (g', p') <> (g, p) -> find_in f' g' p' = find_in f g' p'.
Proof.
  intros Hm E N. destruct w; cbn in Hm, E; injection E as <-.
  - reflexivity.
  - apply find_group, Hm.
  - destruct Hm as [-> ->]. change (find_in (upd f g p (mkentry false [])) g' p' = find_in f g' p').
    rewrite find_upd. destruct (pystr_dec g' g) as [->|]; [destruct (pystr_dec p' p) as [->|]; [congruence|]|]; reflexivity.
  - destruct Hm as [-> ->]. rewrite find_del.
    destruct (pystr_dec g' g) as [->|]; [destruct (pystr_dec p' p) as [->|]; [congruence|]|]; reflexivity.
  - destruct Hm as [-> ->]. destruct (find_in f g p) as [e|]; [|reflexivity].
    change (find_in (upd f g p (mkentry (e_tag e) (e_body e ++ [i]))) g' p' = find_in f g' p').
    rewrite find_upd. destruct (pystr_dec g' g) as [->|]; [destruct (pystr_dec p' p) as [->|]; [congruence|]|]; reflexivity.
  - destruct Hm as [-> ->]. destruct (find_in f g p) as [e|]; [|reflexivity].
    change (find_in (upd f g p (mkentry true (e_body e))) g' p' = find_in f g' p').
    rewrite find_upd. destruct (pystr_dec g' g) as [->|]; [destruct (pystr_dec p' p) as [->|]; [congruence|]|]; reflexivity.
Qed.

Lemma apply_has f w f' g' : apply_w (Some f) w = Some f' -> has_group f g' -> has_group f' g'.
Proof.
  intros E H. destruct w; cbn in E; injection E as <-; try exact H; try (apply has_dset; exact H);
  destruct (find_in f g p); try (apply has_dset); exact H.
Qed.
Lemma replay_has ws : forall f f' g', replay (Some f) ws = Some f' -> has_group f g' -> has_group f' g'.
Proof.
  induction ws as [|w ws IH]; intros f f' g' E H; cbn in E; [injection E as <-; exact H|].
  eapply IH; [exact E|]. eapply apply_has; [reflexivity | exact H].
Qed.

(** * the writes of one set_pspec *)
(** where entry (g,p) may be, at any point during a set of [x] *)
Inductive during (old : option entry) (ov : bool) (x : obj) : option entry -> Prop :=
| du_old : during old ov x old
| du_none : ov = true \/ old = None -> during old ov x None
| du_part n : ov = true \/ old = None -> valid x = true \/ n = 0 ->
    during old ov x (Some (mkentry false (firstn n (items x))))
| du_done : ov = true \/ old = None -> valid x = true ->
    during old ov x (Some (mkentry true (items x))).

Lemma mild_w f g p w : mild g p f w -> forall f', apply_w (Some f) w = Some f' -> 
  find_in f' g p = match w with
                   | WEntry _ _ => Some (mkentry false [])
                   | WDelete _ _ => None
                   | WItem _ _ i => match find_in f g p with Some e => Some (mkentry (e_tag e) (e_body e ++ [i])) | None => None end
                   | WTag _ _ => match find_in f g p with Some e => Some (mkentry true (e_body e)) | None => None end
                   | _ => find_in f g p
                   end.
Proof.
  intros Hm f' E. destruct w; cbn in Hm, E; injection E as <-.
  - reflexivity.
  - apply find_group, Hm.
  - destruct Hm as [-> ->]. change (find_in (upd f g p (mkentry false [])) g p = Some (mkentry false [])).
    rewrite find_upd. destruct (pystr_dec g g), (pystr_dec p p); congruence.
  - destruct Hm as [-> ->]. rewrite find_del. destruct (pystr_dec g g), (pystr_dec p p); congruence.
  - destruct Hm as [-> ->]. destruct (find_in f g p) as [e|] eqn:Ee; [|exact Ee].
    change (find_in (upd f g p (mkentry (e_tag e) (e_body e ++ [i]))) g p = Some (mkentry (e_tag e) (e_body e ++ [i]))).
    rewrite find_upd. destruct (pystr_dec g g), (pystr_dec p p); congruence.
  - destruct Hm as [-> ->]. destruct (find_in f g p) as [e|] eqn:Ee; [|exact Ee].
    change (find_in (upd f g p (mkentry true (e_body e))) g p = Some (mkentry true (e_body e))).
    rewrite find_upd. destruct (pystr_dec g g), (pystr_dec p p); congruence.
Qed.

(** a run of writes that only touch (g,p), none of which creates a group *)
Definition pure (g p : pystr) (w : write) : Prop :=
  match w with
  | WFile | WGroup _ => False
  | WEntry g' p' | WDelete g' p' | WItem g' p' _ | WTag g' p' => g' = g /\ p' = p
  end.
Definition step_e (e : option entry) (w : write) : option entry :=
  match w with
  | WEntry _ _ => Some (mkentry false [])
  | WDelete _ _ => None
  | WItem _ _ i => match e with Some e => Some (mkentry (e_tag e) (e_body e ++ [i])) | None => None end
  | WTag _ _ => match e with Some e => Some (mkentry true (e_body e)) | None => None end
  | _ => e
  end.

Lemma pure_replay g p ws : Forall (pure g p) ws -> forall f f', replay (Some f) ws = Some f' ->
  find_in f' g p = fold_left step_e ws (find_in f g p) /\
  (forall g' p', (g', p') <> (g, p) -> find_in f' g' p' = find_in f g' p').
Proof.
  intros F. induction F as [|w ws Hw F IH]; intros f f' E; cbn in E.
  - injection E as <-. split; [reflexivity | auto].
  - set (f1 := match apply_w (Some f) w with Some f1 => f1 | None => f end).
    assert (E1 : apply_w (Some f) w = Some f1) by reflexivity.
    assert (Hm : mild g p f w) by (destruct w; cbn in *; tauto).
    destruct (IH f1 f' E) as [I1 I2]. split.
    + cbn [fold_left]. rewrite I1. f_equal. rewrite (mild_w f g p w Hm f1 E1). destruct w; reflexivity.
    + intros g' p' N. rewrite I2 by exact N. exact (mild_other f g p w f1 g' p' Hm E1 N).
Qed.

Lemma firstn_map {A B} (h : A -> B) n l : firstn n (map h l) = map h (firstn n l).
Proof. revert l; induction n as [|n IH]; intros [|a l]; cbn; [reflexivity..|]. rewrite IH. reflexivity. Qed.

Lemma fold_items g p (l : list item) : forall t b,
  fold_left step_e (map (WItem g p) l) (Some (mkentry t b)) = Some (mkentry t (b ++ l)).
Proof.
  induction l as [|i l IH]; intros t b; cbn [map fold_left step_e]; [rewrite app_nil_r; reflexivity|].
  cbn [e_tag e_body]. rewrite IH, <- app_assoc. reflexivity.
Qed.

(** every prefix of the store leaves an untagged prefix of the items, or the complete entry *)
Lemma store_prefix g p x k : valid x = true ->
  let e := fold_left step_e (firstn k (map (WItem g p) (items x) ++ [WTag g p; WTag g p])) (Some (mkentry false [])) in
  (exists n, e = Some (mkentry false (firstn n (items x)))) \/ e = Some (mkentry true (items x)).
Proof.
  intros _. cbv zeta. rewrite firstn_app, fold_left_app, firstn_map, fold_items, map_length. cbn [app].
  destruct (k - length (items x)) as [|j] eqn:Ek; cbn [firstn fold_left].
  - left. exists k. reflexivity.
  - right. rewrite (firstn_all2 (items x)) by lia. cbn [step_e e_tag e_body].
    destruct j as [|j]; [reflexivity|]. cbn [firstn fold_left step_e e_body]. destruct j; reflexivity.
Qed.

Lemma store_full g p x : 
  fold_left step_e (map (WItem g p) (items x) ++ [WTag g p; WTag g p]) (Some (mkentry false []))
  = Some (mkentry true (items x)).
Proof. rewrite fold_left_app, fold_items. reflexivity. Qed.

Lemma store_pure g p x : Forall (pure g p) (fst (store_writes valid items g p x)).
Proof.
  unfold store_writes. destruct (valid x); cbn [fst]; [|constructor].
  apply Forall_app. split; [|repeat constructor].
  induction (items x) as [|i l IH]; cbn; constructor; cbn; auto.
Qed.

Lemma Forall_firstn {A} (P : A -> Prop) n l : Forall P l -> Forall P (firstn n l).
Proof. intros F. revert n; induction F; intros [|n]; cbn; constructor; auto. Qed.

(** the writes after the group exists *)
Definition set_tail f g p x ov : list write :=
  match find_in f g p with
  | None => WEntry g p :: fst (store_writes valid items g p x)
  | Some _ => if ov : bool then WDelete g p :: WEntry g p :: fst (store_writes valid items g p x) else []
  end.
Definition set_head f g : list write :=
  match dget pystr_dec f g with None => [WGroup g] | Some _ => [] end.

Lemma set_writes_split f g p x ov : fst (set_writes valid items f g p x ov) = set_head f g ++ set_tail f g p x ov.
Proof.
  unfold set_writes, set_head, set_tail. destruct (store_writes valid items g p x) as [ws3 e]. cbn [fst].
  destruct (find_in f g p); [destruct ov|]; cbn [fst]; rewrite ?app_nil_r; reflexivity.
Qed.

Lemma set_tail_pure f g p x ov : Forall (pure g p) (set_tail f g p x ov).
Proof.
  unfold set_tail. destruct (find_in f g p); [destruct ov|]; repeat constructor; apply store_pure.
Qed.

Lemma set_head_replay f g f' k : replay (Some f) (firstn k (set_head f g)) = Some f' ->
  (forall g' p', find_in f' g' p' = find_in f g' p') /\ (forall g', has_group f g' -> has_group f' g').
Proof.
  unfold set_head. destruct (dget pystr_dec f g) eqn:E.
  - destruct k; cbn; intros H; injection H as <-; auto.
  - destruct k as [|k]; cbn; intros H.
    + injection H as <-; auto.
    + destruct k; cbn in H; injection H as <-;
      (split; [intros; apply find_group; exact E | intros; apply has_dset; assumption]).
Qed.

Lemma tail_during f g p x ov k :
  during (find_in f g p) ov x (fold_left step_e (firstn k (set_tail f g p x ov)) (find_in f g p)).
Proof.
  unfold set_tail.
  assert (St : forall k, (ov = true \/ find_in f g p = None) ->
    during (find_in f g p) ov x
      (fold_left step_e (firstn k (fst (store_writes valid items g p x))) (Some (mkentry false [])))).
  { intros k' Ho. unfold store_writes. destruct (valid x) eqn:V; cbn [fst].
    - destruct (store_prefix g p x k' V) as [[n ->]| ->]; [apply du_part | apply du_done]; auto.
    - destruct k'; cbn; apply (du_part _ _ _ 0); auto. }
  destruct (find_in f g p) as [e|] eqn:E; [destruct ov|].
  - destruct k as [|k]; cbn [firstn fold_left step_e]; [apply du_old|].
    destruct k as [|k]; cbn [firstn fold_left step_e]; [apply du_none; auto|]. apply St; auto.
  - destruct k; cbn; apply du_old.
  - destruct k as [|k]; cbn [firstn fold_left step_e]; [apply du_old|]. apply St; auto.
Qed.

(** the file at any point of the writes of one set *)
Theorem set_prefix f g p x ov k f' :
  replay (Some f) (firstn k (fst (set_writes valid items f g p x ov))) = Some f' ->
  (forall g' p', (g', p') <> (g, p) -> find_in f' g' p' = find_in f g' p') /\
  during (find_in f g p) ov x (find_in f' g p) /\
  (forall g', has_group f g' -> has_group f' g').
Proof.
  rewrite set_writes_split, firstn_app, replay_app. intros E.
  destruct (replay_some (firstn k (set_head f g)) f) as [f1 E1]. rewrite E1 in E.
  destruct (set_head_replay f g f1 k E1) as [H1 H2].
  destruct (pure_replay g p _ (Forall_firstn _ _ _ (set_tail_pure f g p x ov)) f1 f' E) as [P1 P2].
  repeat split.
  - intros g' p' N. rewrite P2, H1 by exact N. reflexivity.
  - rewrite P1, H1. apply tail_during.
  - intros g' H. exact (replay_has _ _ _ _ E (H2 _ H)).
Qed.

Theorem set_full f g p x ov f' e :
  replay (Some f) (fst (set_writes valid items f g p x ov)) = Some f' ->
  snd (set_writes valid items f g p x ov) = e ->
  (e = None -> find_in f' g p = Some (mkentry true (items x)) /\ valid x = true /\ (ov = true \/ find_in f g p = None)) /\
  (e <> None -> find_in f g p <> None -> ov = false -> find_in f' g p = find_in f g p) /\ has_group f' g.
Proof.
  intros E Es. rewrite set_writes_split, replay_app in E.
  destruct (replay_some (set_head f g) f) as [f1 E1]. rewrite E1 in E.
  pose proof E1 as E1'. rewrite <- (firstn_all (set_head f g)) in E1'. destruct (set_head_replay f g f1 _ E1') as [H1 H2].
  destruct (pure_replay g p _ (set_tail_pure f g p x ov) f1 f' E) as [P1 P2].
  repeat split.
  - rewrite P1, H1. subst e. unfold set_writes, set_tail in *.
    unfold store_writes in *. destruct (valid x); cbn in H;
      destruct (find_in f g p); [destruct ov| |destruct ov|]; try discriminate; cbn [fst];
      cbn [fold_left step_e]; apply store_full.
  - subst e. unfold set_writes, store_writes in H. destruct (valid x); [reflexivity|].
    cbn in H. destruct (find_in f g p); [destruct ov|]; discriminate.
  - subst e. unfold set_writes, store_writes in H. destruct (find_in f g p); [destruct ov; auto|auto].
    destruct (valid x); cbn in H; discriminate.
  - intros _ Hn ->. rewrite P1, H1. unfold set_tail. destruct (find_in f g p); [reflexivity | congruence].
  - apply (replay_has _ _ _ _ E). unfold set_head in E1. destruct (dget pystr_dec f g) eqn:Eg; cbn in E1; injection E1 as <-.
    + unfold has_group; congruence.
    + apply has_dset_same.
Qed.
End Proofs.
