From Coq Require Import String.
From Verif Require Import PyDict PyStr.
From Verif Require Import Prelude ContainerModel ContainerProofs PscCombineModel.
Open Scope nat_scope.

Lemma memS_In x l : memS x l = true <-> In x l.
Proof.
  unfold memS. rewrite existsb_exists. split.
  - intros [y [H E]]. apply str_eqb_eq in E. congruence.
  - intros H. exists x. split; [exact H | apply str_eqb_eq; reflexivity].
Qed.

Lemma uniq_fold l : forall acc, NoDup acc ->
  NoDup (fold_left uniq_add l acc) /\ (forall x, In x (fold_left uniq_add l acc) <-> In x acc \/ In x l).
Proof.
  induction l as [|y l IH]; intros acc N; cbn [fold_left]; [split; [exact N | cbn; tauto]|].
  unfold uniq_add at 2 4. destruct (memS y acc) eqn:E.
  - destruct (IH acc N) as [I1 I2]. split; [exact I1|]. intros x. rewrite I2. cbn. apply memS_In in E.
    split; [tauto|]. intros [H|[<-|H]]; auto.
  - assert (Ny : ~ In y acc) by (intros H; apply memS_In in H; congruence).
    destruct (IH (acc ++ [y])) as [I1 I2].
    { clear -N Ny. induction acc as [|a acc IH]; cbn; [repeat constructor; tauto|]. inversion N; subst. constructor.
      - rewrite in_app_iff. cbn. intros [H|[H|[]]]; [tauto|]. apply Ny. left. congruence.
      - apply IH; [assumption|]. intros H. apply Ny. right. exact H. }
    split; [exact I1|]. intros x. rewrite I2, in_app_iff. cbn. tauto.
Qed.

Lemma unique_spec dsep esep names : NoDup (unique_spectra dsep esep names) /\
  forall b, In b (unique_spectra dsep esep names) <-> exists n, In n names /\ base_name dsep esep n = b.
Proof.
  destruct (uniq_fold (map (base_name dsep esep) names) [] (NoDup_nil _)) as [H1 H2]. split; [exact H1|].
  intros b. unfold unique_spectra. rewrite H2. cbn. rewrite in_map_iff. firstorder.
Qed.

Section P.
Context {obj : Type} (combine : list obj -> result obj).
Notation dict := (list (pystr * obj)).

Lemma write_back_get (spc : pystr) tm : forall d k,
  dget pystr_dec (fold_left (fun d n => if pystr_dec n spc then d else dremove d n) tm d) k =
  if in_dec pystr_dec k tm then (if pystr_dec k spc then dget pystr_dec d k else None : option obj) else dget pystr_dec d k.
Proof.
  induction tm as [|n tm IH]; intros d k; cbn [fold_left].
  - destruct (in_dec pystr_dec k []) as [[]|]; reflexivity.
  - rewrite IH. destruct (pystr_dec n spc) as [->|N].
    + destruct (in_dec pystr_dec k tm), (in_dec pystr_dec k (spc :: tm)) as [H|H]; try reflexivity.
      * exfalso. apply H. right. assumption.
      * destruct H as [<-|H]; [|contradiction]. destruct (pystr_dec spc spc); congruence.
    + rewrite dget_dremove. destruct (pystr_dec k n) as [->|Nk].
      * destruct (pystr_dec n spc); [congruence|].
        destruct (in_dec pystr_dec n tm), (in_dec pystr_dec n (n :: tm)) as [H|H]; try reflexivity; exfalso; apply H; left; reflexivity.
      * destruct (in_dec pystr_dec k tm), (in_dec pystr_dec k (n :: tm)) as [H|H]; try reflexivity.
        -- exfalso. apply H. right. assumption.
        -- destruct H as [C|H]; [congruence | contradiction].
Qed.

Lemma write_back_spec d spc tm (m : obj) k : dget pystr_dec (write_back d spc tm m) k =
  if pystr_dec k spc then Some m else if in_dec pystr_dec k tm then None else dget pystr_dec d k.
Proof.
  unfold write_back. rewrite (write_back_get spc). rewrite dget_dset, dget_dremove.
  destruct (pystr_dec k spc) as [->|N]; [destruct (in_dec pystr_dec spc tm); reflexivity|].
  destruct (in_dec pystr_dec k tm); reflexivity.
Qed.

Lemma map_res_ext {A B} (f h : A -> result B) l : (forall x, In x l -> f x = h x) -> map_res f l = map_res h l.
Proof.
  induction l as [|x l IH]; intros H; cbn; [reflexivity|]. rewrite H by (left; reflexivity).
  rewrite IH by (intros y Hy; apply H; right; exact Hy). reflexivity.
Qed.

Section Sep.
Variables (dsep : option pystr) (esep : pystr) (overwrite : bool) (d0 : dict).
Notation names := (map fst d0).
Notation base := (base_name dsep esep).
(** the members of output [b] *)
Definition members (b : pystr) : list pystr := filter (fun n => str_eqb (base n) b) names.
(** what the merge of output [b] gives, from the original objects; [None]: nothing is done *)
Definition outcome (b : pystr) : option obj :=
  if memS b names && negb overwrite then None
  else match merged combine d0 (members b) with Ok m => Some m | Err _ => None end.
(** a base name is part of exactly the names it is the base of *)
Definition separated : Prop := forall n m, In n names -> In m names -> substr (base n) m = str_eqb (base m) (base n).

Definition done (bs : list pystr) (d : dict) : Prop :=
  forall k, dget pystr_dec d k =
    match find (fun b => match outcome b with Some _ => if pystr_dec k b then true else if in_dec pystr_dec k (members b) then true else false | None => false end) bs with
    | Some b => if pystr_dec k b then outcome b else None
    | None => dget pystr_dec d0 k
    end.

Lemma str_refl (x : pystr) : str_eqb x x = true. Proof. apply str_eqb_eq; reflexivity. Qed.

Lemma members_In b n : In n (members b) <-> In n names /\ base n = b.
Proof. unfold members. rewrite filter_In, str_eqb_eq. reflexivity. Qed.

Hypothesis Sep : separated.
Hypothesis NoDupN : NoDup names.
(** an output name that is itself a stored name is a member of that output *)
Hypothesis BaseFix : forall n m, In n names -> In m names -> base n = m -> base m = base n.

Lemma to_merge_members b : In b (unique_spectra dsep esep names) -> to_merge names b = members b.
Proof.
  intros H. apply unique_spec in H. destruct H as [n [Hn <-]]. unfold to_merge, members. apply filter_ext_in.
  intros m Hm. apply Sep; assumption.
Qed.

(** keys touched by output b *)
Lemma touched_disjoint b b' k : In b (unique_spectra dsep esep names) -> In b' (unique_spectra dsep esep names) ->
  In k (members b) -> k = b' \/ In k (members b') -> b = b'.
Proof.
  intros H H' Hk Hk'. apply members_In in Hk. destruct Hk as [Hk Ek].
  apply unique_spec in H'. destruct H' as [n' [Hn' E']].
  destruct Hk' as [->|Hk'].
  - rewrite <- Ek. rewrite (BaseFix n' b' Hn' Hk E'). exact E'.
  - apply members_In in Hk'. destruct Hk' as [_ <-]. congruence.
Qed.

Lemma step_done bs b d : done bs d -> In b (unique_spectra dsep esep names) -> ~ In b bs ->
  (forall b', In b' bs -> In b' (unique_spectra dsep esep names)) ->
  done (bs ++ [b]) (merge_step combine names overwrite d b).
Proof.
  intros D Hb Nb Hbs. unfold merge_step. rewrite (to_merge_members b Hb).
  assert (Same : forall k, In k (members b) -> dget pystr_dec d k = dget pystr_dec d0 k).
  { intros k Hk. rewrite D. destruct (find _ bs) as [b'|] eqn:F; [|reflexivity].
    apply find_some in F. destruct F as [Hin F]. exfalso. apply Nb.
    assert (b = b') as ->; [|exact Hin].
    apply (touched_disjoint b b' k Hb (Hbs _ Hin) Hk).
    destruct (outcome b'); [|discriminate]. destruct (pystr_dec k b'); [auto|].
    destruct (in_dec pystr_dec k (members b')); [auto | discriminate]. }
  assert (Mg : merged combine d (members b) = merged combine d0 (members b)).
  { unfold merged. rewrite (map_res_ext (read_one d) (read_one d0)); [reflexivity|].
    intros k Hk. unfold read_one. rewrite (Same k Hk). reflexivity. }
  assert (Out : outcome b = if memS b names && negb overwrite then None else match merged combine d (members b) with Ok m => Some m | Err _ => None end).
  { unfold outcome. rewrite Mg. reflexivity. }
  assert (Skip : outcome b = None -> done (bs ++ [b]) d).
  { intros O k. rewrite D.
    assert (Fa : forall (P : pystr -> bool) l, P b = false -> find P (l ++ [b]) = find P l).
    { intros P l Pb. induction l as [|y l IH]; cbn; [rewrite Pb; reflexivity|]. destruct (P y); [reflexivity | exact IH]. }
    rewrite Fa; [reflexivity|]. rewrite O. reflexivity. }
  destruct (memS b names && negb overwrite); [apply Skip; exact Out|].
  destruct (merged combine d (members b)) as [m|e]; [|apply Skip; exact Out].
  intros k. rewrite write_back_spec.
  set (P := fun b0 => match outcome b0 with Some _ => if pystr_dec k b0 then true else if in_dec pystr_dec k (members b0) then true else false | None => false end).
  assert (Fo : forall l, find P (l ++ [b]) = match find P l with Some y => Some y | None => if P b then Some b else None end).
  { induction l as [|y l IH]; cbn; [destruct (P b); reflexivity|]. destruct (P y); [reflexivity | exact IH]. }
  rewrite Fo. specialize (D k). fold P in D.
  destruct (pystr_dec k b) as [->|Nk].
  - assert (Fn : find P bs = None).
    { destruct (find P bs) as [y|] eqn:F; [|reflexivity]. apply find_some in F. destruct F as [Hy Py].
      exfalso. unfold P in Py. destruct (outcome y); [|discriminate].
      destruct (pystr_dec b y) as [->|Ny]; [contradiction|].
      destruct (in_dec pystr_dec b (members y)) as [Hm|]; [|discriminate].
      apply Ny. symmetry. exact (touched_disjoint y b b (Hbs _ Hy) Hb Hm (or_introl eq_refl)). }
    rewrite Fn. unfold P. rewrite Out. destruct (pystr_dec b b) as [|C]; [|congruence]. rewrite ?Out. destruct (pystr_dec b b); [reflexivity|congruence].
  - destruct (in_dec pystr_dec k (members b)) as [Hm|Hm].
    + assert (Fn : find P bs = None).
      { destruct (find P bs) as [y|] eqn:F; [|reflexivity]. apply find_some in F. destruct F as [Hy Py].
        exfalso. unfold P in Py. destruct (outcome y); [|discriminate]. apply Nb.
        assert (b = y) as ->; [|exact Hy]. apply (touched_disjoint b y k Hb (Hbs _ Hy) Hm).
        destruct (pystr_dec k y); [auto|]. destruct (in_dec pystr_dec k (members y)); [auto | discriminate]. }
      rewrite Fn. unfold P. rewrite Out. destruct (pystr_dec k b); [congruence|].
      destruct (in_dec pystr_dec k (members b)); [|contradiction]. destruct (pystr_dec k b); [congruence|reflexivity].
    + rewrite D. destruct (find P bs); [reflexivity|].
      unfold P. rewrite Out. destruct (pystr_dec k b); [congruence|]. destruct (in_dec pystr_dec k (members b)); [contradiction|reflexivity].
Qed.

Lemma group_done : done (unique_spectra dsep esep names) (combine_group combine dsep esep overwrite d0).
Proof.
  unfold combine_group. destruct (unique_spec dsep esep names) as [N _]. revert N.
  assert (G : forall todo bs d, done bs d -> NoDup (bs ++ todo) ->
    (forall b, In b (bs ++ todo) -> In b (unique_spectra dsep esep names)) ->
    done (bs ++ todo) (fold_left (merge_step combine names overwrite) todo d)).
  { induction todo as [|b todo IH]; intros bs d D N Hs; cbn [fold_left]; [rewrite app_nil_r; exact D|].
    replace (bs ++ b :: todo) with ((bs ++ [b]) ++ todo) in * by (rewrite <- app_assoc; reflexivity).
    apply IH; [|exact N|exact Hs]. apply step_done; [exact D| | |].
    - apply Hs. rewrite in_app_iff, in_app_iff. left. right. left. reflexivity.
    - intros C. rewrite <- app_assoc in N. apply NoDup_remove_2 in N. apply N. apply in_app_iff. auto.
    - intros b' Hb'. apply Hs. rewrite in_app_iff, in_app_iff. auto. }
  intros N. apply (G (unique_spectra dsep esep names) [] d0); [intros k; reflexivity | exact N | auto].
Qed.
End Sep.
End P.
