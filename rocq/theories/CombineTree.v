(** Recursive and batched merging: trees of pairwise merges. *)
From Coq Require Import Permutation Sorted.
From Verif Require Import Prelude ListLemmas UvpModel CommonProofs CombineModel CombineProofs CombineMain CombineSound CombineObject.

(** * trees of pairwise merges *)
Inductive tree (A : Type) : Type := Leaf (a : A) | Node (l r : tree A).
Arguments Leaf {A} _.
Arguments Node {A} _ _.
Fixpoint leaves {A} (t : tree A) : list A := match t with Leaf a => [a] | Node l r => leaves l ++ leaves r end.
Fixpoint nodes {A} (t : tree A) : nat := match t with Leaf _ => 0 | Node l r => S (nodes l + nodes r) end.
Fixpoint eval {A} (mrg : A -> A -> result A) (t : tree A) : result A :=
  match t with Leaf a => Ok a | Node l r => bind (eval mrg l) (fun x => bind (eval mrg r) (fun y => mrg x y)) end.

Lemma nodes_leaves {A} (t : tree A) : S (nodes t) = length (leaves t).
Proof. induction t as [a|l IHl r IHr]; cbn; [reflexivity|]. rewrite app_length. lia. Qed.

Section Tree.
Context {A : Type}.
Variable mrg : A -> A -> result A.

Lemma rec_tree_gen n : forall us, us <> [] -> length us <= S n -> exists t, leaves t = us /\ rec_combine mrg n us = eval mrg t.
Proof.
  induction n as [|n IH]; intros us Hne HL.
  - destruct us as [|u [|v us]]; [congruence | | cbn in HL; lia]. exists (Leaf u). split; reflexivity.
  - destruct us as [|u [|v [|w us]]]; [congruence | exists (Leaf u); split; reflexivity | exists (Node (Leaf u) (Leaf v)); split; reflexivity |].
    set (l := u :: v :: w :: us) in *.
    assert (L3 : 3 <= length l) by (unfold l; cbn; lia).
    assert (Hm : 1 <= length l / 2 < length l).
    { pose proof (Nat.div_mod (length l) 2 ltac:(lia)). pose proof (Nat.mod_upper_bound (length l) 2 ltac:(lia)). lia. }
    destruct (IH (firstn (length l / 2) l)) as [t1 [E1 F1]].
    { intro E. apply (f_equal (@length _)) in E. rewrite firstn_length in E. cbn [length] in E. lia. }
    { rewrite firstn_length. lia. }
    destruct (IH (skipn (length l / 2) l)) as [t2 [E2 F2]].
    { intro E. apply (f_equal (@length _)) in E. rewrite skipn_length in E. cbn [length] in E. lia. }
    { rewrite skipn_length. lia. }
    exists (Node t1 t2). split.
    + cbn. rewrite E1, E2. apply firstn_skipn.
    + change (rec_combine mrg (S n) l) with
        (bind (rec_combine mrg n (firstn (length l / 2) l)) (fun x => bind (rec_combine mrg n (skipn (length l / 2) l)) (fun y => mrg x y))).
      rewrite F1, F2. reflexivity.
Qed.

(** the recursive merge is a tree of n-1 merges over the inputs in order *)
Theorem recursive_tree us : us <> [] ->
  exists t, leaves t = us /\ S (nodes t) = length us /\ recursive_combine mrg us = eval mrg t.
Proof.
  intro H. destruct (rec_tree_gen (length us) us H ltac:(lia)) as [t [E1 E2]].
  exists t. split; [exact E1|]. split; [rewrite nodes_leaves, E1; reflexivity | exact E2].
Qed.

(** * batches *)
Lemma skipn_skipn' (a b : nat) (l : list A) : skipn a (skipn b l) = skipn (a + b) l.
Proof.
  revert l; induction b as [|b IH]; intro l; [rewrite Nat.add_0_r; reflexivity|].
  rewrite Nat.add_succ_r. destruct l; [rewrite !skipn_nil; reflexivity|]. cbn. apply IH.
Qed.
Lemma slice_skip_first (a n : nat) (l : list A) : slice a (a + n) l = firstn n (skipn a l).
Proof. unfold slice. rewrite skipn_firstn_comm. f_equal. lia. Qed.
Lemma batch_slices_cons size (l : list A) : 1 <= size -> l <> [] ->
  batch_slices size l = firstn size l :: batch_slices size (skipn size l).
Proof.
  intros Hs Hne. unfold batch_slices.
  assert (L : 1 <= length l) by (destruct l; [congruence | cbn; lia]).
  assert (D : (length l + size - 1) / size = S ((length (skipn size l) + size - 1) / size)).
  { rewrite skipn_length. destruct (Nat.le_gt_cases size (length l)) as [G|G].
    - replace (length l + size - 1) with ((length l - size + size - 1) + 1 * size) by lia. rewrite Nat.div_add by lia. lia.
    - replace (length l - size) with 0 by lia. rewrite (Nat.div_small (0 + size - 1) size) by lia.
      replace (length l + size - 1) with ((length l - 1) + 1 * size) by lia. rewrite Nat.div_add by lia.
      rewrite Nat.div_small by lia. reflexivity. }
  rewrite D. cbn [seq map]. f_equal.
  - unfold slice. rewrite Nat.mul_0_l, Nat.add_0_l, Nat.mul_1_l. cbn [skipn].
    destruct (Nat.le_gt_cases size (length l)) as [G|G]; [rewrite Nat.min_l by lia; reflexivity|].
    rewrite Nat.min_r by lia. rewrite !firstn_all2 by lia. reflexivity.
  - rewrite <- seq_shift, map_map. apply map_ext. intro i. unfold slice.
    rewrite !skipn_firstn_comm, skipn_skipn'. rewrite skipn_length.
    replace (S i * size) with (i * size + size) by lia. f_equal.
    replace ((S i + 1) * size) with ((i + 1) * size + size) by lia.
    destruct (Nat.le_gt_cases ((i + 1) * size + size) (length l)); [rewrite !Nat.min_l by lia; lia | rewrite !Nat.min_r by lia; lia].
Qed.
Lemma batch_slices_nil size : 1 <= size -> batch_slices size (@nil A) = [].
Proof. intro H. unfold batch_slices. cbn [length plus]. rewrite Nat.div_small by lia. reflexivity. Qed.

Lemma add_batch_tree o t0 batch : eval mrg t0 = Ok o -> batch <> [] ->
  exists t, leaves t = leaves t0 ++ batch /\ add_batch mrg (Ok (Some o)) batch = bind (eval mrg t) (fun r => Ok (Some r)).
Proof.
  intros E H. destruct (recursive_tree batch H) as [tb [L [_ Eb]]]. exists (Node t0 tb). split; [cbn; rewrite L; reflexivity|].
  unfold add_batch. cbn [bind eval]. rewrite Eb, E. cbn [bind]. destruct (eval mrg tb) as [b|e]; [|reflexivity]. cbn [bind].
  reflexivity.
Qed.
Lemma fold_err bs e : fold_left (add_batch mrg) bs (Err e) = Err e.
Proof. induction bs as [|b bs IH]; [reflexivity|]. cbn. exact IH. Qed.
Lemma fold_add fuel size : 1 <= size -> forall files t0 r0, length files <= fuel -> eval mrg t0 = Ok r0 ->
  exists t, leaves t = leaves t0 ++ files /\
    fold_left (add_batch mrg) (batch_slices size files) (Ok (Some r0)) = bind (eval mrg t) (fun r => Ok (Some r)).
Proof.
  intro Hs. induction fuel as [|fuel IH]; intros files t0 r0 HL E0.
  - destruct files; [|cbn in HL; lia]. exists t0. rewrite batch_slices_nil, app_nil_r by exact Hs. split; [reflexivity|]. cbn. rewrite E0. reflexivity.
  - destruct files as [|f files]; [exists t0; rewrite batch_slices_nil, app_nil_r by exact Hs; split; [reflexivity|]; cbn; rewrite E0; reflexivity|].
    set (l := f :: files) in *. rewrite batch_slices_cons by (try exact Hs; discriminate).
    assert (Hf : firstn size l <> []) by (unfold l; destruct size; [lia | discriminate]).
    destruct (add_batch_tree r0 t0 _ E0 Hf) as [t1 [L1 E1]]. cbn [fold_left]. rewrite E1.
    destruct (eval mrg t1) as [r1|e] eqn:Ev.
    + cbn [bind]. destruct (IH (skipn size l) t1 r1) as [t [L E]].
      { rewrite skipn_length. unfold l in *. cbn [length] in *. lia. } { exact Ev. }
      exists t. split; [|exact E]. rewrite L, L1, <- app_assoc, firstn_skipn. reflexivity.
    + cbn [bind]. rewrite fold_err.
      (* later batches hang below the failed merge *)
      assert (G : forall rest, exists t, leaves t = leaves t1 ++ rest /\ eval mrg t = Err e).
      { induction rest as [|x rest [t [L E]]] using rev_ind; [exists t1; rewrite app_nil_r; auto|].
        exists (Node t (Leaf x)). split; [cbn; rewrite L, app_assoc; reflexivity|]. cbn. rewrite E. reflexivity. }
      destruct (G (skipn size l)) as [t [L E]]. exists t. split; [rewrite L, L1, <- app_assoc, firstn_skipn; reflexivity|]. rewrite E. reflexivity.
Qed.

Theorem merge_files_tree size files : files <> [] -> size <> Some 0 ->
  exists t, leaves t = files /\ merge_files mrg size files = bind (eval mrg t) (fun r => Ok (Some r)).
Proof.
  intros Hne Hs. unfold merge_files. set (n := match size with None => length files | Some b => b end).
  assert (Hn : 1 <= n). { unfold n. destruct size as [[|b]|]; [congruence | lia | destruct files; [congruence | cbn; lia]]. }
  destruct (Nat.eqb_spec n 0) as [?|_]; [lia|]. rewrite batch_slices_cons by assumption. cbn [fold_left].
  assert (Hf : firstn n files <> []) by (destruct files; [congruence | destruct n; [lia | discriminate]]).
  destruct (recursive_tree (firstn n files) Hf) as [t1 [L1 [_ E1]]].
  unfold add_batch at 2. cbn [bind]. rewrite E1. destruct (eval mrg t1) as [r1|e] eqn:Ev.
  - cbn [bind]. destruct (fold_add (length files) n Hn (skipn n files) t1 r1) as [t [L E]]; [rewrite skipn_length; lia | exact Ev |].
    exists t. split; [rewrite L, L1; apply firstn_skipn | exact E].
  - cbn [bind]. rewrite fold_err.
    assert (G : forall rest, exists t, leaves t = leaves t1 ++ rest /\ eval mrg t = Err e).
    { induction rest as [|x rest [t [L E]]] using rev_ind; [exists t1; rewrite app_nil_r; auto|].
      exists (Node t (Leaf x)). split; [cbn; rewrite L, app_assoc; reflexivity|]. cbn. rewrite E. reflexivity. }
    destruct (G (skipn n files)) as [t [L E]]. exists t. split; [rewrite L, L1; apply firstn_skipn|]. rewrite E. reflexivity.
Qed.

(** associative merges: every tree is the left-to-right fold *)
Theorem tree_fold (op : A -> A -> A) t d : (forall x y, mrg x y = Ok (op x y)) -> (forall x y z, op x (op y z) = op (op x y) z) ->
  eval mrg t = Ok (fold_left op (tl (leaves t)) (hd d (leaves t))).
Proof.
  intros HM HA.
  assert (FA : forall l x y, fold_left op l (op x y) = op x (fold_left op l y)).
  { induction l as [|z l IH]; intros x y; [reflexivity|]. cbn. rewrite <- HA. apply IH. }
  assert (NE : forall t : tree A, leaves t <> []).
  { induction t0 as [a|l IHl r IHr]; cbn; [discriminate|]. intro E. apply app_eq_nil in E. tauto. }
  induction t as [a|l IHl r IHr]; [reflexivity|]. cbn. rewrite IHl, IHr. cbn [bind]. rewrite HM. f_equal.
  pose proof (NE l) as Nl. pose proof (NE r) as Nr.
  destruct (leaves l) as [|x xs]; [congruence|]. destruct (leaves r) as [|y ys]; [congruence|]. cbn [hd tl app].
  rewrite fold_left_app. cbn [fold_left]. rewrite FA. reflexivity.
Qed.
End Tree.
