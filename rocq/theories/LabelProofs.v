From Coq Require Import Ascii String.
From Verif Require Import Prelude PyStr LabelModel.
Open Scope nat_scope.

Definition cand (lab : pystr) (k : nat) : pystr := match k with O => lab | _ => dotted lab (Z.of_nat k) end.
Lemma dotted_inj lab a b : dotted lab a = dotted lab b -> a = b.
Proof.
  unfold dotted. intro H. apply app_inv_head in H. apply app_inv_head in H. pose proof (int_str a) as A. rewrite H, int_str in A. congruence.
Qed.
Lemma dotted_neq lab a : dotted lab a <> lab.
Proof. unfold dotted. intro H. apply (f_equal (@List.length _)) in H. rewrite !app_length in H. cbn in H. lia. Qed.
Lemma cand_inj lab i j : cand lab i = cand lab j -> i = j.
Proof.
  destruct i as [|i], j as [|j]; cbn [cand]; intro H; [reflexivity | symmetry in H; apply dotted_neq in H; destruct H | apply dotted_neq in H; destruct H|].
  apply dotted_inj in H. lia.
Qed.
Lemma mem_str x l : existsb (str_eqb x) l = true <-> In x l.
Proof.
  rewrite existsb_exists. split; [intros (y & Hy & E); apply str_eqb_eq in E; congruence | intro H; exists x; split; [exact H | apply str_eqb_eq; reflexivity]].
Qed.
Lemma uniq_spec fuel prefix lab k : (exists j, k <= j < k + fuel /\ ~ In (cand lab j) prefix /\ (forall i, k <= i < j -> In (cand lab i) prefix) /\ uniq fuel prefix lab (cand lab k) (Z.of_nat k + 1) = cand lab j)
  \/ (forall j, k <= j < k + fuel -> In (cand lab j) prefix).
Proof.
  revert k. induction fuel as [|f IH]; intro k; [right; intros; lia|]. cbn [uniq]. destruct (existsb (str_eqb (cand lab k)) prefix) eqn:E.
  - apply mem_str in E. replace (dotted lab (Z.of_nat k + 1)) with (cand lab (S k)) by (cbn [cand]; f_equal; lia). replace (Z.of_nat k + 1 + 1)%Z with (Z.of_nat (S k) + 1)%Z by lia.
    destruct (IH (S k)) as [(j & Hj & N & F & Q)|F].
    + left. exists j. split; [lia|]. split; [exact N|]. split; [|exact Q]. intros i Hi. destruct (Nat.eq_dec i k) as [->|]; [exact E | apply F; lia].
    + right. intros j Hj. destruct (Nat.eq_dec j k) as [->|]; [exact E | apply F; lia].
  - left. exists k. split; [lia|]. split; [intro C; apply mem_str in C; congruence|]. split; [intros; lia | reflexivity].
Qed.
Lemma nodup_map_inj {A B} (f : A -> B) l : (forall x y, f x = f y -> x = y) -> NoDup l -> NoDup (map f l).
Proof.
  intros I. induction l as [|x l IH]; intro N; [constructor|]. inversion N as [|? ? N1 N2]; subst. constructor; [|apply IH, N2]. intro C. apply in_map_iff in C. destruct C as (y & E & Hy). apply I in E. subst. contradiction.
Qed.
Lemma uniq_fresh prefix lab fuel : length prefix < fuel ->
  let r := uniq fuel prefix lab lab 1 in ~ In r prefix /\ (~ In lab prefix -> r = lab) /\ (r = lab \/ exists k, r = dotted lab k).
Proof.
  intros L r. pose proof (uniq_spec fuel prefix lab 0) as S. cbn [cand] in S. change (Z.of_nat 0 + 1)%Z with 1%Z in S. fold r in S. destruct S as [(j & Hj & N & F & Q)|F].
  - rewrite Q. split; [exact N|]. split.
    + intro NI. destruct j as [|j]; [reflexivity|]. exfalso. apply NI. apply (F 0). lia.
    + destruct j as [|j]; [left; reflexivity | right; eexists; reflexivity].
  - exfalso. assert (B : length (map (cand lab) (seq 0 fuel)) <= length prefix).
    { apply NoDup_incl_length; [apply nodup_map_inj; [apply cand_inj | apply seq_NoDup]|]. intros x Hx. apply in_map_iff in Hx. destruct Hx as (j & <- & Hj). apply in_seq in Hj. apply F. lia. }
    rewrite map_length, seq_length in B. lia.
Qed.
Lemma nodup_snoc {A} (l : list A) x : NoDup l -> ~ In x l -> NoDup (l ++ [x]).
Proof. intros N H. apply (NoDup_Add (a := x) (l := l)); [rewrite <- (app_nil_r l) at 1; apply Add_app | split; assumption]. Qed.
Lemma fix_labels_spec rest done : NoDup done -> length done + length rest <= max_ext -> NoDup (fix_labels done rest) /\
  exists tail, fix_labels done rest = done ++ tail /\ length tail = length rest /\ (NoDup (done ++ rest) -> tail = rest) /\
    Forall2 (fun l l' => l' = l \/ exists k, l' = dotted l k) rest tail.
Proof.
  revert done. induction rest as [|l r IH]; intros done N L; cbn [fix_labels].
  - split; [exact N|]. exists []. rewrite app_nil_r. repeat split; constructor.
  - cbn [length] in L. destruct (uniq_fresh done l max_ext ltac:(lia)) as (F1 & F2 & F3). set (u := uniq max_ext done l l 1) in *. clearbody u.
    destruct (IH (done ++ [u])) as (N' & tail & E & Lt & K & F); [apply nodup_snoc; assumption | rewrite app_length; cbn [length]; lia|].
    split; [exact N'|]. exists (u :: tail). rewrite E, <- app_assoc. split; [reflexivity|]. split; [cbn [length]; lia|]. split; [|constructor; assumption].
    intro ND. assert (NI : ~ In l done). { apply NoDup_remove_2 in ND. intro C. apply ND, in_app_iff. left. exact C. }
    rewrite (F2 NI) in *. rewrite K; [reflexivity|]. rewrite <- app_assoc. exact ND.
Qed.
Lemma fix_labels_app a b done : fix_labels done (a ++ b) = fix_labels (fix_labels done a) b.
Proof. revert done. induction a as [|l a IH]; intro done; [reflexivity|]. cbn. apply IH. Qed.

Section P.
Context {D : Type}.
Definition okpd (st : pd D) : Prop := NoDup (labels st) /\ length (labels st) = length (dsets st).
Lemma add_spec (st : pd D) ds labs st' : okpd st -> length (dsets st) + length ds <= max_ext -> add st ds labs = Ok st' ->
  okpd st' /\ dsets st' = dsets st ++ ds /\ (exists tail, labels st' = labels st ++ tail /\
    Forall2 (fun l l' => l' = l \/ exists k, l' = dotted l k) (match labs with Some l => l | None => default_labels (length (dsets st)) (length ds) end) tail /\
    (forall l, l = match labs with Some l => l | None => default_labels (length (dsets st)) (length ds) end -> NoDup (labels st ++ l) -> tail = l)).
Proof.
  intros [N L] B H. unfold add in H. set (ls := match labs with Some l => l | None => default_labels (length (dsets st)) (length ds) end) in *.
  unfold require in H. destruct (Nat.eqb_spec (length ds) (length ls)) as [E|]; [|discriminate]. injection H as <-. cbn [dsets labels].
  rewrite fix_labels_app.
  assert (F : fix_labels [] (labels st) = labels st). { destruct (fix_labels_spec (labels st) [] (NoDup_nil _)) as (_ & t & Et & _ & K & _); [cbn [length]; lia|]. rewrite Et. cbn. apply K. exact N. }
  rewrite F. destruct (fix_labels_spec ls (labels st) N ltac:(lia)) as (N' & tail & Et & Lt & K & Fa).
  split; [split; [exact N' | cbn [labels dsets]; rewrite Et, !app_length; lia]|]. split; [reflexivity|]. exists tail. split; [exact Et|]. split; [exact Fa|].
  intros l El ND. fold ls in El. subst l. apply K, ND.
Qed.
Lemma index_str_spec x l : NoDup l -> forall i, nth_error l i = Some x <-> index_str x l = Some i.
Proof.
  induction l as [|y l IH]; intros N i; [split; [destruct i|]; discriminate|]. inversion N as [|? ? N1 N2]; subst. cbn [index_str].
  destruct (str_eqb x y) eqn:E.
  - apply str_eqb_eq in E. subst y. split.
    + destruct i as [|i]; [reflexivity|]. cbn. intro H. exfalso. apply N1, (nth_error_In _ i), H.
    + intro H. injection H as <-. reflexivity.
  - assert (x <> y) by (intro C; apply str_eqb_eq in C; congruence). destruct i as [|i]; cbn [nth_error].
    + split; [congruence|]. destruct (index_str x l); discriminate.
    + rewrite (IH N2 i). destruct (index_str x l) as [j|]; cbn; split; intro H0; try discriminate; injection H0 as ->; reflexivity.
Qed.
Lemma index_str_none x l : index_str x l = None <-> ~ In x l.
Proof.
  induction l as [|y l IH]; [split; [intros _ []|reflexivity]|]. cbn [index_str In]. destruct (str_eqb x y) eqn:E.
  - apply str_eqb_eq in E. subst. split; [discriminate | tauto].
  - assert (x <> y) by (intro C; apply str_eqb_eq in C; congruence). destruct (index_str x l) as [j|]; cbn; split; intro H0; try discriminate; try reflexivity.
    + exfalso. apply H0. right. destruct (proj1 (not_iff_compat IH)) as []. congruence. tauto.
    + intros [C|C]; [congruence|]. apply (proj1 IH eq_refl C).
Qed.
End P.
