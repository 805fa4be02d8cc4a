(** C28: dataset labels. *)
From Coq Require Import Ascii String.
From Verif Require Import Prelude PyStr LabelModel LabelProofs.
Open Scope nat_scope.

(** total number of datasets a history offers *)
Definition offered {D} (calls : list (list D * option (list pystr))) : nat := fold_right (fun c n => length (fst c) + n) 0 calls.

(** after every history of [add] calls (of less than 100000 datasets): labels are pairwise
    distinct and there is one per dataset *)
Lemma histories {D} (calls : list (list D * option (list pystr))) : forall st : pd D, okpd st -> length (dsets st) + offered calls <= max_ext ->
  let st' := add_all st calls in okpd st' /\ (exists tl, labels st' = labels st ++ tl) /\ exists td, dsets st' = dsets st ++ td.
Proof.
  induction calls as [|c calls IH]; intros st O B; cbn [add_all fold_left].
  - split; [exact O|]. split; exists []; rewrite app_nil_r; reflexivity.
  - change (offered (c :: calls)) with (length (fst c) + offered calls) in B. destruct (add st (fst c) (snd c)) as [s|e] eqn:E.
    + assert (B1 : length (dsets st) + length (fst c) <= max_ext) by lia. destruct (add_spec st (fst c) (snd c) s O B1 E) as (O' & Ed & tl & El & _). destruct (IH s O') as (O2 & (tl2 & E2) & (td2 & E3)).
      { rewrite Ed, app_length. lia. }
      change (fold_left _ calls s) with (add_all s calls). split; [exact O2|]. rewrite E2, E3, El, Ed, <- !app_assoc. split; eexists; reflexivity.
    + change (fold_left _ calls st) with (add_all st calls). apply IH; [exact O | lia].
Qed.
Theorem C28_labels_unique : forall (D : Type) (calls : list (list D * option (list pystr))), offered calls <= Z.to_nat 99999 ->
  let st := add_all (@pd_init D) calls in NoDup (labels st) /\ length (labels st) = length (dsets st).
Proof. intros D calls B st. apply (histories calls (@pd_init D)); [split; [constructor | reflexivity] | exact B]. Qed.
Print Assumptions C28_labels_unique.
(** labels and datasets already there never change: later calls only append *)
Theorem C28_labels_stable : forall (D : Type) (calls more : list (list D * option (list pystr))), offered (calls ++ more) <= Z.to_nat 99999 ->
  let st := add_all (@pd_init D) calls in let st' := add_all st more in
  (exists tl, labels st' = labels st ++ tl) /\ exists td, dsets st' = dsets st ++ td.
Proof.
  intros D calls more B st st'. assert (Bo : offered (calls ++ more) = offered calls + offered more).
  { unfold offered. clear. induction calls as [|c l IH]; [reflexivity|]. cbn. rewrite IH. lia. }
  assert (Lim : length (dsets st) <= offered calls).
  { unfold st. clear. unfold add_all. assert (G : forall s : pd D, length (dsets (fold_left (fun s c => match add s (fst c) (snd c) with Ok s' => s' | Err _ => s end) calls s)) <= length (dsets s) + offered calls).
    { induction calls as [|c l IH]; intro s; cbn [fold_left]; [lia|]. change (offered (c :: l)) with (length (fst c) + offered l). eapply Nat.le_trans; [apply IH|].
      destruct (add s (fst c) (snd c)) as [s'|e] eqn:E; [|lia]. unfold add, require in E. destruct (Nat.eqb _ _); [|discriminate]. injection E as <-. cbn [dsets]. rewrite app_length. lia. }
    apply (G pd_init). }
  apply (histories more st); [apply (histories calls (@pd_init D)); [split; [constructor | reflexivity] | cbn; unfold max_ext; lia] | unfold max_ext; lia].
Qed.
Print Assumptions C28_labels_stable.
(** a requested label is used as given when it is free, and otherwise extended by a dot and a number *)
Theorem C28_labels_given : forall (D : Type) (st st' : pd D) ds l, NoDup (labels st) -> length (labels st) = length (dsets st) ->
  length (dsets st) + length ds <= Z.to_nat 99999 -> add st ds (Some l) = Ok st' ->
  dsets st' = dsets st ++ ds /\ exists tail, labels st' = labels st ++ tail /\
  Forall2 (fun want got => got = want \/ exists k, got = want ++ s_ "." ++ str_Z k) l tail /\ (NoDup (labels st ++ l) -> tail = l).
Proof.
  intros D st st' ds l N L B H. destruct (add_spec st ds (Some l) st' (conj N L) B H) as (_ & Ed & tail & El & F & K).
  split; [exact Ed|]. exists tail. split; [exact El|]. split; [exact F | apply K; reflexivity].
Qed.
Print Assumptions C28_labels_given.
(** without labels the datasets are called dset{n}, n the position in the object, when these names are free *)
Theorem C28_labels_default : forall (D : Type) (st st' : pd D) ds, NoDup (labels st) -> length (labels st) = length (dsets st) ->
  length (dsets st) + length ds <= Z.to_nat 99999 -> add st ds None = Ok st' ->
  let names := map (fun i => s_ "dset" ++ str_Z (Z.of_nat i)) (seq (length (dsets st)) (length ds)) in
  dsets st' = dsets st ++ ds /\ exists tail, labels st' = labels st ++ tail /\
  Forall2 (fun want got => got = want \/ exists k, got = want ++ s_ "." ++ str_Z k) names tail /\ (NoDup (labels st ++ names) -> tail = names).
Proof.
  intros D st st' ds N L B H names. destruct (add_spec st ds None st' (conj N L) B H) as (_ & Ed & tail & El & F & K).
  split; [exact Ed|]. exists tail. split; [exact El|]. split; [exact F | apply K; reflexivity].
Qed.
Print Assumptions C28_labels_default.
(** a list of labels of another length than the list of datasets is refused *)
Theorem C28_lengths : forall (D : Type) (st : pd D) ds l, (exists st', add st ds (Some l) = Ok st') <-> length l = length ds.
Proof.
  intros D st ds l. unfold add, require. destruct (Nat.eqb_spec (length ds) (length l)) as [E | E]; split; intros H; try congruence.
  - eexists. reflexivity.
  - destruct H as [? H]. discriminate.
Qed.
Print Assumptions C28_lengths.
(** a label finds its dataset; an unknown label is an error *)
Theorem C28_lookup : forall (D : Type) (calls : list (list D * option (list pystr))), offered calls <= Z.to_nat 99999 ->
  let st := add_all (@pd_init D) calls in
  (forall i lab, nth_error (labels st) i = Some lab -> dset_idx st lab = Ok i /\ i < length (dsets st)) /\
  (forall lab, ~ In lab (labels st) -> dset_idx st lab = Err KeyError).
Proof.
  intros D calls B st. destruct (C28_labels_unique D calls B) as [N L]. fold st in N, L. split.
  - intros i lab H. unfold dset_idx. rewrite (proj1 (index_str_spec lab (labels st) N i) H). split; [reflexivity|]. rewrite <- L. apply nth_error_Some. congruence.
  - intros lab H. unfold dset_idx. rewrite (proj2 (index_str_none lab (labels st)) H). reflexivity.
Qed.
Print Assumptions C28_lookup.
Example C28_applies : labels (add_all (@pd_init nat) [([1; 2], Some [s_ "a"; s_ "a"]); ([3; 4], Some [s_ "a.1"; s_ "a"]); ([5], None)]%nat)
  = [s_ "a"; s_ "a.1"; s_ "a.1.1"; s_ "a.2"; s_ "dset4"].
Proof. vm_compute. reflexivity. Qed.
