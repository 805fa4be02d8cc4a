(** Lemmas about the numpy list idioms of Prelude.v. *)
From Coq Require Import Sorted Permutation.
From Verif Require Import Prelude.

Lemma bind_ok {A B} (r : result A) (f : A -> result B) b :
  bind r f = Ok b -> exists a, r = Ok a /\ f a = Ok b.
Proof. destruct r as [a|e]; cbn; [eauto | discriminate]. Qed.

Lemma require_ok {A} c e (k : result A) b : require c e k = Ok b -> c = true /\ k = Ok b.
Proof. destruct c; cbn; [auto | discriminate]. Qed.

(** split every bind/require in hypothesis [H : ... = Ok _] *)
Ltac inv_ok :=
  repeat match goal with
  | H : bind _ _ = Ok _ |- _ => apply bind_ok in H; destruct H as [? [? H]]
  | H : require _ _ _ = Ok _ |- _ => apply require_ok in H; destruct H as [? H]
  end.

Lemma Forall2_len {A B} (R : A -> B -> Prop) l r : Forall2 R l r -> length l = length r.
Proof. induction 1; cbn; congruence. Qed.

Definition picks {A} (idx : list nat) (l r : list A) : Prop :=
  Forall2 (fun i x => nth_error l i = Some x) idx r.

Lemma gather_spec {A} (l : list A) idx r : gather l idx = Ok r <-> picks idx l r.
Proof.
  unfold picks. revert r; induction idx as [|i idx IH]; intros r; cbn; split; intros H.
  - injection H as <-. constructor.
  - inversion H; reflexivity.
  - destruct (nth_error l i) as [x|] eqn:E; [|discriminate].
    destruct (gather l idx) as [r'|] eqn:G; cbn in H; [|discriminate]. injection H as <-.
    constructor; [exact E | apply IH; reflexivity].
  - inversion H as [|? x ? r' Hx Hr]; subst. rewrite Hx. apply IH in Hr. rewrite Hr. reflexivity.
Qed.

Lemma gather_total {A} (l : list A) idx :
  Forall (fun i => i < length l) idx -> exists r, gather l idx = Ok r.
Proof.
  induction 1 as [|i idx Hi F [r IH]]; [exists []; reflexivity|].
  cbn. destruct (nth_error l i) as [x|] eqn:E; [|apply nth_error_None in E; lia].
  rewrite IH. cbn. eauto.
Qed.

Lemma picks_length {A} idx (l r : list A) : picks idx l r -> length r = length idx.
Proof. intros H. symmetry. eapply Forall2_len; exact H. Qed.

Lemma picks_range {A} idx (l r : list A) : picks idx l r -> Forall (fun i => i < length l) idx.
Proof.
  induction 1 as [|i x idx r Hx H IH]; constructor; [|exact IH].
  apply nth_error_Some. congruence.
Qed.

Lemma picks_nth {A} idx (l r : list A) j i : picks idx l r -> nth_error idx j = Some i ->
  nth_error r j = nth_error l i.
Proof.
  intros H; revert j; induction H as [|i0 x idx r Hx H IH]; intros j E; [destruct j; discriminate|].
  destruct j; cbn in *; [congruence | apply IH; exact E].
Qed.

Lemma picks_In {A} idx (l r : list A) x : picks idx l r ->
  (In x r <-> exists i, In i idx /\ nth_error l i = Some x).
Proof.
  induction 1 as [|i0 y idx r Hx H IH]; cbn; [firstorder|].
  rewrite IH. split.
  - intros [<-|[i [Hi E]]]; eauto.
  - intros [i [[<-|Hi] E]]; [left; congruence | eauto].
Qed.

Lemma picks_map {A B} (f : A -> B) idx l r : picks idx l r -> picks idx (map f l) (map f r).
Proof.
  induction 1 as [|i x idx r Hx H IH]; constructor; [|exact IH].
  rewrite nth_error_map, Hx. reflexivity.
Qed.

Lemma picks_fun {A} idx (l r r' : list A) : picks idx l r -> picks idx l r' -> r = r'.
Proof. rewrite <- !gather_spec. congruence. Qed.

Lemma picks_app {A} i1 i2 (l r1 r2 : list A) :
  picks i1 l r1 -> picks i2 l r2 -> picks (i1 ++ i2) l (r1 ++ r2).
Proof. apply Forall2_app. Qed.

Lemma picks_seq {A} (l : list A) : picks (seq 0 (length l)) l l.
Proof.
  assert (G : forall l2 l1 : list A, picks (seq (length l1) (length l2)) (l1 ++ l2) l2).
  { induction l2 as [|x l2 IH]; intros l1; cbn; constructor.
    - rewrite nth_error_app2, Nat.sub_diag by lia. reflexivity.
    - replace (l1 ++ x :: l2) with ((l1 ++ [x]) ++ l2) by (rewrite <- app_assoc; reflexivity).
      replace (S (length l1)) with (length (l1 ++ [x])) by (rewrite app_length; cbn; lia).
      apply IH. }
  apply (G l []).
Qed.

Lemma where_from_spec k m i :
  In i (where_from k m) <-> exists j, i = k + j /\ nth_error m j = Some true.
Proof.
  revert k; induction m as [|b m IH]; intros k.
  - cbn. split; [tauto|]. intros [j [_ H]]. destruct j; discriminate.
  - cbn [where_from]. destruct b; cbn [In]; rewrite IH; split.
    + intros [<-|[j [-> E]]]; [exists 0 | exists (S j)]; split; auto; lia.
    + intros [[|j] [-> E]]; [left; lia | right; exists j; split; [lia | exact E]].
    + intros [j [-> E]]. exists (S j). split; [lia | exact E].
    + intros [[|j] [-> E]]; [discriminate | exists j; split; [lia | exact E]].
Qed.

Lemma where_spec m i : In i (where_ m) <-> nth_error m i = Some true.
Proof.
  unfold where_. rewrite where_from_spec. split.
  - intros [j [-> E]]. exact E.
  - intros E. exists i. auto.
Qed.

Lemma where_from_sorted k m : StronglySorted lt (where_from k m) /\ Forall (fun i => k <= i) (where_from k m).
Proof.
  revert k; induction m as [|b m IH]; intros k; cbn; [split; constructor|].
  destruct (IH (S k)) as [S1 F1]. destruct b; split.
  - constructor; [exact S1|]. eapply Forall_impl; [|exact F1]. cbn; intros; lia.
  - constructor; [lia|]. eapply Forall_impl; [|exact F1]. cbn; intros; lia.
  - exact S1.
  - eapply Forall_impl; [|exact F1]. cbn; intros; lia.
Qed.

Lemma where_sorted m : StronglySorted lt (where_ m).
Proof. apply where_from_sorted. Qed.

Lemma where_range m : Forall (fun i => i < length m) (where_ m).
Proof.
  apply Forall_forall. intros i H. apply where_spec in H. apply nth_error_Some. congruence.
Qed.

Lemma mask_picks {A} (m : list bool) (l : list A) : length m = length l -> picks (where_ m) l (mask m l).
Proof.
  assert (G : forall m l1 (l2 : list A), length m = length l2 -> picks (where_from (length l1) m) (l1 ++ l2) (mask m l2)).
  { induction m0 as [|b m0 IH]; intros l1 [|x l2] L; cbn in *; try discriminate; [constructor|].
    assert (I : picks (where_from (S (length l1)) m0) (l1 ++ x :: l2) (mask m0 l2)).
    { replace (l1 ++ x :: l2) with ((l1 ++ [x]) ++ l2) by (rewrite <- app_assoc; reflexivity).
      replace (S (length l1)) with (length (l1 ++ [x])) by (rewrite app_length; cbn; lia).
      apply IH. lia. }
    destruct b; [constructor; [|exact I] | exact I].
    rewrite nth_error_app2, Nat.sub_diag by lia. reflexivity. }
  intros L. apply (G m [] l L).
Qed.

Lemma mask_map_filter {A} (f : A -> bool) (l : list A) : mask (map f l) l = filter f l.
Proof. induction l as [|x l IH]; cbn; [reflexivity|]. rewrite IH. destruct (f x); reflexivity. Qed.

Lemma gather_where_filter {A} (f : A -> bool) (l : list A) : gather l (where_ (map f l)) = Ok (filter f l).
Proof. apply gather_spec. rewrite <- mask_map_filter. apply mask_picks. apply map_length. Qed.

(** strictly sorted lists with the same elements are equal *)
Lemma sorted_ext (l1 l2 : list nat) : StronglySorted lt l1 -> StronglySorted lt l2 ->
  (forall x, In x l1 <-> In x l2) -> l1 = l2.
Proof.
  intros S1; revert l2; induction S1 as [|a l1 S1 IH F1]; intros l2 S2 E.
  - destruct l2 as [|b l2]; [reflexivity|]. exfalso. apply (E b). left; reflexivity.
  - destruct S2 as [|b l2 S2 F2]; [exfalso; apply (E a); left; reflexivity|].
    rewrite Forall_forall in F1, F2.
    assert (a = b).
    { destruct (proj1 (E a) (or_introl eq_refl)) as [H|H]; [congruence|].
      destruct (proj2 (E b) (or_introl eq_refl)) as [H'|H']; [congruence|].
      specialize (F1 _ H'). specialize (F2 _ H). lia. }
    subst b. f_equal. apply IH; [exact S2|]. intros x. split; intros Hx.
    + destruct (proj1 (E x) (or_intror Hx)) as [->|]; [|assumption]. specialize (F1 _ Hx). lia.
    + destruct (proj2 (E x) (or_intror Hx)) as [->|]; [|assumption]. specialize (F2 _ Hx). lia.
Qed.

Lemma map_res_spec {A B} (f : A -> result B) l r :
  map_res f l = Ok r <-> Forall2 (fun x y => f x = Ok y) l r.
Proof.
  revert r; induction l as [|x l IH]; intros r; cbn; split; intros H.
  - injection H as <-. constructor.
  - inversion H; reflexivity.
  - inv_ok. injection H as <-. constructor; [assumption | apply IH; assumption].
  - inversion H as [|? y ? r' Hx Hr]; subst. rewrite Hx. cbn. apply IH in Hr. rewrite Hr. reflexivity.
Qed.

Lemma map_res_total {A B} (f : A -> result B) l :
  Forall (fun x => exists y, f x = Ok y) l -> exists r, map_res f l = Ok r.
Proof.
  induction 1 as [|x l [y Hy] F [r IH]]; [exists []; reflexivity|].
  cbn. rewrite Hy. cbn. rewrite IH. cbn. eauto.
Qed.

Lemma Forall2_Forall_r {A B} (R : A -> B -> Prop) (P : B -> Prop) l r :
  Forall2 R l r -> (forall x y, In x l -> R x y -> P y) -> Forall P r.
Proof.
  induction 1 as [|x y l r Hxy H IH]; intros G; constructor.
  - apply (G x); [left; reflexivity | exact Hxy].
  - apply IH. intros; eapply G; [right|]; eassumption.
Qed.

Lemma sorted_NoDup (l : list nat) : StronglySorted lt l -> NoDup l.
Proof.
  induction 1 as [|a l S IH F]; constructor; [|exact IH].
  intros H. rewrite Forall_forall in F. specialize (F _ H). lia.
Qed.

Lemma NoDup_picks {A} idx (l r : list A) : NoDup l -> NoDup idx -> picks idx l r -> NoDup r.
Proof.
  intros Nl Ni P. revert Ni. induction P as [|i x idx r Hx P IH]; intros Ni; constructor.
  - inversion Ni as [|? ? N1 N2]; subst. intros H. apply (picks_In _ _ _ _ P) in H.
    destruct H as [j [Hj E]]. apply N1. rewrite NoDup_nth_error in Nl.
    rewrite (Nl i j); [exact Hj | apply nth_error_Some; congruence | congruence].
  - inversion Ni; auto.
Qed.

Lemma NoDup_map_in {A B} (f : A -> B) l :
  (forall a b, In a l -> In b l -> f a = f b -> a = b) -> NoDup l -> NoDup (map f l).
Proof.
  intros H N; induction N as [|x l Hx N IH]; cbn; constructor.
  - intros C. apply in_map_iff in C. destruct C as [y [E Hy]]. apply Hx.
    rewrite <- (H y x); [exact Hy | right; exact Hy | left; reflexivity | exact E].
  - apply IH. intros; apply H; [right|right|]; assumption.
Qed.
