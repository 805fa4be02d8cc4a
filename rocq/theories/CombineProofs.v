(** Sorting, sets and the overlap check. *)
From Coq Require Import Permutation Sorted.
From Verif Require Import Prelude ListLemmas UvpModel CommonProofs CombineModel.

Lemma mem_In {A} dec (x : A) l : mem dec x l = true <-> In x l.
Proof. unfold mem. destruct (in_dec dec x l); intuition congruence. Qed.
Lemma mem_false {A} dec (x : A) l : mem dec x l = false <-> ~ In x l.
Proof. unfold mem. destruct (in_dec dec x l); intuition congruence. Qed.

(** * lexicographic order *)
Lemma lex_refl a : lex_leb a a = true.
Proof. induction a as [|x a IH]; cbn; [reflexivity|]. rewrite Z.eqb_refl, IH. apply orb_true_r. Qed.
Lemma lex_total a b : lex_leb a b = true \/ lex_leb b a = true.
Proof.
  revert b; induction a as [|x a IH]; intros [|y b]; cbn; auto.
  destruct (Z.ltb_spec x y); [left; reflexivity|]. destruct (Z.ltb_spec y x); [right; reflexivity|].
  assert (x = y) by lia. subst. rewrite Z.eqb_refl. cbn. apply IH.
Qed.
Lemma lex_anti a b : lex_leb a b = true -> lex_leb b a = true -> a = b.
Proof.
  revert b; induction a as [|x a IH]; intros [|y b]; cbn; intros H1 H2; try discriminate; auto.
  destruct (Z.ltb_spec x y) as [L|L]; destruct (Z.ltb_spec y x) as [L'|L']; try lia; cbn [orb andb] in H1, H2.
  destruct (Z.eqb_spec x y) as [->|]; [|discriminate]. rewrite Z.eqb_refl in H2. f_equal. apply IH; assumption.
Qed.
Lemma lex_trans a b c : lex_leb a b = true -> lex_leb b c = true -> lex_leb a c = true.
Proof.
  revert b c; induction a as [|x a IH]; intros [|y b] [|z c]; cbn; intros H1 H2; try discriminate; auto.
  destruct (Z.ltb_spec x y) as [L|L]; cbn in H1.
  - destruct (Z.ltb_spec y z) as [L'|L']; cbn in H2.
    + destruct (Z.ltb_spec x z); [reflexivity|lia].
    + destruct (Z.eqb_spec y z) as [->|]; [|discriminate]. destruct (Z.ltb_spec x z); [reflexivity|lia].
  - destruct (Z.eqb_spec x y) as [->|]; [|discriminate].
    destruct (Z.ltb_spec y z) as [L'|L']; cbn [orb andb] in *; [reflexivity|].
    destruct (Z.eqb_spec y z) as [->|]; [|discriminate]. cbn [orb andb] in *. eapply IH; eassumption.
Qed.

Record order {A} (leb : A -> A -> bool) : Prop := {
  ord_total : forall a b, leb a b = true \/ leb b a = true;
  ord_trans : forall a b c, leb a b = true -> leb b c = true -> leb a c = true;
  ord_anti : forall a b, leb a b = true -> leb b a = true -> a = b }.
Lemma lex_order : order lex_leb.
Proof. split; [apply lex_total | apply lex_trans | apply lex_anti]. Qed.
Lemma blpt_order : order blpt_leb.
Proof.
  split; unfold blpt_leb.
  - intros; apply lex_total.
  - intros a b c. apply lex_trans.
  - intros [[a1 a2] a3] [[b1 b2] b3] H1 H2. pose proof (lex_anti _ _ H1 H2) as E. cbn in E. injection E as -> -> ->. reflexivity.
Qed.

(** * insertion sort *)
Section Sort.
Context {A : Type}.
Variable leb : A -> A -> bool.
Let R x y := leb x y = true.

Lemma insert_perm x l : Permutation (insert leb x l) (x :: l).
Proof.
  induction l as [|y l IH]; cbn; [apply Permutation_refl|]. destruct (leb x y); [apply Permutation_refl|].
  eapply perm_trans; [apply perm_skip; exact IH | apply perm_swap].
Qed.
Lemma isort_perm l : Permutation (isort leb l) l.
Proof.
  induction l as [|x l IH]; cbn; [constructor|]. eapply perm_trans; [apply insert_perm | apply perm_skip; exact IH].
Qed.
Hypothesis Ht : forall a b, leb a b = true \/ leb b a = true.
Hypothesis Htr : forall a b c, leb a b = true -> leb b c = true -> leb a c = true.
Lemma insert_sorted x l : StronglySorted R l -> StronglySorted R (insert leb x l).
Proof using Ht Htr.
  induction 1 as [|y l Hs IH F]; cbn; [repeat constructor|].
  destruct (leb x y) eqn:E.
  - constructor; [constructor; assumption|]. constructor; [exact E|]. eapply Forall_impl; [|exact F].
    intros z Hz. eapply Htr; eassumption.
  - constructor; [exact IH|]. eapply Permutation_Forall; [apply Permutation_sym, insert_perm|]. constructor; [|exact F].
    destruct (Ht x y) as [H|H]; [congruence|exact H].
Qed.
Lemma isort_sorted l : StronglySorted R (isort leb l).
Proof using Ht Htr. induction l as [|x l IH]; cbn; [constructor|]. apply insert_sorted, IH. Qed.
Hypothesis Ha : forall a b, leb a b = true -> leb b a = true -> a = b.
Lemma sorted_unique l1 l2 : StronglySorted R l1 -> StronglySorted R l2 -> Permutation l1 l2 -> l1 = l2.
Proof using Ha.
  clear Ht Htr. revert l2; induction l1 as [|x l1 IH]; intros l2 S1 S2 P.
  - apply Permutation_nil in P. congruence.
  - destruct l2 as [|y l2]; [apply Permutation_sym, Permutation_nil in P; discriminate|].
    inversion S1 as [|? ? S1' F1]; subst. inversion S2 as [|? ? S2' F2]; subst.
    assert (x = y).
    { assert (Hx : In x (y :: l2)) by (apply (Permutation_in _ P); left; reflexivity).
      assert (Hy : In y (x :: l1)) by (apply (Permutation_in _ (Permutation_sym P)); left; reflexivity).
      destruct Hx as [|Hx]; [congruence|]. destruct Hy as [|Hy]; [congruence|].
      rewrite Forall_forall in F1, F2. apply Ha; [apply F1, Hy | apply F2, Hx]. }
    subst y. f_equal. apply IH; auto. apply Permutation_cons_inv in P. exact P.
Qed.
End Sort.

Section SortedSet.
Context {A : Type}.
Variable dec : forall x y : A, {x = y} + {x <> y}.
Variable leb : A -> A -> bool.
Lemma sorted_set_In l x : In x (sorted_set dec leb l) <-> In x l.
Proof.
  unfold sorted_set. rewrite <- (nodup_In dec l). split; intro H; (eapply Permutation_in; [|exact H]); [apply isort_perm | apply Permutation_sym, isort_perm].
Qed.
Lemma sorted_set_NoDup l : NoDup (sorted_set dec leb l).
Proof. eapply Permutation_NoDup; [apply Permutation_sym, isort_perm | apply NoDup_nodup]. Qed.
Lemma sorted_set_sorted l : order leb -> StronglySorted (fun x y => leb x y = true) (sorted_set dec leb l).
Proof. intros [H1 H2 _]. apply isort_sorted; assumption. Qed.
Lemma sorted_set_unique l1 l2 : order leb -> (forall x, In x l1 <-> In x l2) -> sorted_set dec leb l1 = sorted_set dec leb l2.
Proof.
  intros O H. apply (sorted_unique leb (ord_anti _ O)); try (apply sorted_set_sorted; exact O).
  apply NoDup_Permutation; try apply sorted_set_NoDup. intro x. rewrite !sorted_set_In. apply H.
Qed.
Lemma sorted_set_fix l : order leb -> NoDup l -> StronglySorted (fun x y => leb x y = true) l -> forall l', (forall x, In x l' <-> In x l) -> sorted_set dec leb l' = l.
Proof.
  intros O N S l' H. apply (sorted_unique leb (ord_anti _ O)); [apply sorted_set_sorted; exact O | exact S |].
  apply NoDup_Permutation; [apply sorted_set_NoDup | exact N |]. intro x. rewrite sorted_set_In. apply H.
Qed.
End SortedSet.

(** * polarization pairs sorted by absolute value: positive numbers *)
Lemma abs_sorted_unique l1 l2 : (forall x, In x l1 -> (0 < x)%Z) -> (forall x, In x l1 <-> In x l2) ->
  sorted_set Z.eq_dec abs_leb l1 = sorted_set Z.eq_dec abs_leb l2.
Proof.
  intros P H.
  assert (G : forall l, (forall x, In x l -> (0 < x)%Z) -> sorted_set Z.eq_dec abs_leb l = sorted_set Z.eq_dec Z.leb l).
  { intros l Pl. unfold sorted_set.
    assert (Pn : forall x, In x (nodup Z.eq_dec l) -> (0 < x)%Z) by (intros x Hx; apply Pl, (nodup_In Z.eq_dec), Hx).
    revert Pn. generalize (nodup Z.eq_dec l) as k. induction k as [|x k IH]; intro Pk; [reflexivity|]. change (isort abs_leb (x :: k)) with (insert abs_leb x (isort abs_leb k)). change (isort Z.leb (x :: k)) with (insert Z.leb x (isort Z.leb k)).
    rewrite IH by (intros; apply Pk; right; assumption).
    assert (Pi : forall z, In z (isort Z.leb k) -> (0 < z)%Z).
    { intros z Hz. apply (Permutation_in _ (isort_perm Z.leb k)) in Hz. apply Pk. right; exact Hz. }
    pose proof (Pk x (or_introl eq_refl)) as Px. clear -Pi Px. revert Pi. generalize (isort Z.leb k) as m.
    induction m as [|y m IHm]; intro Pm; [reflexivity|]. cbn [insert]. unfold abs_leb at 1.
    pose proof (Pm y (or_introl eq_refl)). rewrite !Z.abs_eq by lia. rewrite IHm by (intros; apply Pm; right; assumption). reflexivity. }
  rewrite (G l1 P), (G l2) by (intros x Hx; apply P, H, Hx). apply sorted_set_unique; [|exact H].
  split; [intros; rewrite !Z.leb_le; lia | intros a b c; rewrite !Z.leb_le; lia | intros a b; rewrite !Z.leb_le; lia].
Qed.

(** * sets *)
Lemma same_set_spec {A} dec (l1 l2 : list A) : same_set dec l1 l2 = true <-> (forall x, In x l1 <-> In x l2).
Proof.
  unfold same_set. rewrite andb_true_iff, !forallb_forall. split.
  - intros [H1 H2] x. split; intro H; [apply H1 in H | apply H2 in H]; apply mem_In in H; exact H.
  - intro H. split; intros x Hx; apply mem_In, H, Hx.
Qed.
Lemma disjoint_spec {A} dec (l1 l2 : list A) : disjoint dec l1 l2 = true <-> (forall x, In x l1 -> In x l2 -> False).
Proof.
  unfold disjoint. rewrite forallb_forall. split.
  - intros H x H1 H2. specialize (H x H1). apply negb_true_iff, mem_false in H. auto.
  - intros H x Hx. apply negb_true_iff, mem_false. intro H2. exact (H x Hx H2).
Qed.
Lemma all_pairs_In {A} (l : list A) x y : In (x, y) (all_pairs l) <-> exists a b c, l = a ++ x :: b ++ y :: c.
Proof.
  induction l as [|z l IH]; cbn.
  - split; [intros [] | intros [[|? ?] [b [c E]]]; discriminate].
  - rewrite in_app_iff, in_map_iff, IH. split.
    + intros [[w [E Hw]]|[a [b [c ->]]]].
      * injection E as -> ->. apply in_split in Hw. destruct Hw as [b [c ->]]. exists [], b, c. reflexivity.
      * exists (z :: a), b, c. reflexivity.
    + intros [[|a0 a] [b [c E]]]; injection E as -> ->.
      * left. exists y. split; [reflexivity|]. apply in_or_app. right. left. reflexivity.
      * right. exists a, b, c. reflexivity.
Qed.
