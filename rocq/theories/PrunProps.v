(** C179-C182: pspec_run: which dataset pairs and baseline-pairs are used and where the results are stored. *)
From Coq Require Import String Ascii.
From Verif Require Import PyDict PyStr CliProps.
From Verif Require Import Prelude RunModel RunProps.
Open Scope nat_scope.

Definition nous (l : pystr) : Prop := ~ In us l.
Lemma nous_lacks l : nous l <-> lacks us l.
Proof.
  unfold nous, lacks. rewrite Forall_forall. split.
  - intros N x Hx. apply not_true_iff_false. intros E. apply Ascii.eqb_eq in E. subst. contradiction.
  - intros H I. specialize (H _ I). rewrite Ascii.eqb_refl in H. discriminate.
Qed.
Lemma has_us_false l : has_us l = false <-> nous l.
Proof.
  unfold has_us, nous. rewrite <- not_true_iff_false, existsb_exists. split; intros H Q; apply H.
  - exists us. split; [assumption | apply Ascii.eqb_refl].
  - destruct Q as (x & I & E). apply Ascii.eqb_eq in E. subst. assumption.
Qed.
Lemma ps_name_inj l1 l2 m1 m2 ext : nous l1 -> nous m1 -> ps_name l1 l2 ext = ps_name m1 m2 ext -> l1 = m1 /\ l2 = m2.
Proof.
  intros N1 N2 H. unfold ps_name in H. change (s_ "_x_" ++ l2 ++ ext) with (us :: (s_ "x_" ++ l2 ++ ext)) in H. change (s_ "_x_" ++ m2 ++ ext) with (us :: (s_ "x_" ++ m2 ++ ext)) in H.
  pose proof H as H'. apply (f_equal (PyStr.split us)) in H'. rewrite !split_app in H' by (apply nous_lacks; assumption). injection H' as -> _. split; [reflexivity |].
  apply app_inv_head in H. injection H as H. apply app_inv_tail in H. exact H.
Qed.
Lemma default_label_nous i : nous (s_ "dset" ++ str_Z (Z.of_nat i)).
Proof.
  intros I. apply in_app_iff in I. destruct I as [I | I]; [vm_compute in I; intuition discriminate |]. destruct (str_nat_digits i) as [F _]. rewrite Forall_forall in F. specialize (F _ I). discriminate.
Qed.
Lemma default_labels_NoDup n a : NoDup (map (fun i => s_ "dset" ++ str_Z (Z.of_nat i)) (seq a n)).
Proof. apply FinFun.Injective_map_NoDup; [| apply seq_NoDup]. intros i j E. apply app_inv_head in E. apply str_Z_inj in E. lia. Qed.
Lemma run_labels_ok nds labels ls : run_labels nds labels = Ok ls -> length ls = nds /\ (forall l, In l ls -> nous l) /\ (labels = None -> NoDup ls) /\ (forall l, labels = Some l -> ls = l).
Proof.
  destruct labels as [l |]; cbn; unfold require; intros H.
  - destruct (existsb has_us l) eqn:E; [discriminate |]. cbn in H. destruct (Nat.eqb_spec (length l) nds); [| discriminate]. injection H as <-. split; [assumption |]. split; [| split; [discriminate | congruence]].
    intros x I. apply has_us_false. apply not_true_iff_false. intros Q. rewrite <- not_true_iff_false in E. apply E, existsb_exists. eauto.
  - injection H as <-. split; [rewrite map_length, seq_length; reflexivity |]. split; [| split; [intros _; apply default_labels_NoDup | discriminate]].
    intros x I. apply in_map_iff in I. destruct I as (i & <- & _). apply default_label_nous.
Qed.
Lemma NoDup_app2 {A} (l1 l2 : list A) : NoDup l1 -> NoDup l2 -> (forall x, In x l1 -> ~ In x l2) -> NoDup (l1 ++ l2).
Proof.
  induction 1 as [| x l Hx N IH]; intros N2 D; cbn; [assumption |]. constructor; [| apply IH; [assumption | intros y Hy; apply D; right; exact Hy]].
  rewrite in_app_iff. intros [Q | Q]; [contradiction | exact (D x (or_introl eq_refl) Q)].
Qed.
(** without dset_pairs: every dataset with every later one, once; a single dataset with itself *)
Theorem run_pairs_default :
  forall nds, (2 <= nds -> NoDup (run_pairs nds None) /\ forall i j, In (i, j) (run_pairs nds None) <-> i < j < nds) /\ (nds <= 1 -> run_pairs nds None = [(0, 0)]).
Proof.
  intros nds. unfold run_pairs. split.
  - intros H. replace (Nat.ltb 1 nds) with true by (symmetry; apply Nat.ltb_lt; lia). unfold combos. split.
    + generalize (seq_NoDup nds 0). generalize (seq 0 nds). induction l as [| i l IH]; intros ND; cbn [flat_map]; [constructor |]. inversion ND as [| ? ? NI ND']; subst.
      apply NoDup_app2; [apply FinFun.Injective_map_NoDup; [intros x y E; congruence | apply seq_NoDup] | apply IH, ND' |].
      intros [a b] I1 I2. apply in_map_iff in I1. destruct I1 as (j & E & _). injection E as <- _. apply in_flat_map in I2. destruct I2 as (i' & I' & I2). apply in_map_iff in I2. destruct I2 as (j' & E & _). injection E as -> _. contradiction.
    + intros i j. rewrite in_flat_map. split.
      * intros (i' & _ & I). apply in_map_iff in I. destruct I as (j' & E & I). injection E as -> ->. apply in_seq in I. lia.
      * intros L. exists i. split; [apply in_seq; lia |]. apply in_map, in_seq. lia.
  - intros H. replace (Nat.ltb 1 nds) with false by (symmetry; apply Nat.ltb_ge; lia). reflexivity.
Qed.

Section P.
Context {obj : Type} (valid : obj -> bool) (dset_bls : nat -> list bl) (reds : nat -> nat -> list (bl * bl)) (pspec : nat -> nat -> list (bl * bl) -> result obj).
Notation store := (@store obj).
Notation pspec_run := (pspec_run valid dset_bls reds pspec).
Notation run_loop := (run_loop valid dset_bls reds pspec).
Notation run_blpairs := (run_blpairs dset_bls reds).
(** baseline-pairs that are fed: those with both baselines in their dataset, in either orientation *)
Theorem run_blpairs_fed :
  forall l i j, (exists f, run_blpairs (Some l) (i, j) = filter f l) /\ run_blpairs None (i, j) = reds i j /\
    forall b1 b2, In (b1, b2) (run_blpairs (Some l) (i, j)) <->
      In (b1, b2) l /\ (In b1 (dset_bls i) \/ In (snd b1, fst b1) (dset_bls i)) /\ (In b2 (dset_bls j) \/ In (snd b2, fst b2) (dset_bls j)).
Proof.
  intros l i j. split; [eexists; reflexivity |]. split; [reflexivity |]. intros b1 b2. cbn [RunModel.run_blpairs fst snd]. rewrite filter_In, andb_true_iff. cbn [fst snd]. unfold available. rewrite !orb_true_iff. unfold memb, flip.
  repeat match goal with |- context [in_dec bl_dec ?x ?m] => destruct (in_dec bl_dec x m) end; intuition discriminate.
Qed.
Definition name_of (ls : list pystr) (ext : pystr) (p : nat * nat) : pystr := nth (fst p) ls [] ++ s_ "_x_" ++ nth (snd p) ls [] ++ ext.
Lemma loop_safe group ext ls blpairs ov ps : forall s b s' res, uniq s -> run_loop group ext ls blpairs ov ps s b = (s', res) ->
  uniq s' /\ (forall k, (forall p, In p ps -> run_blpairs blpairs p <> [] -> k <> (group, name_of ls ext p)) -> look s' k = look s k) /\ (ov = false -> forall k y, look s k = Some y -> look s' k = Some y).
Proof.
  induction ps as [| p ps IH]; intros s b s' res U H; cbn [RunModel.run_loop] in H; [injection H as <- _; auto |].
  assert (Sk : forall s0 b0, uniq s0 -> run_loop group ext ls blpairs ov ps s0 b0 = (s', res) -> uniq s' /\ (forall k, (forall q, In q (p :: ps) -> run_blpairs blpairs q <> [] -> k <> (group, name_of ls ext q)) -> look s' k = look s0 k) /\ (ov = false -> forall k y, look s0 k = Some y -> look s' k = Some y)).
  { intros s0 b0 U0 H0. destruct (IH _ _ _ _ U0 H0) as (A & B & C). split; [assumption |]. split; [| assumption]. intros k N. apply B. intros q I. apply N. right. exact I. }
  destruct (run_blpairs blpairs p) as [| bb bbs] eqn:E; [eapply Sk; eauto |].
  destruct (pspec (fst p) (snd p) (bb :: bbs)) as [u | e]; [| injection H as <- _; auto].
  destruct (put valid s _ u ov) as [s1 [[] | e]] eqn:P; destruct (put_other valid _ _ _ _ _ _ U P) as (U1 & O1 & S1 & K1).
  - destruct (Sk _ _ U1 H) as (A & B & C). split; [assumption |]. split.
    + intros k N. rewrite (B k N). apply O1. apply N; [left; reflexivity | rewrite E; discriminate].
    + intros F k y Hy. apply C; [assumption |]. apply K1; assumption.
  - injection H as <- _. split; [assumption |]. split; [| assumption]. intros k N. apply O1. apply N; [left; reflexivity | rewrite E; discriminate].
Qed.
Lemma loop_done group ext ls blpairs ov nds ps : NoDup ls -> (forall l, In l ls -> nous l) -> length ls = nds -> (forall p, In p ps -> fst p < nds /\ snd p < nds) ->
  forall s b s' b', uniq s -> run_loop group ext ls blpairs ov ps s b = (s', Ok b') ->
  (forall p, In p ps -> run_blpairs blpairs p <> [] -> exists u, pspec (fst p) (snd p) (run_blpairs blpairs p) = Ok u /\ look s' (group, name_of ls ext p) = Some u) /\
  (b' = true <-> b = true \/ exists p, In p ps /\ run_blpairs blpairs p <> []).
Proof.
  intros ND NU L. induction ps as [| p ps IH]; intros R s b s' b' U H; cbn [RunModel.run_loop] in H.
  - injection H as <- <-. split; [intros p [] |]. split; [auto | intros [Q | (p & [] & _)]; exact Q].
  - assert (R' : forall q, In q ps -> fst q < nds /\ snd q < nds) by (intros q I; apply R; right; exact I).
    destruct (run_blpairs blpairs p) as [| bb bbs] eqn:E.
    + destruct (IH R' _ _ _ _ U H) as [A B]. split; [intros q [<- | I] N; [congruence | auto] |]. rewrite B. split.
      * intros [Q | (q & I & N)]; [auto | right; exists q; split; [right; exact I | exact N]].
      * intros [Q | (q & [<- | I] & N)]; [auto | congruence | right; exists q; auto].
    + destruct (pspec (fst p) (snd p) (bb :: bbs)) as [u | e] eqn:Pu; [| discriminate]. destruct (put valid s _ u ov) as [s1 [[] | e]] eqn:P; [| discriminate].
      destruct (put_other valid _ _ _ _ _ _ U P) as (U1 & O1 & S1 & _). destruct (IH R' _ _ _ _ U1 H) as [A B]. split.
      * assert (Pd : forall q, q = p \/ q <> p) by (intros q; destruct (list_eq_dec Nat.eq_dec [fst q; snd q] [fst p; snd p]) as [Q | Q]; [left; destruct p, q; cbn in Q; congruence | right; intros ->; apply Q; reflexivity]).
        intros q I N. destruct (in_dec (fun x y : nat * nat => ltac:(decide equality; apply Nat.eq_dec) : {x = y} + {x <> y}) q ps) as [I' | NI]; [auto |].
        destruct I as [<- | I]; [| contradiction]. exists u. rewrite E. split; [exact Pu |]. destruct (loop_safe _ _ _ _ _ _ _ _ _ _ U1 H) as (_ & O2 & _).
        rewrite O2; [apply S1; reflexivity |]. intros q I _ Q. apply pair_equal_spec in Q. destruct Q as [_ Q]. unfold name_of in Q.
        pose proof (R p (or_introl eq_refl)) as [Rp1 Rp2]. pose proof (R' q I) as [Rq1 Rq2].
        apply ps_name_inj in Q; [| apply NU, nth_In; lia | apply NU, nth_In; lia]. destruct Q as [Q1 Q2].
        rewrite NoDup_nth in ND. apply ND in Q1, Q2; try lia. assert (p = q) by (destruct p, q; cbn in *; congruence). subst q. contradiction.
      * rewrite B. split; [intros _; right; exists p; split; [left; reflexivity | rewrite E; discriminate] | auto].
Qed.
Definition group_name (group : option pystr) (ls : list pystr) : pystr := match group with Some g => g | None => join [us] ls end.
(** A run that succeeds stores the spectrum of every dataset pair with matching baseline-pairs under its own name, made of the two labels,
    and changes nothing else; it reports whether there was any.  (Labels are all different.) *)
Theorem pspec_run_outputs :
  forall nds labels pairs blpairs group ext ov s s' b ls, uniq s -> run_labels nds labels = Ok ls -> NoDup ls ->
    pspec_run nds labels pairs blpairs group ext ov s = (s', Ok b) ->
    let k p := (group_name group ls, name_of ls (match ext with Some e => e | None => [] end) p) in
    (forall p, In p (run_pairs nds pairs) -> run_blpairs blpairs p <> [] -> exists u, pspec (fst p) (snd p) (run_blpairs blpairs p) = Ok u /\ look s' (k p) = Some u) /\
    (forall o, (forall p, In p (run_pairs nds pairs) -> run_blpairs blpairs p <> [] -> o <> k p) -> look s' o = look s o) /\
    (b = true <-> exists p, In p (run_pairs nds pairs) /\ run_blpairs blpairs p <> []).
Proof.
  intros nds labels pairs blpairs group ext ov s s' b ls U RL ND H k. unfold RunModel.pspec_run in H. rewrite RL in H. destruct (forallb _ _) eqn:F; [| discriminate].
  destruct (run_labels_ok _ _ _ RL) as (L & NU & _ & _).
  assert (R : forall p, In p (run_pairs nds pairs) -> fst p < nds /\ snd p < nds). { rewrite forallb_forall in F. intros p I. specialize (F p I). apply andb_true_iff in F. destruct F as [F1 F2]. apply Nat.ltb_lt in F1, F2. auto. }
  destruct (loop_done _ _ _ _ _ _ _ ND NU L R _ _ _ _ U H) as [A B]. destruct (loop_safe _ _ _ _ _ _ _ _ _ _ U H) as (_ & O & _).
  split; [exact A |]. split; [exact O |]. rewrite B. split; [intros [Q | Q]; [discriminate | exact Q] | auto].
Qed.
(** however it ends, without overwrite no existing spectrum changes *)
Theorem pspec_run_safe :
  forall nds labels pairs blpairs group ext s s' res, uniq s -> pspec_run nds labels pairs blpairs group ext false s = (s', res) -> forall k y, look s k = Some y -> look s' k = Some y.
Proof.
  intros nds labels pairs blpairs group ext s s' res U H. unfold RunModel.pspec_run in H. destruct (run_labels nds labels) as [ls | e]; [| injection H as <- _; auto].
  destruct (forallb _ _); [| injection H as <- _; auto]. destruct (loop_safe _ _ _ _ _ _ _ _ _ _ U H) as (_ & _ & K). auto.
Qed.
(** labels with an underscore and datasets that do not exist are refused before anything is written *)
Theorem pspec_run_refuses :
  forall nds labels pairs blpairs group ext ov s, ((exists ls l, labels = Some ls /\ In l ls /\ In us l) \/ (exists ls, labels = Some ls /\ length ls <> nds) \/ (exists p, In p (run_pairs nds pairs) /\ (nds <= fst p \/ nds <= snd p))) ->
    exists e, pspec_run nds labels pairs blpairs group ext ov s = (s, Err e).
Proof.
  intros nds labels pairs blpairs group ext ov s H. unfold RunModel.pspec_run. destruct (run_labels nds labels) as [ls | e] eqn:RL; [| eauto]. destruct (run_labels_ok _ _ _ RL) as (L & NU & _ & S).
  destruct (forallb _ _) eqn:F; [exfalso | eauto]. destruct H as [(l & x & E & I & J) | [(l & E & N) | (p & I & Q)]].
  - rewrite <- (S _ E) in I. exact (NU _ I J).
  - rewrite <- (S _ E) in N. contradiction.
  - rewrite forallb_forall in F. specialize (F p I). apply andb_true_iff in F. destruct F as [F1 F2]. apply Nat.ltb_lt in F1, F2. lia.
Qed.
End P.
(** different labels, different default group *)
Theorem default_group_distinct :
  forall nds nds' labels labels' ls ls', run_labels nds labels = Ok ls -> run_labels nds' labels' = Ok ls' -> ls <> [] -> ls' <> [] -> group_name None ls = group_name None ls' -> ls = ls'.
Proof.
  intros nds nds' labels labels' ls ls' H H' N N' E. destruct (run_labels_ok _ _ _ H) as (_ & NU & _). destruct (run_labels_ok _ _ _ H') as (_ & NU' & _).
  assert (F : forall l, (forall x, In x l -> nous x) -> Forall (lacks us) l) by (intros l Q; apply Forall_forall; intros x I; apply nous_lacks, Q, I).
  unfold group_name in E. rewrite <- (split_join us ls N (F _ NU)), <- (split_join us ls' N' (F _ NU')), E. reflexivity.
Qed.
(** equal labels are accepted, although the data object itself makes labels unique: the spectra of all pairs go to the same name *)
Definition pex := pspec_run (obj := nat * nat) (fun _ => true) (fun _ => [(1, 2)%Z]) (fun _ _ => [((1, 2), (1, 2))%Z]) (fun i j _ => Ok (i, j)).
Theorem pspec_run_same_labels_refuted :
  exists s', pex 3 (Some [s_ "a"; s_ "a"; s_ "a"]) None None None None true [] = (s', Ok true) /\ length (run_pairs 3 None) = 3 /\ length s' = 1 /\ look s' (s_ "a_a_a", s_ "a_x_a") = Some (1, 2).
Proof. eexists. split; [vm_compute; reflexivity |]. vm_compute. auto. Qed.
(** a run that fails leaves the spectra of the pairs before *)
Theorem pspec_run_failure_refuted :
  exists s s' e, uniq s /\ pex 3 None None None (Some (s_ "g")) None false s = (s', Err e) /\ look s (s_ "g", s_ "dset0_x_dset1") = None /\ look s' (s_ "g", s_ "dset0_x_dset1") = Some (0, 1).
Proof.
  exists [((s_ "g", s_ "dset0_x_dset2"), (7, 7))]. do 2 eexists. split; [repeat constructor; intros [] |]. split; [vm_compute; reflexivity |]. vm_compute. auto.
Qed.
Example pspec_run_ex : exists s', pex 2 (Some [s_ "even"; s_ "odd"]) None (Some [((1, 2), (2, 1)); ((1, 2), (5, 6))]%Z) None (Some (s_ "ext")) false [] = (s', Ok true) /\
  look s' (s_ "even_odd", s_ "even_x_oddext") = Some (0, 1) /\ length s' = 1.
Proof. eexists. split; [vm_compute; reflexivity |]. vm_compute. auto. Qed.
Print Assumptions run_pairs_default. Print Assumptions run_blpairs_fed. Print Assumptions pspec_run_outputs. Print Assumptions pspec_run_safe. Print Assumptions pspec_run_refuses.
Print Assumptions default_group_distinct. Print Assumptions pspec_run_same_labels_refuted. Print Assumptions pspec_run_failure_refuted.
