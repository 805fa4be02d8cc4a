(** Properties C11, C12 and C13: combining objects. *)
From Coq Require Import Permutation Sorted.
From Verif Require Import Prelude ListLemmas UvpModel CommonProofs CombineModel CombineProofs CombineMain CombineSound CombineObject CombineTree CombineMerge.

(** * C11 *)
(** Objects that may be combined along [ax] (C12 says which) and are aligned: the result exists
    and contains exactly the spectra of the inputs, each under its own window range,
    blpair-time and polarization pair; windows, times and scalars come with their keys. *)
Theorem C11_combine_aligned : forall (V M Sc Vec : Type) (isclose : Sc -> Sc -> bool) (round8 : Z -> Z) (step : list Z -> Z)
    (us : list (cobj V M Sc Vec)) ax rp,
  overlap isclose step us = Ok ax -> (forall u, In u us -> wfc step u /\ nonempty u) -> aligned round8 step ax us ->
  merge_rparams (map c_rparams us) = Ok rp ->
  exists u', combine_objs isclose round8 step us = Ok u' /\ wfc step u' /\ nonempty u' /\
    spws step u' = sorted_set key_dec lex_leb (concat (map (spws step) us)) /\
    c_blpts u' = sorted_set blpt_dec blpt_leb (concat (map c_blpts us)) /\
    c_pols u' = sorted_set Z.eq_dec abs_leb (concat (map c_pols us)) /\
    (forall s b p v, holds step u' s b p v <-> exists u, In u us /\ holds step u s b p v) /\
    (forall b x, row_of u' b x -> exists u, In u us /\ (ax <> AxBlpts -> hd_error us = Some u) /\ row_of u b x) /\
    (forall s w, window_of step u' s w -> exists u, In u us /\ window_of step u s w) /\
    (forall s p x, scalar_of step u' s p x -> exists u, In u us /\ scalar_of step u s p x /\ In s (spws step u) /\ In p (c_pols u)) /\
    (forall u0, hd_error us = Some u0 -> c_static u' = c_static u0 /\ (ax <> AxSpw -> c_windows u' = c_windows u0)) /\
    c_rparams u' = rp /\
    (ax = AxBlpts -> exists u, In u us /\ In (hd (0, 0, 0)%Z (c_blpts u')) (c_blpts u) /\
       forall s p x, scalar_of step u' s p x -> scalar_of step u s p x) /\
    new_bls us = Ok (c_bls u').
Proof. exact (fun V M Sc Vec => @combine_spec V M Sc Vec). Qed.
Print Assumptions C11_combine_aligned.

(** the result does not depend on the order of the inputs *)
Theorem C11_order_irrelevant : forall (V M Sc Vec : Type) (isclose : Sc -> Sc -> bool) (round8 : Z -> Z) (step : list Z -> Z)
    (us vs : list (cobj V M Sc Vec)) ax ax' rp rp' u v,
  Permutation us vs ->
  overlap isclose step us = Ok ax -> overlap isclose step vs = Ok ax' ->
  (forall u, In u us -> wfc step u /\ nonempty u) -> aligned round8 step ax us -> aligned round8 step ax' vs ->
  merge_rparams (map c_rparams us) = Ok rp -> merge_rparams (map c_rparams vs) = Ok rp' ->
  combine_objs isclose round8 step us = Ok u -> combine_objs isclose round8 step vs = Ok v ->
  spws step u = spws step v /\ c_blpts u = c_blpts v /\
  forall s b p x, holds step u s b p x <-> holds step v s b p x.
Proof.
  intros V M Sc Vec isclose round8 step us vs ax ax' rp rp' u v Pm O1 O2 W A1 A2 R1 R2 E1 E2.
  assert (W2 : forall u, In u vs -> wfc step u /\ nonempty u) by (intros w Hw; apply W, (Permutation_in _ (Permutation_sym Pm) Hw)).
  destruct (combine_spec isclose round8 step us ax rp O1 W A1 R1) as (u' & F1 & _ & _ & S1 & B1 & _ & H1 & _).
  destruct (combine_spec isclose round8 step vs ax' rp' O2 W2 A2 R2) as (v' & F2 & _ & _ & S2 & B2 & _ & H2 & _).
  rewrite F1 in E1. injection E1 as <-. rewrite F2 in E2. injection E2 as <-.
  assert (G : forall (X : Type) (f : cobj V M Sc Vec -> list X) x, In x (concat (map f us)) <-> In x (concat (map f vs))).
  { intros X f x. rewrite !in_concat. split; intros [l [Hl Hx]]; exists l; (split; [|exact Hx]); eapply Permutation_in; try exact Hl;
      apply Permutation_map; [exact Pm | apply Permutation_sym, Pm]. }
  split; [rewrite S1, S2; apply sorted_set_unique; [exact lex_order | apply G]|].
  split; [rewrite B1, B2; apply sorted_set_unique; [exact blpt_order | apply G]|].
  intros s b p x. rewrite H1, H2. split; intros [w [Hw Hh]]; exists w; (split; [|exact Hh]); eapply Permutation_in; try exact Hw; [exact Pm | apply Permutation_sym, Pm].
Qed.
Print Assumptions C11_order_irrelevant.

(** ** concrete objects: entries, row data, scalars and vectors are numbers *)
Definition st (f : list Z) : Z := match f with a :: b :: _ => (b - a)%Z | _ => 1%Z end.
Definition cx := cobj Z Z Z Z.
Definition comb : list cx -> result cx := combine_objs Z.eqb (fun t => t) st.
Definition wA := mkwin [100; 101]%Z [0; 1]%Z.
Definition wB := mkwin [200; 201]%Z [0; 1]%Z.
Definition nodupb {A} (dec : forall x y : A, {x = y} + {x <> y}) (l : list A) : bool := Nat.eqb (length (nodup dec l)) (length l).
Lemma nodupb_ok {A} dec (l : list A) : nodupb dec l = true -> NoDup l.
Proof.
  intro H. apply Nat.eqb_eq in H. assert (G : forall k : list A, length (nodup dec k) <= length k).
  { induction k as [|x k IH]; cbn; [lia|]. destruct (in_dec dec x k); cbn; lia. }
  induction l as [|x l IH]; [constructor|]. cbn in H. destruct (in_dec dec x l) as [I|I].
  - pose proof (G l). cbn in H. lia.
  - constructor; [exact I | apply IH; cbn in H; lia].
Qed.
(** a check for literal objects *)
Definition validb (u : cx) : bool :=
  nodupb key_dec (spws st u) && nodupb blpt_dec (c_blpts u) && nodupb Z.eq_dec (c_pols u) &&
  (Nat.eqb (length (c_cells u)) (length (c_windows u)) &&
   forallb (fun r => Nat.eqb (length r) (length (c_blpts u)) && forallb (fun c => Nat.eqb (length c) (length (c_pols u))) r) (c_cells u)) &&
  Nat.eqb (length (c_rows u)) (length (c_blpts u)) &&
  (Nat.eqb (length (c_scalar u)) (length (c_windows u)) && forallb (fun r => Nat.eqb (length r) (length (c_pols u))) (c_scalar u)) &&
  negb (Nat.eqb (length (c_windows u)) 0) && negb (Nat.eqb (length (c_blpts u)) 0) && negb (Nat.eqb (length (c_pols u)) 0).
Lemma validb_ok u : validb u = true -> wfc st u /\ nonempty u.
Proof.
  unfold validb. rewrite !andb_true_iff, !negb_true_iff, !Nat.eqb_neq, !Nat.eqb_eq, !forallb_forall.
  intros [[[[[[[[H1 H2] H3] [H4 H5]] H6] [H7 H8]] H9] H10] H11]. split; [split; try (eapply nodupb_ok; eassumption)|].
  - split; [exact H4|]. intros r Hr. specialize (H5 r Hr). rewrite andb_true_iff, Nat.eqb_eq, forallb_forall in H5. destruct H5 as [H5 H5'].
    split; [exact H5|]. intros c Hc. apply Nat.eqb_eq, H5', Hc.
  - exact H6.
  - split; [exact H7|]. intros r Hr. apply Nat.eqb_eq, H8, Hr.
  - repeat split; intro E; rewrite E in *; cbn in *; congruence.
Qed.
Lemma all_valid us : forallb validb us = true -> forall u, In u us -> wfc st u /\ nonempty u.
Proof. intros H u Hu. rewrite forallb_forall in H. apply validb_ok, H, Hu. Qed.
Definition ob (ws : list window) (bs : list blpt) (ps : list Z) (cells : list (list (list Z))) (rows : list Z) : cx :=
  mkc ws bs ps cells rows (map (fun _ => map (fun _ => 7%Z) ps) ws) [(12, 5); (13, 6)]%Z [] 1%Z.

(** windows stored in decreasing order: the spectrum of one window is returned for the other *)
Definition unsorted1 : cx := ob [wB; wA] [(1, 10, 10)]%Z [1515]%Z [[[1]]; [[2]]]%Z [50]%Z.
Definition unsorted2 : cx := ob [wB; wA] [(1, 11, 11)]%Z [1515]%Z [[[3]]; [[4]]]%Z [51]%Z.
Theorem C11_unsorted_windows_refuted : exists u1 u2 u' s b p v v',
  (forall u, In u [u1; u2] -> wfc st u /\ nonempty u) /\ overlap Z.eqb st [u1; u2] = Ok AxBlpts /\
  comb [u1; u2] = Ok u' /\ holds st u1 s b p v /\ holds st u' s b p v' /\ v <> v'.
Proof.
  exists unsorted1, unsorted2. destruct (comb [unsorted1; unsorted2]) as [u'|] eqn:E; [|vm_compute in E; discriminate].
  vm_compute in E. injection E as <-.
  eexists. exists (wkey st wB), (1, 10, 10)%Z, 1515%Z, 1%Z, 2%Z. split.
  { apply all_valid. reflexivity. }
  split; [reflexivity|]. split; [reflexivity|].
  split; [exists 0, 0, 0; do 2 eexists; repeat split|]. split; [exists 0, 0, 0; do 2 eexists; repeat split | discriminate].
Qed.
Print Assumptions C11_unsorted_windows_refuted.

(** windows concatenated, rows of the second object in another order: rows are relabelled *)
Definition rows1 : cx := ob [wB] [(1, 10, 10); (1, 11, 11)]%Z [1515]%Z [[[1]; [2]]]%Z [50; 51]%Z.
Definition rows2 : cx := ob [wA] [(1, 11, 11); (1, 10, 10)]%Z [1515]%Z [[[3]; [4]]]%Z [51; 50]%Z.
Theorem C11_row_order_refuted : exists u1 u2 u' s b p v v',
  (forall u, In u [u1; u2] -> wfc st u /\ nonempty u) /\ overlap Z.eqb st [u1; u2] = Ok AxSpw /\
  comb [u1; u2] = Ok u' /\ holds st u1 s b p v /\ holds st u' s b p v' /\ v <> v'.
Proof.
  exists rows1, rows2. destruct (comb [rows1; rows2]) as [u'|] eqn:E; [|vm_compute in E; discriminate].
  vm_compute in E. injection E as <-.
  eexists. exists (wkey st wB), (1, 10, 10)%Z, 1515%Z, 1%Z, 2%Z. split.
  { apply all_valid. reflexivity. }
  split; [reflexivity|]. split; [reflexivity|].
  split; [exists 0, 0, 0; do 2 eexists; repeat split|]. split; [exists 1, 1, 0; do 2 eexists; repeat split | discriminate].
Qed.
Print Assumptions C11_row_order_refuted.

(** two rows of one baseline-pair that share the first time only: a later row receives the
    spectrum of an earlier one, even when both objects have the same rows in the same order *)
Definition late_rows : list blpt := [(1, 10, 10); (1, 10, 20); (2, 10, 10)]%Z.
Definition late1 : cx := ob [wA] late_rows [1515]%Z [[[1]; [2]; [3]]]%Z [50; 51; 52]%Z.
Definition late2 : cx := ob [wB] late_rows [1515]%Z [[[4]; [5]; [6]]]%Z [50; 51; 52]%Z.
Theorem C11_same_first_time_refuted : exists u1 u2 u' s b p v v',
  (forall u, In u [u1; u2] -> wfc st u /\ nonempty u) /\ overlap Z.eqb st [u1; u2] = Ok AxSpw /\ c_blpts u1 = c_blpts u2 /\
  comb [u1; u2] = Ok u' /\ holds st u1 s b p v /\ In b (c_blpts u1) /\
  nth_error (c_cells u') 0 = Some [[1]; [2]; [v']]%Z /\ nth_error (c_cells u1) 0 = Some [[1]; [2]; [v]]%Z /\ v <> v'.
Proof.
  exists late1, late2. destruct (comb [late1; late2]) as [u'|] eqn:E; [|vm_compute in E; discriminate].
  vm_compute in E. injection E as <-.
  eexists. exists (wkey st wA), (2, 10, 10)%Z, 1515%Z, 3%Z, 1%Z. split; [apply all_valid; reflexivity|].
  split; [reflexivity|]. split; [reflexivity|]. split; [reflexivity|].
  split; [exists 0, 2, 0; do 2 eexists; repeat split|]. split; [cbn; tauto|]. split; [reflexivity|]. split; [reflexivity | discriminate].
Qed.
Print Assumptions C11_same_first_time_refuted.

(** ** the positive theorem applies: three objects, several times, windows and polarizations *)
Definition good (t : Z) (v : Z) : cx :=
  ob [wA; wB] [(2, t, t); (1, t, t)]%Z [1414; 1515]%Z
     [[[v; v + 1]; [v + 2; v + 3]]; [[v + 4; v + 5]; [v + 6; v + 7]]]%Z [t; t]%Z.
Lemma good_aligned t1 v1 us : aligned (fun t => t) st AxBlpts (good t1 v1 :: us).
Proof.
  intros u0 E. injection E as <-. split; [congruence|]. intros _. unfold windows_sorted. cbn.
  repeat constructor.
Qed.
Example C11_applies : exists u', comb [good 10 100; good 12 200; good 11 300] = Ok u' /\
  (forall s b p v, holds st u' s b p v <-> exists u, In u [good 10 100; good 12 200; good 11 300] /\ holds st u s b p v) /\
  c_blpts u' = [(1, 10, 10); (1, 11, 11); (1, 12, 12); (2, 10, 10); (2, 11, 11); (2, 12, 12)]%Z.
Proof.
  destruct (C11_combine_aligned Z Z Z Z Z.eqb (fun t => t) st [good 10 100; good 12 200; good 11 300] AxBlpts []) as
    (u' & E & _ & _ & _ & EB & _ & H & _); [reflexivity | apply all_valid; reflexivity | apply good_aligned | reflexivity |].
  exists u'. split; [exact E|]. split; [exact H|]. rewrite EB. reflexivity.
Qed.
Example C11_windows_apply : exists u', comb [rows1; ob [wA] (c_blpts rows1) [1515]%Z [[[3]; [4]]]%Z [50; 51]%Z] = Ok u' /\ spws st u' = [wkey st wA; wkey st wB].
Proof.
  destruct (C11_combine_aligned Z Z Z Z Z.eqb (fun t => t) st [rows1; ob [wA] (c_blpts rows1) [1515]%Z [[[3]; [4]]]%Z [50; 51]%Z] AxSpw []) as
    (u' & E & _ & _ & ES & _); [reflexivity | apply all_valid; reflexivity | | reflexivity |].
  - intros u0 E. injection E as <-. split; [|congruence]. intros _. split; [intros u [<-|[<-|[]]]; reflexivity|].
    intros a b [<-|[<-|[]]] [<-|[<-|[]]]; intro H; (reflexivity || (vm_compute in H; discriminate)).
  - exists u'. split; [exact E|]. rewrite ES. reflexivity.
Qed.

(** * C12 *)
Lemma scalars_close_spec {Sc} (isclose : Sc -> Sc -> bool) a b : scalars_close isclose a b = true <-> Forall2 (Forall2 (fun x y => isclose x y = true)) a b.
Proof.
  assert (G : forall {A} (f : A -> A -> bool) (l m : list A), Nat.eqb (length l) (length m) && forallb (fun p => f (fst p) (snd p)) (combine l m) = true <-> Forall2 (fun x y => f x y = true) l m).
  { intros A f. induction l as [|x l IH]; intros [|y m]; cbn.
    - split; [constructor|reflexivity].
    - split; [discriminate|intros H; inversion H].
    - split; [discriminate|intros H; inversion H].
    - specialize (IH m). rewrite andb_true_iff in IH |- *. rewrite andb_true_iff. split.
      + intros (H1 & H2 & H3). constructor; [exact H2|apply IH; auto].
      + intros H. inversion H as [|? ? ? ? H1 H2]; subst. apply IH in H2. tauto. }
  unfold scalars_close.
  rewrite (G _ (fun x y => Nat.eqb (length x) (length y) && forallb (fun p => isclose (fst p) (snd p)) (combine x y)) a b).
  split; intros H; (induction H as [|x y l m H1 H2 IH]; constructor; [apply (G _ isclose); exact H1|exact IH]).
Qed.
(** The check succeeds with axis [ax] exactly when there are at least two objects, all settings
    agree, every two of them have the same elements on the other two axes and nothing in common
    on [ax], and - for blpair-times - the scalars of all agree with those of the first. *)
Theorem C12_overlap : forall (V M Sc Vec : Type) (isclose : Sc -> Sc -> bool) (step : list Z -> Z) (us : list (cobj V M Sc Vec)) ax,
  overlap isclose step us = Ok ax <->
  2 <= length us /\
  (forall u v, In u us -> In v us -> c_static u = c_static v) /\
  (forall a u b v c, us = a ++ u :: b ++ v :: c ->
     match ax with
     | AxSpw => apart (spws step u) (spws step v) /\ agree (c_blpts u) (c_blpts v) /\ agree (c_pols u) (c_pols v)
     | AxBlpts => agree (spws step u) (spws step v) /\ apart (c_blpts u) (c_blpts v) /\ agree (c_pols u) (c_pols v)
     | AxPols => agree (spws step u) (spws step v) /\ agree (c_blpts u) (c_blpts v) /\ apart (c_pols u) (c_pols v)
     end) /\
  (ax = AxBlpts -> match us with
     | [] => False
     | u0 :: rest => forall u, In u rest -> Forall2 (Forall2 (fun x y => isclose x y = true)) (c_scalar u0) (c_scalar u) end).
Proof.
  intros V M Sc Vec isclose step us ax. rewrite (overlap_spec isclose step us ax). unfold scalars_ok.
  assert (E : (ax = AxBlpts -> match us with [] => False | u0 :: rest => forall u, In u rest -> scalars_close isclose (c_scalar u0) (c_scalar u) = true end) <->
              (ax = AxBlpts -> match us with [] => False | u0 :: rest => forall u, In u rest -> Forall2 (Forall2 (fun x y => isclose x y = true)) (c_scalar u0) (c_scalar u) end)).
  { destruct us as [|u0 rest]; [reflexivity|]. split; intros H A u Hu; apply (scalars_close_spec isclose), (H A u Hu). }
  destruct E as [E1 E2]. split; intros (H1 & H2 & H3 & H4); (split; [exact H1|]; split; [exact H2|]; split; [exact H3|]); [exact (E1 H4)|exact (E2 H4)].
Qed.
Print Assumptions C12_overlap.

(** the axis is unique; identical objects, or two that share only part of an axis, are rejected *)
Theorem C12_rejects : forall (V M Sc Vec : Type) (isclose : Sc -> Sc -> bool) (step : list Z -> Z) (us : list (cobj V M Sc Vec)) a u b v c,
  us = a ++ u :: b ++ v :: c ->
  (* the same object twice *)
  (u = v -> exists e, overlap isclose step us = Err e) /\
  (* a blpair-time in both and another in one only *)
  (forall x y, In x (c_blpts u) -> In x (c_blpts v) -> In y (c_blpts u) -> ~ In y (c_blpts v) -> exists e, overlap isclose step us = Err e) /\
  (forall x y, In x (spws step u) -> In x (spws step v) -> In y (spws step u) -> ~ In y (spws step v) -> exists e, overlap isclose step us = Err e) /\
  (forall x y, In x (c_pols u) -> In x (c_pols v) -> In y (c_pols u) -> ~ In y (c_pols v) -> exists e, overlap isclose step us = Err e) /\
  (* two axes differ *)
  (~ agree (spws step u) (spws step v) -> ~ agree (c_blpts u) (c_blpts v) -> exists e, overlap isclose step us = Err e) /\
  (~ agree (spws step u) (spws step v) -> ~ agree (c_pols u) (c_pols v) -> exists e, overlap isclose step us = Err e) /\
  (~ agree (c_blpts u) (c_blpts v) -> ~ agree (c_pols u) (c_pols v) -> exists e, overlap isclose step us = Err e).
Proof.
  intros V M Sc Vec isclose step us a u b v c E.
  assert (G : (exists e, overlap isclose step us = Err e) \/ exists ax, differ step ax u v).
  { destruct (overlap isclose step us) as [ax|e] eqn:F; [right | left; eauto]. apply overlap_spec in F. exists ax.
    destruct F as [_ [_ [F _]]]. exact (F a u b v c E). }
  destruct G as [G|[ax G]]; [repeat split; intros; exact G|].
  unfold differ, agree, apart in *.
  repeat split; intros; destruct ax; destruct G as [G1 [G2 G3]]; exfalso.
  all: try (subst v; first [destruct G1 as [D [N|N]] | destruct G2 as [D [N|N]] | destruct G3 as [D [N|N]]];
    match type of N with ?l <> [] => destruct l as [|z l']; [congruence | exact (D z (or_introl eq_refl) (or_introl eq_refl))] end).
  all: try match goal with
    | [ H : In ?x ?l, H' : In ?x ?l', G : (forall x, In x ?l -> In x ?l' -> False) /\ _ |- _ ] => exact (proj1 G x H H')
    | [ H : In ?y ?l, H' : ~ In ?y ?l', G : forall x, In x ?l <-> In x ?l' |- _ ] => exact (H' (proj1 (G y) H))
    end.
  all: tauto.
Qed.
Print Assumptions C12_rejects.
Example C12_applies : overlap Z.eqb st [good 10 100; good 12 200; good 11 300] = Ok AxBlpts /\
  overlap Z.eqb st [rows1; rows2] = Ok AxSpw /\ overlap Z.eqb st [rows1; rows1] = Err AssertionError /\
  overlap Z.eqb st [good 10 100; rows1] = Err AssertionError.
Proof. repeat split. Qed.

(** * C13 *)
(** for every pairwise merge: n-1 merges, every input used once, in order *)
Theorem C13_every_input_once : forall (A : Type) (mrg : A -> A -> result A) (us : list A), us <> [] ->
  exists t, leaves t = us /\ S (nodes t) = length us /\ recursive_combine mrg us = eval mrg t.
Proof. exact (fun A => @recursive_tree A). Qed.
Print Assumptions C13_every_input_once.
Theorem C13_empty : forall (A : Type) (mrg : A -> A -> result A), recursive_combine mrg [] = Err ValueError.
Proof. reflexivity. Qed.
(** an associative merge: the left-to-right fold *)
Theorem C13_associative : forall (A : Type) (mrg : A -> A -> result A) (op : A -> A -> A) (us : list A) d,
  us <> [] -> (forall x y, mrg x y = Ok (op x y)) -> (forall x y z, op x (op y z) = op (op x y) z) ->
  recursive_combine mrg us = Ok (fold_left op (tl us) (hd d us)) /\
  forall size, size <> Some 0 -> merge_files mrg size us = Ok (Some (fold_left op (tl us) (hd d us))).
Proof.
  intros A mrg op us d Hne HM HA. split.
  - destruct (recursive_tree mrg us Hne) as [t [L [_ E]]]. rewrite E, (tree_fold mrg op t d HM HA), L. reflexivity.
  - intros size Hs. destruct (merge_files_tree mrg size us Hne Hs) as [t [L E]]. rewrite E, (tree_fold mrg op t d HM HA), L. reflexivity.
Qed.
Print Assumptions C13_associative.
(** the command-line merge: for every batch size a tree of merges over the files in order *)
Theorem C13_batches : forall (A : Type) (mrg : A -> A -> result A) size (files : list A), files <> [] -> size <> Some 0 ->
  exists t, leaves t = files /\ merge_files mrg size files = bind (eval mrg t) (fun r => Ok (Some r)).
Proof. exact (fun A => @merge_files_tree A). Qed.
Print Assumptions C13_batches.
Theorem C13_no_files : forall (A : Type) (mrg : A -> A -> result A), merge_files mrg None [] = Err ZeroDivisionError.
Proof. reflexivity. Qed.
(** For objects that differ only in their blpair-times, the recursive merge, and the batched
    merge for every batch size, give the very object of one call with the whole list. *)
Theorem C13_same_object : forall (V M Sc Vec : Type) (isclose : Sc -> Sc -> bool) (round8 : Z -> Z) (step : list Z -> Z) (us : list (cobj V M Sc Vec)),
  us <> [] -> mergeable isclose step us ->
  exists r, combine_objs isclose round8 step us = Ok r /\
    recursive_combine (combine2 isclose round8 step) us = Ok r /\
    forall size, size <> Some 0 -> merge_files (combine2 isclose round8 step) size us = Ok (Some r).
Proof.
  intros V M Sc Vec isclose round8 step us Hne HM.
  destruct (recursive_is_flat isclose round8 step us Hne HM) as [r [E1 E2]]. exists r. split; [exact E2|]. split; [exact E1|].
  intros size Hs. destruct (batches_are_flat isclose round8 step size us Hne Hs HM) as [r' [F1 F2]]. congruence.
Qed.
Print Assumptions C13_same_object.
Definition five : list cx := [good 10 100; good 12 200; good 11 300; good 9 400; good 20 500].
Example C13_mergeable : mergeable Z.eqb st five.
Proof.
  split.
  - apply all_valid. reflexivity.
  - intros u H. assert (spws st u = [wkey st wA; wkey st wB]) as E by (cbn in H; intuition (subst; reflexivity)).
    unfold windows_sorted. rewrite E. repeat constructor.
  - intros u v Hu Hv. cbn in Hu, Hv. intuition (subst; reflexivity).
  - intros u H. assert (c_pols u = [1414; 1515]%Z) as -> by (cbn in H; intuition (subst; reflexivity)).
    split; [repeat constructor; lia | intros p [<-|[<-|[]]]; lia].
  - intros u H. assert (c_rparams u = []) as -> by (cbn in H; intuition (subst; reflexivity)). constructor.
  - intros u v Hu Hv. cbn in Hu, Hv. intuition (subst; reflexivity).
  - repeat (constructor; [cbn; intuition discriminate|]). constructor.
  - intros u v b Hu Hv H1 H2. cbn in Hu, Hv.
    intuition (subst; cbn in H1, H2; try reflexivity; exfalso; intuition congruence).
Qed.
Example C13_run : exists r, merge_files (combine2 Z.eqb (fun t => t) st) (Some 2) five = Ok (Some r) /\ comb five = Ok r /\
  length (c_blpts r) = 10.
Proof.
  destruct (C13_same_object Z Z Z Z Z.eqb (fun t => t) st five ltac:(discriminate) C13_mergeable) as [r [E [_ B]]].
  exists r. split; [apply B; discriminate|]. split; [exact E|]. vm_compute in E. injection E as <-. reflexivity.
Qed.
