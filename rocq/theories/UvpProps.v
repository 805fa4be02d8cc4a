(** Properties C05-C09 and C46: selections, key lookups, axis lengths. *)
From Coq Require Import QArith Qabs Sorted Permutation.
From Verif Require Import PyDict.
From Verif Require Import Prelude ListLemmas UvpModel UvpSpec UvpProofs SelectProofs SelectMain
  SelectTotal KeyProofs FoldModel FoldProofs LengthProofs CommonProofs.
Open Scope nat_scope.

(** * a sample object: 2 windows (3 and 4 delays), 3 blpair-times, 2 polarization pairs *)
Definition bA : Z := 101102101102%Z.
Definition bB : Z := 101103101102%Z.
Definition spectrum (n s i p : nat) : list Z := map (fun j => Z.of_nat (s * 1000 + i * 100 + p * 10 + j)) (seq 0 n).
Definition sample_arr (n s : nat) : arr Z := map (fun i => [spectrum n s i 0; spectrum n s i 1]) (seq 0 3).
Definition sample_dict : list (nat * arr Z) := [(0, sample_arr 3 0); (1, sample_arr 4 1)].
Definition one_dict : list (nat * arr Z) := [(0, sample_arr 1 0); (1, sample_arr 1 1)].
Definition ns (z : Z) : Q := (inject_Z z * (1 # 1000000000))%Q.
Definition sample : uvp Z :=
  mkuvp false 2 [0; 1] [0;0;0;1;1;1;1] [0;0;0;1;1;1;1] [10;11;12;20;21;22;23]%Z
    (map ns [-100; 0; 100; -200; -100; 0; 100]%Z) [[1;2];[3;4]]%Z
    [bA; bB; bA] [1;1;2]%Q [1;1;2]%Q [1;1;2]%Q [5;5;6]%Q [5;5;6]%Q [5;5;6]%Q
    [101102; 101103]%Z [7; 8]%Z [505; 606]%Z
    sample_dict sample_dict one_dict one_dict None None None
    [[[1;1];[1;1];[2;2]]; [[1;1];[1;1];[2;2]]] [[[1;1];[1;1];[2;2]]; [[1;1];[1;1];[2;2]]]
    [[1;2];[1;2]]%Z.

Ltac all_in := let H := fresh in intros ? H; cbn in H; repeat destruct H as [<-|H]; try contradiction; try reflexivity; cbn; auto 10.
Lemma sample_wf : wf sample.
Proof.
  constructor; try reflexivity; try all_in.
  - split; [reflexivity | all_in].
  - intros s Hs. cbn in Hs. destruct Hs as [<-|[<-|[]]]; eexists;
      (split; [reflexivity|split; [reflexivity | all_in]]).
  - intros s Hs. cbn in Hs. destruct Hs as [<-|[<-|[]]]; eexists;
      (split; [reflexivity|split; [reflexivity | all_in]]).
  - intros s Hs. cbn in Hs. destruct Hs as [<-|[<-|[]]]; eexists;
      (split; [reflexivity|split; [reflexivity | all_in]]).
  - intros s Hs. cbn in Hs. destruct Hs as [<-|[<-|[]]]; eexists;
      (split; [reflexivity|split; [reflexivity | all_in]]).
Qed.

Definition no_args : select_args := {| a_spws := None; a_bls := None; a_only_pairs_in_bls := true;
  a_blpairs := None; a_times := None; a_lsts := None; a_polpairs := None |}.
Definition pick_args : select_args := {| a_spws := Some [1]; a_bls := None; a_only_pairs_in_bls := true;
  a_blpairs := Some [bA]; a_times := Some [2%Q]; a_lsts := None; a_polpairs := Some [606%Z] |}.

(** * C05 *)
(** every array of the selected object holds the wanted rows, columns and windows of the
    original, in the original order *)
Theorem C05_select_correct : forall (X : Type) (u : uvp X) a u',
  wf u -> select u a = Ok u' -> exists R P, select_spec u a u' R P.
Proof. intros X. exact (@select_correct X). Qed.
Print Assumptions C05_select_correct.

(** looking a key up after a selection returns the rows of that baseline-pair that were
    wanted, from the original window and polarization *)
Theorem C05_select_lookup : forall (X : Type) (u u' : uvp X) a (f : uvp X -> list (nat * arr X)) w b p rows,
  wf u -> NoDup (u_polpair_array u) -> f = u_data \/ f = u_wgt \/ f = u_integration \/ f = u_nsample ->
  select u a = Ok u' -> In w (spw_kept u a) ->
  get_array f u' (rank (spw_kept u a) w) b p = Ok rows ->
  exists k ar idx, nth_error (u_polpair_array u) k = Some p /\ dget Nat.eq_dec (f u) w = Some ar /\
    StronglySorted lt idx /\
    (forall i, In i idx <-> nth_error (u_blpair_array u) i = Some b /\ row_wanted u a i) /\
    Forall2 (fun i x => exists r, nth_error ar i = Some r /\ nth_error r k = Some x) idx rows.
Proof.
  intros X u u' a f w b p rows W N Hf H Hw Hg.
  destruct (select_correct u a u' W H) as [R [P S]].
  pose proof (select_wf u a u' W H) as W'. pose proof (select_pols_NoDup u u' a W N H) as N'.
  assert (Fin : In (f u') (dicts u') /\ dict_selected (spw_kept u a) R P (f u) (f u')).
  { pose proof (sp_dicts _ _ _ _ _ S) as D. unfold dicts in *. cbn [app] in *.
    inversion D as [|? ? ? ? D1 Dr1]; subst. inversion Dr1 as [|? ? ? ? D2 Dr2]; subst.
    inversion Dr2 as [|? ? ? ? D3 Dr3]; subst. inversion Dr3 as [|? ? ? ? D4 Dr4]; subst.
    destruct Hf as [-> | [-> | [-> | ->]]]; split; auto; cbn; auto. }
  destruct Fin as [F1 F2].
  destruct (memN (rank (spw_kept u a) w) (u_spw_freq_array u') && memN (rank (spw_kept u a) w) (u_spw_dly_array u')) eqn:Em;
    [|unfold get_array, key_to_indices in Hg; rewrite Em in Hg; discriminate].
  destruct (memZ b (u_blpair_array u')) eqn:Eb;
    [|unfold get_array, key_to_indices in Hg; rewrite Em, Eb in Hg; discriminate].
  destruct (memZ p (u_polpair_array u')) eqn:Ep;
    [|unfold get_array, key_to_indices in Hg; rewrite Em, Eb, Ep in Hg; discriminate].
  apply andb_true_iff in Em. destruct Em as [Em1 Em2].
  destruct (get_array_correct u' f (rank (spw_kept u a) w) b p W' N' F1) as [rows' [G1 G2]].
  { split; [apply memN_In; exact Em1|]. split; [apply memN_In; exact Em2|]. split; apply memZ_In; assumption. }
  rewrite Hg in G1. injection G1 as <-.
  exact (dict_selected_lookup u u' a R P (f u) (f u') w b p rows W N S F2 Hw G2).
Qed.
Print Assumptions C05_select_lookup.

(** a selection fails exactly when a window is unknown, a list of baselines, pairs or
    polarizations is empty or matches nothing, or both times and LSTs are given *)
Theorem C05_select_ok_iff : forall (X : Type) (u : uvp X) a,
  wf u -> (exists u', select u a = Ok u') <-> valid_args u a.
Proof. intros X. exact (@select_ok_iff X). Qed.
Print Assumptions C05_select_ok_iff.

Theorem C05_select_wf : forall (X : Type) (u : uvp X) a u', wf u -> select u a = Ok u' -> wf u'.
Proof. intros X. exact (@select_wf X). Qed.
Print Assumptions C05_select_wf.

Example C05_select_case : wf sample /\
  option_map (fun u' => (u_blpair_array u', u_spw_array u', u_polpair_array u', u_data u'))
    (match select sample pick_args with Ok u' => Some u' | _ => None end)
  = Some ([bA], [0], [606%Z], [(0, [[spectrum 4 1 2 1]])]).
Proof. split; [exact sample_wf | vm_compute; reflexivity]. Qed.

(** an empty list of windows is not an error: the result has no windows at all *)
Theorem C05_empty_spws_refuted : exists (u u' : uvp Z) a, wf u /\ a_spws a = Some [] /\
  select u a = Ok u' /\ u_Nspws u' = 0 /\ u_data u' = [] /\ u_blpair_array u' <> [].
Proof.
  eexists sample, _, {| a_spws := Some []; a_bls := None; a_only_pairs_in_bls := true;
    a_blpairs := None; a_times := None; a_lsts := None; a_polpairs := None |}.
  split; [exact sample_wf|]. split; [reflexivity|]. split; [vm_compute; reflexivity|].
  repeat split. discriminate.
Qed.
Print Assumptions C05_empty_spws_refuted.

(** * C06: the label arrays are never selected *)
Theorem C06_labels_unchanged : forall (X : Type) (u : uvp X) a u', wf u -> select u a = Ok u' ->
  u_label_1_array u' = u_label_1_array u /\ u_label_2_array u' = u_label_2_array u.
Proof.
  intros X u a u' W H. destruct (select_correct u a u' W H) as [R [P S]].
  split; [apply (sp_label1 _ _ _ _ _ S) | apply (sp_label2 _ _ _ _ _ S)].
Qed.
Print Assumptions C06_labels_unchanged.

(** so whenever a selection drops a row (or window), the labels no longer have one entry per row *)
Theorem C06_labels_aligned_refuted : forall (X : Type) (u : uvp X) a u', wf u -> select u a = Ok u' ->
  (forall ls, In ls (u_label_1_array u) -> length ls = length (u_blpair_array u)) ->
  u_label_1_array u <> [] -> length (u_blpair_array u') < length (u_blpair_array u) ->
  exists ls, In ls (u_label_1_array u') /\ length ls <> length (u_blpair_array u').
Proof.
  intros X u a u' W H L Ne Lt. destruct (C06_labels_unchanged X u a u' W H) as [E _].
  destruct (u_label_1_array u) as [|ls q] eqn:Eq; [congruence|]. exists ls. rewrite E. split; [left; reflexivity|].
  rewrite (L ls (or_introl eq_refl)). lia.
Qed.
Print Assumptions C06_labels_aligned_refuted.

Example C06_case : exists u', select sample pick_args = Ok u' /\
  length (u_blpair_array u') < length (u_blpair_array sample) /\ length (hd [] (u_label_1_array u')) = 3.
Proof. eexists. split; [vm_compute; reflexivity|]. split; cbn; lia. Qed.

(** * C07 *)
(** every object keeps exactly the rows and windows that the requested axes have in common
    (times up to the matching tolerance [close]); window ranges are supposed distinct within
    an object *)
Theorem C07_select_common : forall (X T : Type) (rng : list X -> T)
  (eqT : forall x y : T * nat, {x = y} + {x <> y}) (l : list (uvp X)) f l',
  select_common rng eqT l f = Ok l' -> Forall wf l ->
  (forall u ru, In u l -> get_spw_ranges rng u = Ok ru -> NoDup ru) ->
  Forall2 (fun u u' => exists a R P, select_spec u a u' R P /\ a_polpairs a = None /\
     (forall i, In i R <-> common_row l f u i) /\
     (forall w, In w (spw_kept u a) <-> In w (u_spw_array u) /\ (f_spws f = true -> common_window rng l u w))) l l'.
Proof. intros X T. exact (@select_common_correct X T). Qed.
Print Assumptions C07_select_common.

Theorem C07_select_common_blpairs : forall (X T : Type) (rng : list X -> T)
  (eqT : forall x y : T * nat, {x = y} + {x <> y}) (l : list (uvp X)) f l',
  select_common rng eqT l f = Ok l' -> Forall wf l ->
  (forall u ru, In u l -> get_spw_ranges rng u = Ok ru -> NoDup ru) ->
  f_blpairs f = true -> f_times f = false -> f_lsts f = false ->
  Forall (fun u' => forall b, In b (u_blpair_array u') <-> forall v, In v l -> In b (u_blpair_array v)) l'.
Proof. intros X T. exact (@select_common_blpairs X T). Qed.
Print Assumptions C07_select_common_blpairs.

Theorem C07_select_common_errors : forall (X T : Type) (rng : list X -> T)
  (eqT : forall x y : T * nat, {x = y} + {x <> y}) f (l : list (uvp X)),
  (length l < 2 -> select_common rng eqT l f = Err IndexError) /\
  (2 <= length l -> f_spws f = false ->
   (f_blpairs f = true /\ (forall b, ~ common_b l b)) \/
   (f_times f = true /\ (forall t, ~ common_q u_time_avg_array l t)) \/
   (f_lsts f = true /\ (forall t, ~ common_q u_lst_avg_array l t)) ->
   select_common rng eqT l f = Err ValueError).
Proof. intros X T rng eqT f l. split; [exact (select_common_short rng eqT f l) | exact (select_common_empty rng eqT f l)]. Qed.
Print Assumptions C07_select_common_errors.

Definition sample2 : uvp Z := Eval vm_compute in
  match select sample {| a_spws := None; a_bls := None; a_only_pairs_in_bls := true; a_blpairs := Some [bA];
    a_times := None; a_lsts := None; a_polpairs := Some [505%Z] |} with Ok u => u | Err _ => sample end.
Lemma sample2_wf : wf sample2.
Proof.
  apply (select_wf sample {| a_spws := None; a_bls := None; a_only_pairs_in_bls := true; a_blpairs := Some [bA];
    a_times := None; a_lsts := None; a_polpairs := Some [505%Z] |}); [exact sample_wf | vm_compute; reflexivity].
Qed.
Definition eqrange : forall x y : list Z * nat, {x = y} + {x <> y}.
Proof. intros [a b] [c d]. destruct (list_eq_dec Z.eq_dec a c), (Nat.eq_dec b d); [left; congruence|right; congruence..]. Defined.
Definition flags (b t p : bool) := {| f_spws := true; f_blpairs := b; f_times := t; f_polpairs := p; f_lsts := false |}.

Example C07_case : Forall wf [sample; sample2] /\
  exists u1 u2, select_common (fun l => l) eqrange [sample; sample2] (flags true true false) = Ok [u1; u2] /\
  u_blpair_array u1 = [bA; bA] /\ u_blpair_array u2 = [bA; bA].
Proof.
  split; [constructor; [exact sample_wf | constructor; [exact sample2_wf | constructor]]|].
  eexists _, _. split; [vm_compute; reflexivity|]. split; reflexivity.
Qed.

(** polpairs=True selects nothing: a polarization pair that only one object has survives *)
Theorem C07_polpairs_refuted : exists (l : list (uvp Z)) u' l',
  Forall wf l /\ select_common (fun x => x) eqrange l (flags false false true) = Ok (u' :: l') /\
  exists p v, In p (u_polpair_array u') /\ In v l /\ ~ In p (u_polpair_array v).
Proof.
  exists [sample; sample2]. eexists _, _.
  split; [constructor; [exact sample_wf | constructor; [exact sample2_wf | constructor]]|].
  split; [vm_compute; reflexivity|]. exists 606%Z, sample2. split; [cbn; auto|]. split; [cbn; auto|].
  cbn. intros [C|[]]. discriminate.
Qed.
Print Assumptions C07_polpairs_refuted.

(** * C08 *)
(** a known key returns the rows of its baseline-pair in storage order, in the column of its
    polarization pair and from the array of its window *)
Theorem C08_lookup : forall (X : Type) (u : uvp X) (f : uvp X -> list (nat * arr X)) s b p,
  wf u -> NoDup (u_polpair_array u) -> f = u_data \/ f = u_wgt \/ f = u_integration \/ f = u_nsample ->
  In s (u_spw_freq_array u) -> In s (u_spw_dly_array u) -> In b (u_blpair_array u) -> In p (u_polpair_array u) ->
  exists rows, get_array f u s b p = Ok rows /\
  exists k a idx, nth_error (u_polpair_array u) k = Some p /\ dget Nat.eq_dec (f u) s = Some a /\
    StronglySorted lt idx /\ (forall i, In i idx <-> nth_error (u_blpair_array u) i = Some b) /\
    Forall2 (fun i x => exists r, nth_error a i = Some r /\ nth_error r k = Some x) idx rows.
Proof.
  intros X u f s b p W N Hf H1 H2 H3 H4. apply get_array_correct; auto.
  - destruct Hf as [-> | [-> | [-> | ->]]]; unfold dicts; cbn; auto.
  - repeat split; assumption.
Qed.
Print Assumptions C08_lookup.

Theorem C08_unknown_key : forall (X : Type) (u : uvp X) (f : uvp X -> list (nat * arr X)) s b p,
  ~ (In s (u_spw_freq_array u) /\ In s (u_spw_dly_array u) /\ In b (u_blpair_array u) /\ In p (u_polpair_array u)) ->
  get_array f u s b p = Err AssertionError.
Proof. intros X. exact (@get_array_unknown X). Qed.
Print Assumptions C08_unknown_key.

Theorem C08_get_all_keys : forall (X : Type) (u : uvp X), NoDup (u_polpair_array u) ->
  NoDup (get_all_keys u) /\
  forall s b p, In (s, b, p) (get_all_keys u) <-> s < u_Nspws u /\ In b (u_blpair_array u) /\ In p (u_polpair_array u).
Proof. intros X. exact (@get_all_keys_correct X). Qed.
Print Assumptions C08_get_all_keys.

Example C08_case : get_data sample 1 bA 606%Z = Ok [spectrum 4 1 0 1; spectrum 4 1 2 1] /\
  get_all_keys sample = [(0, bA, 505%Z); (0, bB, 505%Z); (0, bA, 606%Z); (0, bB, 606%Z);
                         (1, bA, 505%Z); (1, bB, 505%Z); (1, bA, 606%Z); (1, bB, 606%Z)].
Proof. split; vm_compute; reflexivity. Qed.

(** * C09 *)
Definition Zmean (x y : Z) : Z := ((x + y) / 2)%Z.
Definition Zfold := fold_uvp Zmean Zmean 0%Z 0%Z (Z.mul 2).

(** after any sequence of selections and foldings in which windows are selected before
    folding, spectra and delays have the same length (windows of at least three delays) *)
Theorem C09_lengths : forall (X : Type) mean invquad zero nan double (ops : list op) (u u' : uvp X) s b p rows,
  good u -> u_folded u = false -> spws_before_fold ops ->
  run mean invquad zero nan double ops u = Ok u' -> get_data u' s b p = Ok rows ->
  exists ds, get_dlys u' s = Ok ds /\ forall x, In x rows -> length x = length ds.
Proof. intros X. exact (@run_lengths X). Qed.
Print Assumptions C09_lengths.

(** without folding no restriction is needed *)
Theorem C09_lengths_unfolded : forall (X : Type) (u : uvp X) s b p rows,
  wf u -> widths u -> NoDup (u_polpair_array u) -> u_folded u = false -> get_data u s b p = Ok rows ->
  exists ds, get_dlys u s = Ok ds /\ forall x, In x rows -> length x = length ds.
Proof. intros X u s b p rows W Wd N F H. eapply lengths_agree; eauto. intros C; congruence. Qed.
Print Assumptions C09_lengths_unfolded.

Lemma sample_good : good sample.
Proof.
  split; [exact sample_wf|]. split; [|split; [|split]].
  - intros s a r c Hs E Hr Hc. destruct Hs as [<-|[<-|[]]]; vm_compute in E; injection E as <-; cbn in Hr;
      repeat destruct Hr as [<-|Hr]; try contradiction; cbn in Hc; repeat destruct Hc as [<-|Hc]; try contradiction; reflexivity.
  - intros s Hs. exists (1 # 10000000)%Q. split; [unfold Qle; cbn; lia|]. intros j d H.
    destruct Hs as [<-|[<-|[]]]; vm_compute in H;
      do 5 (try (destruct j as [|j]; [injection H as <-; vm_compute; reflexivity|])); destruct j; discriminate.
  - cbn. repeat constructor; cbn; intuition discriminate.
  - intros s [<-|[<-|[]]]; vm_compute; lia.
Qed.

Example C09_case : good sample /\ spws_before_fold [OpSelect pick_args; OpFold; OpSelect no_args] /\
  exists u' rows, run Zmean Zmean 0%Z 0%Z (Z.mul 2) [OpSelect pick_args; OpFold; OpSelect no_args] sample = Ok u' /\
    get_data u' 0 bA 606%Z = Ok rows /\ rows = [[1212%Z]].
Proof.
  split; [exact sample_good|]. split; [cbn; repeat constructor|]. eexists _, _.
  split; [vm_compute; reflexivity|]. split; vm_compute; reflexivity.
Qed.

(** folding and then selecting a window drops the non-positive delays of the delay array but not
    of the data, so that the next selection or lookup disagree *)
Theorem C09_fold_then_select_refuted : exists (u u1 u2 : uvp Z) a s b p rows ds, good u /\
  Zfold u = Ok u1 /\ select u1 a = Ok u2 /\ get_data u2 s b p = Ok rows /\ get_dlys u2 s = Ok ds /\
  exists x, In x rows /\ length x <> length ds.
Proof.
  eexists sample, _, _, {| a_spws := Some [0; 1]; a_bls := None; a_only_pairs_in_bls := true;
    a_blpairs := None; a_times := None; a_lsts := None; a_polpairs := None |}, 0, bB, 505%Z, _, _.
  split; [exact sample_good|]. split; [vm_compute; reflexivity|]. split; [vm_compute; reflexivity|].
  split; [vm_compute; reflexivity|]. split; [vm_compute; reflexivity|].
  eexists. split; [left; reflexivity|]. cbn. lia.
Qed.
Print Assumptions C09_fold_then_select_refuted.

(** folding a window with one delay: one data value, no delays *)
Theorem C09_short_window_refuted : exists (u u1 : uvp Z) s b p rows ds, wf u /\ widths u /\
  Zfold u = Ok u1 /\ get_data u1 s b p = Ok rows /\ get_dlys u1 s = Ok ds /\
  exists x, In x rows /\ length x <> length ds.
Proof.
  exists (mkuvp false 1 [0] [0] [0] [10%Z] [0%Q] [[1%Z]] [bA] [1%Q] [1%Q] [1%Q] [1%Q] [1%Q] [1%Q]
    [101102%Z] [7%Z] [505%Z] [(0, [[[5%Z]]])] [(0, [[[5%Z]]])] [(0, [[[5%Z]]])] [(0, [[[5%Z]]])] None None None [] [] []).
  eexists _, 0, bA, 505%Z, _, _.
  split.
  { constructor; try reflexivity; try all_in.
    split; [reflexivity | all_in].
    all: intros s Hs; cbn in Hs; destruct Hs as [<-|[]]; eexists;
      (split; [reflexivity|split; [reflexivity | all_in]]). }
  split.
  { intros s a r c Hs E Hr Hc. destruct Hs as [<-|[]]. vm_compute in E. injection E as <-.
    destruct Hr as [<-|[]]. destruct Hc as [<-|[]]. reflexivity. }
  split; [vm_compute; reflexivity|]. split; [vm_compute; reflexivity|]. split; [vm_compute; reflexivity|].
  eexists. split; [left; reflexivity|]. cbn. lia.
Qed.
Print Assumptions C09_short_window_refuted.

(** * C46: an in-place selection that fails leaves the object half-selected *)
(** the metadata says window 0 holds frequencies 20.., the data of window 0 is still the old one *)
Theorem C46_failed_select_refuted : exists (u u' : uvp Z) a e, wf u /\ _select u a = (u', Some e) /\
  u_Nspws u' <> u_Nspws u /\ u_freq_array u' = skipn 3 (u_freq_array u) /\
  u_spw_freq_array u' = [0; 0; 0; 0] /\
  get_data u' 0 bB 505%Z = get_data u 0 bB 505%Z /\ get_data u 0 bB 505%Z <> get_data u 1 bB 505%Z.
Proof.
  eexists sample, _, {| a_spws := Some [1]; a_bls := None; a_only_pairs_in_bls := true;
    a_blpairs := Some [999%Z]; a_times := None; a_lsts := None; a_polpairs := None |}, _.
  split; [exact sample_wf|]. split; [vm_compute; reflexivity|].
  split; [cbn; lia|]. split; [reflexivity|]. split; [reflexivity|]. split; [vm_compute; reflexivity|].
  vm_compute. discriminate.
Qed.
Print Assumptions C46_failed_select_refuted.

(** when only rows and windows that exist are requested the failure cannot happen; and a failure
    while choosing windows leaves the object as it was *)
Theorem C46_window_failure_harmless : forall (X : Type) (u : uvp X) a spws e,
  a_spws a = Some spws -> select_spws u spws = Err e -> _select u a = (u, Some e).
Proof. intros X u a spws e E H. unfold _select. rewrite E, H. reflexivity. Qed.
Print Assumptions C46_window_failure_harmless.

Theorem C46_valid_select_completes : forall (X : Type) (u : uvp X) a, wf u -> valid_args u a ->
  exists u', _select u a = (u', None).
Proof.
  intros X u a W V. destruct (proj2 (select_ok_iff u a W) V) as [u' H]. exists u'.
  unfold select in H. destruct (_select u a) as [v [e|]]; congruence.
Qed.
Print Assumptions C46_valid_select_completes.
