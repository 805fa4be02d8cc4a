(** Property C321: folding and averaging. *)
From Coq Require Import Reals Lra QArith Sorted Permutation.
From Verif Require Import PyDict.
From Verif Require Import Prelude ListLemmas UvpModel UvpSpec UvpProofs SelectProofs SelectMain SelectTotal KeyProofs FoldModel FoldProofs LengthProofs
  AvgModel AvgProofs AvgMain AvgObject AvgTotal AvgProps LawModel LawProofs LawSelect LawFold.
Open Scope nat_scope.

Definition map_ok {A B} (f : A -> B) (r : result A) : result B := match r with Ok x => Ok (f x) | Err e => Err e end.
Lemma gather_map {A B} (f : A -> B) a idx : gather (map f a) idx = map_ok (map f) (gather a idx).
Proof.
  induction idx as [|i idx IH]; [reflexivity|]. cbn [gather]. rewrite nth_error_map. destruct (nth_error a i); cbn; [|reflexivity]. rewrite IH. destruct (gather a idx); reflexivity.
Qed.
Lemma take_rows_pol_map {X} (g : list X -> list X) (a : arr X) idx k : take_rows_pol (map (map g) a) idx k = map_ok (map g) (take_rows_pol a idx k).
Proof.
  unfold take_rows_pol. rewrite gather_map. destruct (gather a idx) as [rs|]; cbn; [|reflexivity].
  induction rs as [|r rs IH]; [reflexivity|]. cbn [map map_res]. rewrite nth_error_map. destruct (nth_error r k); cbn; [|reflexivity]. rewrite IH. 
  destruct (map_res _ rs); reflexivity.
Qed.

Section F.
Context {X : Type}.
Variables (mean invquad : X -> X -> X) (zero nan : X) (double : X -> X).
Notation fold_uvp := (fold_uvp mean invquad zero nan double).
Lemma get_array_fold (u v : uvp X) s b p : fold_uvp u = Ok v -> In s (seq 0 (u_Nspws u)) ->
  get_array u_data v s b p = map_ok (map (fold_spectrum mean (match u_stats u with Some _ => nan | None => zero end))) (get_array u_data u s b p) /\
  get_array u_nsample v s b p = map_ok (map (map double)) (get_array u_nsample u s b p) /\
  get_array u_integration v s b p = get_array u_integration u s b p.
Proof.
  intros H L. destruct (fold_parts mean invquad zero nan double u v H) as (_ & _ & D & N & _ & e).
  assert (K : key_to_indices v s b p = key_to_indices u s b p) by (rewrite e; reflexivity).
  destruct (update_all_spec _ _ _ _ (seq_NoDup _ 0) D) as [D1 _]. destruct (D1 s L) as (a & A1 & A2).
  destruct (update_all_spec _ _ _ _ (seq_NoDup _ 0) N) as [N1 _]. destruct (N1 s L) as (n & B1 & B2).
  assert (KS : forall i, key_to_indices u s b p = Ok i -> fst (fst i) = s).
  { intros i E. unfold key_to_indices in E. do 3 (apply require_ok in E; destruct E as [_ E]). apply bind_ok in E. destruct E as [pi [_ E]].
    destruct pi as [|? [|]]; try discriminate. apply bind_ok in E. destruct E as [r [_ E]]. injection E as <-. reflexivity. }
  unfold get_array. rewrite K. destruct (key_to_indices u s b p) as [[[s' rows] k]|] eqn:E; cbn [bind map_ok]; [|repeat split].
  pose proof (KS _ eq_refl) as Es. cbn in Es. subst s'. unfold lookup_arr, aget. rewrite A1, A2, B1, B2. cbn [bind].
  rewrite !take_rows_pol_map. split; [reflexivity|]. split; [reflexivity|].
  assert (EI : u_integration v = u_integration u) by (rewrite e; reflexivity). rewrite EI. reflexivity.
Qed.
End F.

(** the fold of real spectra *)
Definition halfsum (x y : R) : R := ((x + y) / 2)%R.
Definition twice (x : R) : R := (2 * x)%R.
Lemma fold_row_cell fill (l : list R) N d : length l = N -> 3 <= N -> d < N - N / 2 - 1 ->
  nth d (from_neg (N - N / 2 - 1) (fold_spectrum halfsum fill l)) 0%R = halfsum (nth (N / 2 - 1 - d) l 0%R) (nth (N / 2 + 1 + d) l 0%R).
Proof.
  intros L H3 Hd. pose proof (halves N) as Hn. destruct (fold_spectrum_bins halfsum fill l) as (_ & _ & B). rewrite L in B.
  destruct (B (1 + d)) as (x & y & E1 & E2 & _ & E3); [lia|lia|].
  unfold from_neg. destruct (N - N / 2 - 1) as [|n'] eqn:En; [lia|]. rewrite fold_spectrum_length, L.
  replace (N - S n') with (N / 2 + 1) by lia.
  apply nth_error_nth with (d := 0%R) in E1. apply nth_error_nth with (d := 0%R) in E2.
  replace (N / 2 - 1 - d) with (N / 2 - (1 + d)) by lia. replace (N / 2 + 1 + d) with (N / 2 + (1 + d)) by lia. rewrite E1, E2.
  apply nth_error_nth. rewrite nth_error_skipn. rewrite <- E3. f_equal. lia.
Qed.

Lemma get_data_fold (u v : uvp R) invq zero nan s b p N : fold_uvp halfsum invq zero nan twice u = Ok v -> In s (seq 0 (u_Nspws u)) ->
  length (filter (Nat.eqb s) (u_spw_dly_array u)) = N -> 3 <= N ->
  (forall rows r, get_data u s b p = Ok rows -> In r rows -> length r = N) ->
  forall t d, d < N - N / 2 - 1 ->
  cell (rows_or_nil (get_data v s b p)) t d = halfsum (cell (rows_or_nil (get_data u s b p)) t (N / 2 - 1 - d)) (cell (rows_or_nil (get_data u s b p)) t (N / 2 + 1 + d)).
Proof.
  intros H L LN H3 HR t d Hd. destruct (get_array_fold halfsum invq zero nan twice u v s b p H L) as (E & _ & _).
  destruct (fold_parts _ _ _ _ _ u v H) as (f1 & f2 & _ & _ & _ & e). unfold get_data in *. rewrite f1 in HR. rewrite f2, E, f1.
  assert (Ed : u_spw_dly_array v = u_spw_dly_array u) by (rewrite e; reflexivity). rewrite Ed, LN.
  destruct (get_array u_data u s b p) as [rows|]; cbn [map_ok bind rows_or_nil]; unfold cell.
  - destruct (nth_error rows t) as [r|] eqn:Et.
    + rewrite map_map. rewrite (nth_error_nth (map _ rows) t [] (x := from_neg (N - N / 2 - 1) (fold_spectrum halfsum (match u_stats u with Some _ => nan | None => zero end) r))) by (rewrite nth_error_map, Et; reflexivity).
      rewrite (nth_error_nth rows t [] Et). apply fold_row_cell; try assumption. apply (HR rows r eq_refl). eapply nth_error_In; exact Et.
    + apply nth_error_None in Et. rewrite (nth_overflow rows) by exact Et. rewrite map_map. rewrite (nth_overflow (map _ rows)) by (rewrite map_length; exact Et). rewrite !nth_overflow by (cbn; lia). unfold halfsum; lra.
  - rewrite (nth_overflow (@nil (list R)) []) by (cbn; lia). rewrite !nth_overflow by (cbn; lia). unfold halfsum; lra.
Qed.
Lemma cell_double rows t d : cell (map (map twice) rows) t d = twice (cell rows t d).
Proof.
  unfold cell. destruct (nth_error rows t) as [r|] eqn:Et.
  - rewrite (nth_error_nth (map _ rows) t [] (x := map twice r)) by (rewrite nth_error_map, Et; reflexivity). rewrite (nth_error_nth rows t [] Et).
    destruct (nth_error r d) as [x|] eqn:Ed.
    + rewrite (nth_error_nth (map twice r) d 0%R (x := twice x)) by (rewrite nth_error_map, Ed; reflexivity). rewrite (nth_error_nth r d 0%R Ed). reflexivity.
    + apply nth_error_None in Ed. rewrite !nth_overflow by (rewrite ?map_length; exact Ed). unfold twice. lra.
  - apply nth_error_None in Et. rewrite (nth_overflow rows), (nth_overflow (map _ rows)) by (rewrite ?map_length; exact Et). destruct d; unfold twice; cbn; lra.
Qed.
Lemma cell_nil t d : cell [] t d = 0%R.
Proof. unfold cell. destruct t, d; reflexivity. Qed.
Lemma weight_fold (u v : uvp R) invq zero nan s b p : fold_uvp halfsum invq zero nan twice u = Ok v -> In s (seq 0 (u_Nspws u)) ->
  forall t d d', spec_weight v false s p b t d = twice (spec_weight u false s p b t d').
Proof.
  intros H L t d d'. destruct (get_array_fold halfsum invq zero nan twice u v s b p H L) as (_ & E2 & E3). unfold spec_weight. rewrite E2, E3.
  assert (C : cell (rows_or_nil (map_ok (map (map twice)) (get_array u_nsample u s b p))) t 0 = twice (cell (rows_or_nil (get_array u_nsample u s b p)) t 0)).
  { destruct (get_array u_nsample u s b p); cbn [map_ok rows_or_nil]; [apply cell_double|rewrite cell_nil; unfold twice; lra]. }
  rewrite C. unfold twice. ring.
Qed.

(** weighted means of folded terms *)
Lemma wmean_fold {I} (l : list I) (x y z : I -> R) (w w' : I -> R) : (forall i, In i l -> z i = halfsum (x i) (y i) /\ w' i = twice (w i)) ->
  (tiny <= wsum (map (fun i => (x i, w i)) l))%R ->
  wmean (map (fun i => (z i, w' i)) l) = halfsum (wmean (map (fun i => (x i, w i)) l)) (wmean (map (fun i => (y i, w i)) l)).
Proof.
  intros H T. unfold wmean.
  assert (E1 : wsum (map (fun i => (z i, w' i)) l) = twice (wsum (map (fun i => (x i, w i)) l))).
  { clear T. unfold wsum. rewrite !map_map. cbn. induction l as [|i l IH]; cbn; [unfold twice; lra|]. rewrite IH by (intros; apply H; right; assumption). rewrite (proj2 (H i (or_introl eq_refl))). unfold twice. ring. }
  assert (E2 : wsum (map (fun i => (y i, w i)) l) = wsum (map (fun i => (x i, w i)) l)) by (unfold wsum; rewrite !map_map; reflexivity).
  assert (E3 : xsum (map (fun i => (z i, w' i)) l) = (xsum (map (fun i => (x i, w i)) l) + xsum (map (fun i => (y i, w i)) l))%R).
  { clear T E1 E2. unfold xsum. rewrite !map_map. cbn. induction l as [|i l IH]; cbn; [ring|]. rewrite IH by (intros; apply H; right; assumption). destruct (H i (or_introl eq_refl)) as [-> ->]. unfold twice, halfsum. field. }
  rewrite E1, E2, E3. assert (P : (0 < tiny)%R) by (unfold tiny; apply Rinv_0_lt_compat, IZR_lt; reflexivity). unfold twice, halfsum. field. lra.
Qed.

Lemma flat_terms q (u : uvp R) ta s p r d g : flat_map (spec_terms q u ta false s p r d) g =
  map (fun bt => (spec_value q u s p (fst bt) (snd bt) d, spec_weight u false s p (fst bt) (snd bt) d)) (flat_map (fun b => map (fun t => (b, t)) (if ta then seq 0 (ntimes u b) else [r])) g).
Proof.
  induction g as [|b g IH]; [reflexivity|]. cbn [flat_map]. rewrite map_app, <- IH. f_equal. unfold spec_terms. rewrite map_map. reflexivity.
Qed.
Lemma weight_bin (u : uvp R) s p b t d d' : spec_weight u false s p b t d = spec_weight u false s p b t d'.
Proof. reflexivity. Qed.

Lemma fold_averageable (u v : uvp R) invq zero nan : averageable u false -> fold_uvp halfsum invq zero nan twice u = Ok v -> averageable v false.
Proof.
  intros (W & Wd & Na & Sw & Np & Nn) H. destruct (fold_correct halfsum invq zero nan twice u v H) as [F Fw]. pose proof (Fw W) as Wv.
  destruct (fold_parts _ _ _ _ _ u v H) as (f1 & f2 & _ & N & _ & e).
  split; [exact Wv|]. split; [exact (fold_widths halfsum invq zero nan twice u v W Wd F)|].
  assert (EP : u_polpair_array v = u_polpair_array u) by (rewrite e; reflexivity).
  destruct (update_all_spec _ _ _ _ (seq_NoDup _ 0) N) as [N1 N2].
  split; [|split; [discriminate|split; [rewrite EP; exact Np|]]].
  - intros f s a r c Hf E Hr Hc. destruct Hf as [-> | ->].
    + assert (EI : u_integration v = u_integration u) by (rewrite e; reflexivity). rewrite EI in E. eapply (Na u_integration); eauto.
    + destruct (in_dec Nat.eq_dec s (seq 0 (u_Nspws u))) as [I|I].
      * destruct (N1 s I) as (a0 & A1 & A2). rewrite E in A2. injection A2 as ->. apply in_map_iff in Hr. destruct Hr as (r0 & <- & Hr). apply in_map_iff in Hc. destruct Hc as (c0 & <- & Hc).
        rewrite map_length. eapply (Na u_nsample); eauto.
      * rewrite N2 in E by exact I. eapply (Na u_nsample); eauto.
  - intros s b p rows t E.
    assert (Hs : In s (seq 0 (u_Nspws u))).
    { unfold get_array, key_to_indices in E. apply bind_ok in E. destruct E as [k [E _]]. apply require_ok in E. destruct E as [E _]. apply andb_true_iff in E. destruct E as [E _].
      apply memN_In in E. apply (wf_freq_in v Wv) in E. apply (Permutation_in _ (wf_spw v Wv)) in E. rewrite e in E. exact E. }
    destruct (get_array_fold halfsum invq zero nan twice u v s b p H Hs) as (_ & E2 & _). rewrite E2 in E.
    destruct (get_array u_nsample u s b p) as [rw|] eqn:Er; [|discriminate]. injection E as <-. rewrite cell_double. specialize (Nn s b p rw t Er). unfold twice. lra.
Qed.

(** * C321: averaging the folded object and folding the averaged one give the same spectra *)
Theorem average_fold_commute : forall u v u' v' w ta order circ groups invq zero nan,
  averageable u false -> (forall l, Permutation (order l) l) ->
  (forall g, In g groups -> g <> [] /\ forall b, In b g -> In b (u_blpair_array u)) ->
  (forall g, In g groups -> same_times u ta g) -> NoDup (map (hd 0%Z) groups) ->
  fold_uvp halfsum invq zero nan twice u = Ok v ->
  average_spectra v false order circ ta true false groups None = Ok v' ->
  average_spectra u false order circ ta true false groups None = Ok u' -> fold_uvp halfsum invq zero nan twice u' = Ok w ->
  forall s p g r d,
  In s (u_spw_freq_array u) -> In s (u_spw_dly_array u) -> In p (u_polpair_array u) -> In g groups -> 3 <= length (window_dlys u s) ->
  r < grows u ta g -> d < width v s ->
  (forall b, In b g -> weighted (spec_terms Power u ta false s p r 0 b)) ->
  (tiny <= wsum (flat_map (spec_terms Power u ta false s p r 0) g))%R ->
  cell (rows_or_nil (get_data v' s (hd 0%Z g) p)) r d = cell (rows_or_nil (get_data w s (hd 0%Z g) p)) r d.
Proof.
  intros u v u' v' w ta order circ groups invq zero nan A Ho Hg Hst Nh Hf Hv Hu Hw s p g r d Hs1 Hs2 Hp Hgin H3 Hr Hd Hwt Ht.
  pose proof (fold_averageable u v invq zero nan A Hf) as Av. pose proof A as (W & Wd & Na & Sw & Np & Nn).
  destruct (fold_parts _ _ _ _ _ u v Hf) as (f1 & f2 & _ & _ & _ & e).
  set (N := length (window_dlys u s)) in *.
  assert (HsN : In s (seq 0 (u_Nspws u))) by (apply (Permutation_in _ (wf_spw u W)), (wf_freq_in u W), Hs1).
  assert (LN : length (filter (Nat.eqb s) (u_spw_dly_array u)) = N) by (unfold N; rewrite window_dlys_len by exact W; reflexivity).
  pose proof (halves N) as HN.
  assert (WV : width v s = N - N / 2 - 1).
  { unfold width. rewrite f2. destruct (fold_correct halfsum invq zero nan twice u v Hf) as [F _]. rewrite (fold_window_dlys halfsum invq zero nan twice u v s F). fold N. destruct (N - N / 2 - 1) eqn:En; lia. }
  assert (WU : width u s = N) by (unfold width; rewrite f1; reflexivity).
  (* the folded object *)
  assert (EBl : u_blpair_array v = u_blpair_array u) by (rewrite e; reflexivity).
  assert (EFr : u_spw_freq_array v = u_spw_freq_array u) by (rewrite e; reflexivity).
  assert (EDl : u_spw_dly_array v = u_spw_dly_array u) by (rewrite e; reflexivity).
  assert (EPo : u_polpair_array v = u_polpair_array u) by (rewrite e; reflexivity).
  assert (ENt : forall b, ntimes v b = ntimes u b) by (intros b; unfold ntimes; rewrite EBl; reflexivity).
  assert (EGr : grows v ta g = grows u ta g) by (unfold grows; rewrite ENt; reflexivity).
  destruct (C18_default_mean v ta order circ groups v' Av Ho) with (s := s) (p := p) (g := g) as (dv & nv & V1 & _ & V3 & _ & V5).
  { intros q Hq. rewrite EBl. apply Hg, Hq. }
  { intros q Hq. destruct (Hst q Hq) as [E|E]; [left; exact E|right]. intros b Hb. rewrite !ENt. apply E, Hb. }
  { exact Nh. }
  { exact Hv. }
  { rewrite EFr; exact Hs1. } { rewrite EDl; exact Hs2. } { rewrite EPo; exact Hp. } { exact Hgin. }
  destruct (C18_default_mean u ta order circ groups u' A Ho Hg Hst Nh Hu s p g Hs1 Hs2 Hp Hgin) as (du & nu & U1 & _ & U3 & _ & U5).
  rewrite EGr in V5. destruct (V5 r Hr) as (_ & _ & V7). destruct (U5 r Hr) as (U6 & _ & U7).
  rewrite V1. cbn [rows_or_nil].
  (* reading u' and its fold *)
  assert (UF : u_folded u' = false /\ u_spw_dly_array u' = u_spw_dly_array u /\ u_Nspws u' = u_Nspws u).
  { destruct (effective_groups u false order groups None) as [gs|] eqn:EG; [|unfold average_spectra in Hu; rewrite EG in Hu; discriminate].
    destruct (avg_unfold u ta true false false order circ groups None u' gs EG Hu) as (sp & _ & _ & Q1 & _ & Q2 & _ & _ & Q3 & _). rewrite Q1, Q2, Q3. auto. }
  destruct UF as (UF & UD & UN).
  assert (RW : forall rows x, get_data u' s (hd 0%Z g) p = Ok rows -> In x rows -> length x = N).
  { intros rows x E Hx. rewrite U1 in E. injection E as <-. apply In_nth with (d := []) in Hx. destruct Hx as (i & Hi & <-). rewrite U3 in Hi. destruct (U5 i Hi) as (Q & _). rewrite Q. exact WU. }
  rewrite (get_data_fold u' w invq zero nan s (hd 0%Z g) p N Hw) by first [assumption|rewrite UN; exact HsN|rewrite UD; exact LN|lia].
  rewrite U1. cbn [rows_or_nil].
  (* terms *)
  assert (EX : forall q, spec_terms Power u ta false s p r q = fun b => map (fun t => (spec_value Power u s p b t q, spec_weight u false s p b t 0)) (if ta then seq 0 (ntimes u b) else [r])) by (intros q; reflexivity).
  assert (WS : forall q b, map snd (spec_terms Power u ta false s p r q b) = map snd (spec_terms Power u ta false s p r 0 b)) by (intros q b; unfold spec_terms; rewrite !map_map; reflexivity).
  assert (WT : forall q b, In b g -> weighted (spec_terms Power u ta false s p r q b)).
  { intros q b Hb. destruct (Hwt b Hb) as [Q|Q]; [left; unfold wsum in *; rewrite WS; exact Q|right]. apply Forall_forall. intros pr Hpr. unfold spec_terms in Hpr. apply in_map_iff in Hpr. destruct Hpr as (t & <- & Ht'). cbn.
    rewrite Forall_forall in Q. apply (Q (spec_value Power u s p b t 0, spec_weight u false s p b t 0)). unfold spec_terms. apply in_map_iff. exists t. split; [reflexivity|exact Ht']. }
  assert (TT : forall q, (tiny <= wsum (flat_map (spec_terms Power u ta false s p r q) g))%R).
  { intros q. replace (wsum (flat_map (spec_terms Power u ta false s p r q) g)) with (wsum (flat_map (spec_terms Power u ta false s p r 0) g)); [exact Ht|].
    rewrite !flat_terms. unfold wsum. rewrite !map_map. reflexivity. }
  assert (VW : forall b t, spec_weight v false s p b t d = twice (spec_weight u false s p b t 0)) by (intros b t; apply (weight_fold u v invq zero nan s b p Hf HsN)).
  rewrite V7.
  - rewrite (U7 (N / 2 - 1 - d)) by (try apply TT; try (intros; apply WT; assumption); rewrite WU; lia).
    rewrite (U7 (N / 2 + 1 + d)) by (try apply TT; try (intros; apply WT; assumption); rewrite WU; lia).
    rewrite !flat_terms.
    assert (EI : flat_map (fun b => map (fun t => (b, t)) (if ta then seq 0 (ntimes v b) else [r])) g = flat_map (fun b => map (fun t => (b, t)) (if ta then seq 0 (ntimes u b) else [r])) g).
    { apply flat_map_ext. intros b. rewrite ENt. reflexivity. }
    rewrite EI. apply (wmean_fold _ (fun bt => spec_value Power u s p (fst bt) (snd bt) (N / 2 - 1 - d)) (fun bt => spec_value Power u s p (fst bt) (snd bt) (N / 2 + 1 + d)) (fun bt => spec_value Power v s p (fst bt) (snd bt) d)
        (fun bt => spec_weight u false s p (fst bt) (snd bt) 0) (fun bt => spec_weight v false s p (fst bt) (snd bt) d)).
    + intros [b t] Hbt. cbn [fst snd]. split; [|apply VW]. unfold spec_value. apply (get_data_fold u v invq zero nan s b p N Hf HsN LN H3); [|rewrite <- WV; exact Hd].
      intros rows x E Hx. unfold get_data in E. rewrite f1 in E. apply bind_ok in E. destruct E as [rw [E E']]. injection E' as <-. destruct (get_array_rows u _ s b p rw E) as (_ & ar & Ea & Fa). destruct (Fa x Hx) as (row & Hrow & Hxr).
      unfold N. eapply Wd; [apply (wf_freq_in u W), Hs1|exact Ea|exact Hrow|exact Hxr].
    + specialize (TT (N / 2 - 1 - d)). rewrite flat_terms in TT. exact TT.
  - exact Hd.
  - intros b Hb. destruct (Hwt b Hb) as [Q|Q].
    + left. unfold wsum, spec_terms in *. rewrite !map_map in *. cbn [snd] in *. rewrite ENt.
      assert (Z : Rsum (map (fun t => spec_weight v false s p b t d) (if ta then seq 0 (ntimes u b) else [r])) = twice (Rsum (map (fun t => spec_weight u false s p b t 0) (if ta then seq 0 (ntimes u b) else [r])))).
      { generalize (if ta then seq 0 (ntimes u b) else [r]). induction l as [|t l IH]; cbn [map Rsum]; [unfold twice; lra|]. rewrite IH, VW. unfold twice. ring. }
      rewrite Z. assert (P : (0 < tiny)%R) by (unfold tiny; apply Rinv_0_lt_compat, IZR_lt; reflexivity). unfold twice. lra.
    + right. apply Forall_forall. intros pr Hpr. unfold spec_terms in Hpr. rewrite ENt in Hpr. apply in_map_iff in Hpr. destruct Hpr as (t & <- & Ht'). cbn [snd]. rewrite VW.
      rewrite Forall_forall in Q. specialize (Q (spec_value Power u s p b t 0, spec_weight u false s p b t 0)). cbn [snd] in Q. rewrite Q; [unfold twice; lra|]. unfold spec_terms. apply in_map_iff. exists t. split; [reflexivity|exact Ht'].
  - rewrite flat_terms. unfold wsum. rewrite map_map. cbn [snd].
    assert (EI : flat_map (fun b => map (fun t => (b, t)) (if ta then seq 0 (ntimes v b) else [r])) g = flat_map (fun b => map (fun t => (b, t)) (if ta then seq 0 (ntimes u b) else [r])) g).
    { apply flat_map_ext. intros b. rewrite ENt. reflexivity. }
    rewrite EI. specialize (TT 0). rewrite flat_terms in TT. unfold wsum in TT. rewrite map_map in TT. cbn [snd] in TT.
    assert (Z : forall l : list (Z * nat), Rsum (map (fun bt => spec_weight v false s p (fst bt) (snd bt) d) l) = twice (Rsum (map (fun bt => spec_weight u false s p (fst bt) (snd bt) 0) l))).
    { induction l as [|t l IH]; cbn [map Rsum]; [unfold twice; lra|]. rewrite IH, VW. unfold twice. ring. }
    rewrite Z. assert (P : (0 < tiny)%R) by (unfold tiny; apply Rinv_0_lt_compat, IZR_lt; reflexivity). unfold twice. lra.
Qed.
Print Assumptions average_fold_commute.

(** two baseline-pairs, two times, three delays *)
Definition fold_obj : uvp R :=
  mkuvp false 1 [0] [0; 0; 0] [0; 0; 0] [0; 1; 2]%R [(-1)%Q; 0%Q; 1%Q] [[1]]%R
    [11; 22; 11; 22]%Z [0; 0; 1; 1]%Q [0; 0; 1; 1]%Q [0; 0; 1; 1]%Q [0; 0; 1; 1]%Q [0; 0; 1; 1]%Q [0; 0; 1; 1]%Q
    [1; 2]%Z [0; 0]%R [505]%Z
    [(0, [[[1; 10; 3]]; [[2; 20; 6]]; [[3; 30; 9]]; [[4; 40; 12]]]%R)]
    [(0, [[[1]]; [[1]]; [[1]]; [[1]]]%R)]
    [(0, [[[1]]; [[1]]; [[2]]; [[1]]]%R)]
    [(0, [[[1]]; [[3]]; [[1]]; [[1]]]%R)]
    None None None [] [] [].
Lemma fold_obj_averageable : averageable fold_obj false.
Proof.
  unfold averageable. split; [|split; [|split; [|split; [|split]]]].
  - split; try reflexivity; try (cbn; tauto).
    + cbn. split; [reflexivity|]. intros r [<-|[]]; reflexivity.
    + intros d Hd. cbn in Hd. unfold shaped.
      destruct Hd as [<-|[<-|[<-|[<-|[]]]]]; intros s Hs; cbn in Hs; destruct Hs as [<-|[]];
      (eexists; split; [reflexivity|]; split; [reflexivity|]; cbn; intros r Hr; intuition (subst; reflexivity)).
  - intros s a r c Hs Ha Hr Hc. apply dget_single in Ha. subst a. cbn in Hs. destruct Hs as [<-|[]].
    cbn in Hr. destruct Hr as [<-|[<-|[<-|[<-|[]]]]]; cbn in Hc; destruct Hc as [<-|[]]; reflexivity.
  - intros f s a r c Hf Ha Hr Hc. destruct Hf as [-> | ->]; cbn in Ha; apply dget_single in Ha; subst a;
    cbn in Hr; destruct Hr as [<-|[<-|[<-|[<-|[]]]]]; cbn in Hc; destruct Hc as [<-|[]]; reflexivity.
  - discriminate.
  - repeat constructor. intros [].
  - apply stored_nonneg. intros s a r c x Ha Hr Hc Hx. cbn in Ha; apply dget_single in Ha; subst a;
    cbn in Hr; destruct Hr as [<-|[<-|[<-|[<-|[]]]]]; cbn in Hc; destruct Hc as [<-|[]]; cbn in Hx; destruct Hx as [<-|[]]; lra.
Qed.
Example average_fold_case : exists v v' u' w,
  fold_uvp halfsum halfsum 0%R 0%R twice fold_obj = Ok v /\ average_spectra v false (fun l => l) (fun _ => 0%Q) true true false [[11; 22]]%Z None = Ok v' /\
  average_spectra fold_obj false (fun l => l) (fun _ => 0%Q) true true false [[11; 22]]%Z None = Ok u' /\ fold_uvp halfsum halfsum 0%R 0%R twice u' = Ok w /\
  3 <= length (window_dlys fold_obj 0) /\ (tiny <= wsum (flat_map (spec_terms Power fold_obj true false 0 505 0 0) [11; 22]%Z))%R /\
  (forall b, In b [11; 22]%Z -> weighted (spec_terms Power fold_obj true false 0 505 0 0 b)).
Proof.
  pose proof fold_obj_averageable as A. pose proof A as (W & _).
  destruct (fold_total halfsum halfsum 0%R 0%R twice fold_obj W eq_refl) as [v Hv]. pose proof (fold_averageable fold_obj v halfsum 0%R 0%R A Hv) as Av.
  destruct (fold_parts _ _ _ _ _ fold_obj v Hv) as (_ & _ & _ & _ & _ & e).
  assert (T : forall o, averageable o false -> u_Nspws o = 1 -> u_spw_freq_array o = [0; 0; 0] -> u_spw_dly_array o = [0; 0; 0] -> u_blpair_array o = [11; 22; 11; 22]%Z ->
     exists u', average_spectra o false (fun l => l) (fun _ => 0%Q) true true false [[11; 22]]%Z None = Ok u').
  { intros o Ao E1 E2 E3 E4. apply C18_total; [exact Ao| | |discriminate| |].
    - intros s Hs. rewrite E1 in Hs. assert (s = 0) by lia. subst. rewrite E2, E3. cbn. tauto.
    - intro l. apply Permutation_refl.
    - intros g [<-|[]]. split; [discriminate|]. rewrite E4. cbn. tauto.
    - intros g [<-|[]]. left; reflexivity. }
  destruct (T v Av) as [v' Hv']; [rewrite e; reflexivity|rewrite e; reflexivity|rewrite e; reflexivity|rewrite e; reflexivity|].
  destruct (T fold_obj A) as [u' Hu]; try reflexivity.
  assert (Hw : exists w, fold_uvp halfsum halfsum 0%R 0%R twice u' = Ok w).
  { destruct (avg_unfold fold_obj true true false false (fun l => l) (fun _ => 0%Q) [[11; 22]]%Z None u' [([11; 22]%Z, [1; 1]%R)] eq_refl Hu) as (sp & M & _ & Q1 & _ & _ & _ & _ & Q3 & Q4 & _ & Q6).
    cbn in M. apply bind_ok in M. destruct M as [x [_ M]]. injection M as <-.
    assert (Q5 : u_stats u' = None).
    { unfold average_spectra in Hu. repeat (apply bind_ok in Hu; destruct Hu as [? [_ Hu]]). injection Hu as <-. reflexivity. }
    unfold fold_uvp. rewrite Q1, Q3, Q4, Q5, Q6. cbn. eexists. reflexivity. }
  destruct Hw as [w Hw]. exists v, v', u', w. split; [exact Hv|]. split; [exact Hv'|]. split; [exact Hu|]. split; [exact Hw|]. split; [cbn; lia|].
  assert (P : (tiny <= 1)%R). { unfold tiny. rewrite <- Rinv_1. apply Rinv_le_contravar; [lra|]. apply IZR_le. discriminate. }
  split; [cbn; unfold wsum; cbn; lra|].
  intros b [<-|[<-|[]]]; left; cbn; unfold wsum; cbn; lra.
Qed.
