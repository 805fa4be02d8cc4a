(** Selecting and folding. *)
From Coq Require Import QArith Qabs Sorted Permutation.
From Verif Require Import PyDict.
From Verif Require Import Prelude ListLemmas UvpModel UvpSpec UvpProofs SelectProofs SelectMain SelectTotal FoldModel FoldProofs LengthProofs LawModel LawProofs LawSelect.
Open Scope nat_scope.

Lemma picks_map2 {A B} (g : A -> B) R (l r : list A) : picks R l r -> picks R (map g l) (map g r).
Proof. apply picks_map. Qed.
Lemma sub2_map {A B} (g : A -> B) R P (a a' : list (list A)) : sub2 R P a a' -> sub2 R P (map (map g) a) (map (map g) a').
Proof.
  intros [rows [H1 H2]]. exists (map (map g) rows). split; [apply picks_map, H1|]. clear H1. induction H2 as [|x y l l1 H H2 IH]; cbn; constructor; [apply picks_map; assumption|assumption].
Qed.

Section S.
Context {X : Type}.
Notation uvp := (uvp X).

(** a change of the contents of the cells of every window, and a selection *)
Lemma dict_selected_update g n n' k R P (d e d1 e1 : list (nat * arr X)) :
  (forall w, In w k -> w < n) -> n' = length k -> NoDup k ->
  update_all (map (map g)) (seq 0 n) d = Ok e -> dict_selected k R P d d1 -> update_all (map (map g)) (seq 0 n') d1 = Ok e1 -> dict_selected k R P e e1.
Proof.
  intros Hk -> ND U [D1 D2] U1. destruct (update_all_spec _ _ _ _ (seq_NoDup n 0) U) as [A1 A2]. destruct (update_all_spec _ _ _ _ (seq_NoDup (length k) 0) U1) as [B1 B2].
  split.
  - intros w Hw. destruct (D1 w Hw) as (x & y & E1 & E2 & E3).
    destruct (A1 w) as (x' & F1 & F2); [apply in_seq; specialize (Hk w Hw); lia|]. rewrite E1 in F1. injection F1 as <-.
    destruct (B1 (rank k w)) as (y' & G1 & G2); [apply in_seq; pose proof (rank_bound k w Hw); lia|]. rewrite E2 in G1. injection G1 as <-.
    exists (map (map g) x), (map (map g) y). split; [exact F2|]. split; [exact G2|]. apply sub_array_sub2, sub2_map, sub_array_sub2, E3.
  - intros s Hs. apply D2. destruct (in_dec Nat.eq_dec s (seq 0 (length k))) as [I|I].
    + destruct (B1 s I) as (y & G1 & G2). congruence.
    + rewrite <- (B2 s I). exact Hs.
Qed.

Variables (mean invquad : X -> X -> X) (zero nan : X) (double : X -> X).
Notation fold_uvp := (fold_uvp mean invquad zero nan double).

Lemma fold_parts (u v : uvp) : fold_uvp u = Ok v ->
  u_folded u = false /\ u_folded v = true /\
  update_all (map (map (fold_spectrum mean (match u_stats u with Some _ => nan | None => zero end)))) (seq 0 (u_Nspws u)) (u_data u) = Ok (u_data v) /\
  update_all (map (map (map double))) (seq 0 (u_Nspws u)) (u_nsample u) = Ok (u_nsample v) /\
  match u_stats u with None => u_stats v = None | Some st => exists st', u_stats v = Some st' /\ update_all (map (map (fold_stat invquad))) (seq 0 (u_Nspws u)) st = Ok st' end /\
  v = mkuvp true (u_Nspws u) (u_spw_array u) (u_spw_freq_array u)
        (u_spw_dly_array u) (u_freq_array u) (u_dly_array u) (u_scalar_array u)
        (u_blpair_array u) (u_time_1_array u) (u_time_2_array u) (u_time_avg_array u)
        (u_lst_1_array u) (u_lst_2_array u) (u_lst_avg_array u) (u_bl_array u)
        (u_bl_vecs u) (u_polpair_array u) (u_data v) (u_wgt u) (u_integration u) (u_nsample v) (u_cov u)
        (u_window u) (u_stats v) (u_label_1_array u) (u_label_2_array u) (u_OmegaP u).
Proof.
  intros H. unfold FoldModel.fold_uvp in H. apply require_ok in H. destruct H as [F H]. apply negb_true_iff in F.
  apply bind_ok in H. destruct H as [da [Hda H]]. apply bind_ok in H. destruct H as [nsm [Hns H]]. apply bind_ok in H. destruct H as [st [Hst H]].
  injection H as <-. cbn. repeat split; try assumption. destruct (u_stats u); [|injection Hst as <-; reflexivity].
  apply bind_ok in Hst. destruct Hst as [st' [E Hst]]. injection Hst as <-. eauto.
Qed.

Lemma fold_wf (u v : uvp) : wf u -> fold_uvp u = Ok v -> wf v.
Proof. intros W H. apply (fold_correct mean invquad zero nan double u v H). exact W. Qed.

Lemma fold_select (u v u1 u2 v2 : uvp) a : wf u -> u_cov u = None -> u_window u = None -> a_spws a = None ->
  select u a = Ok u1 -> fold_uvp u1 = Ok u2 -> fold_uvp u = Ok v -> select v a = Ok v2 -> same_object u2 v2.
Proof.
  intros W N1 N2 Na H1 H2 H3 H4. pose proof (select_wf u a u1 W H1) as W1. pose proof (fold_wf u v W H3) as Wv. pose proof (select_wf v a v2 Wv H4) as W2.
  destruct (select_correct u a u1 W H1) as (R & P & S). destruct (select_correct v a v2 Wv H4) as (R' & P' & S').
  destruct (fold_parts u1 u2 H2) as (f1 & f1' & d1 & n1 & s1 & e1). destruct (fold_parts u v H3) as (f2 & f2' & d2 & n2 & s2 & e2).
  assert (EB : u_blpair_array v = u_blpair_array u) by (rewrite e2; reflexivity).
  assert (R' = R).
  { apply sorted_ext; [apply S'|apply S|]. intros i. rewrite (sp_R _ _ _ _ _ S'), (sp_R _ _ _ _ _ S), EB.
    unfold row_wanted. rewrite e2. cbn. reflexivity. }
  assert (P' = P).
  { apply sorted_ext; [exact (sp_P_sorted _ _ _ _ _ S')|exact (sp_P_sorted _ _ _ _ _ S)|]. intros i. rewrite (sp_P _ _ _ _ _ S'), (sp_P _ _ _ _ _ S).
    unfold pol_wanted. rewrite e2. cbn. reflexivity. }
  subst R' P'.
  destruct (spec_nospw _ _ _ _ _ W S Na) as [k1 k2 k3 k4 k5 k6]. destruct (spec_nospw _ _ _ _ _ Wv S' Na) as [l1 l2 l3 l4 l5 l6].
  assert (EK : spw_kept v a = spw_kept u a) by (rewrite e2; reflexivity).
  pose proof (sp_dicts _ _ _ _ _ S) as D. pose proof (sp_dicts _ _ _ _ _ S') as D'. rewrite EK in D'.
  destruct (select_shapes u a u1 W H1) as (c1 & c2 & c3). destruct (select_shapes v a v2 Wv H4) as (c4 & c5 & c6).
  apply dicts_split in D; [|assumption..]. apply dicts_split in D'; [|assumption..].
  destruct D as (g1 & g2 & g3 & g4 & g5 & g6 & g7). destruct D' as (h1 & h2 & h3 & h4 & h5 & h6 & h7).
  assert (HK : forall w, In w (spw_kept u a) -> w < u_Nspws u).
  { intros w Hw. apply filter_In in Hw. destruct Hw as [Hw _]. apply (Permutation_in _ (wf_spw u W)), in_seq in Hw. lia. }
  assert (NK : NoDup (spw_kept u a)) by (apply NoDup_filter, wf_NoDup, W).
  assert (ST : (match u_stats u1 with Some _ => nan | None => zero end) = match u_stats u with Some _ => nan | None => zero end).
  { destruct (u_stats u), (u_stats u1); cbn in c3; try contradiction; reflexivity. }
  rewrite ST in d1.
  destruct (sp_rows _ _ _ _ _ S) as [r1 r2 r3 r4 r5 r6 r7]. destruct (sp_rows _ _ _ _ _ S') as [q1 q2 q3 q4 q5 q6 q7].
  pose proof (sp_scalar _ _ _ _ _ S) as sc. pose proof (sp_scalar _ _ _ _ _ S') as sc'.
  pose proof (sp_omega _ _ _ _ _ S) as om. pose proof (sp_omega _ _ _ _ _ S') as om'.
  pose proof (sp_pols _ _ _ _ _ S) as po. pose proof (sp_pols _ _ _ _ _ S') as po'.
  pose proof (sp_label1 _ _ _ _ _ S) as la. pose proof (sp_label1 _ _ _ _ _ S') as la'. pose proof (sp_label2 _ _ _ _ _ S) as lb. pose proof (sp_label2 _ _ _ _ _ S') as lb'.
  pose proof (sp_folded _ _ _ _ _ S') as fo.
  assert (BP : u_blpair_array v2 = u_blpair_array u1). { eapply picks_fun; [exact q1|]. rewrite EB. exact r1. }
  assert (BL : combine (u_bl_array v2) (u_bl_vecs v2) = combine (u_bl_array u1) (u_bl_vecs u1)).
  { destruct (select_bl_vecs u a u1 W H1) as [(na & ba & va)|(na & ba)]; destruct (select_bl_vecs v a v2 Wv H4) as [(nb & bb & vb)|(nb & bb)]; try tauto.
    - rewrite ba, va, bb, vb, e2. reflexivity.
    - rewrite ba, bb, BP, e2. reflexivity. }
  apply combine_inj in BL; [|apply W2|apply W1]. destruct BL as [BL BV].
  assert (EO : u_OmegaP v2 = u_OmegaP u1).
  { assert (EOm : u_OmegaP v = u_OmegaP u) by (rewrite e2; reflexivity). rewrite EOm in om'. clear -om om'. revert om om'. generalize (u_OmegaP u1) (u_OmegaP v2) (u_OmegaP u). intros x y l A. revert y.
    induction A as [|m n l x H A IH]; intros y B; inversion B; subst; [reflexivity|]. f_equal; [eapply picks_fun; eassumption|apply IH; assumption]. }
  pose proof (sp_N _ _ _ _ _ S) as EN.
  assert (DD : same_dict (u_data u2) (u_data v2)).
  { eapply dict_selected_fun; [|exact h1]. exact (dict_selected_update _ (u_Nspws u) (u_Nspws u1) _ R P (u_data u) (u_data v) (u_data u1) (u_data u2) HK EN NK d2 g1 d1). }
  assert (NN : same_dict (u_nsample u2) (u_nsample v2)).
  { eapply dict_selected_fun; [|exact h4]. exact (dict_selected_update _ (u_Nspws u) (u_Nspws u1) _ R P (u_nsample u) (u_nsample v) (u_nsample u1) (u_nsample u2) HK EN NK n2 g4 n1). }
  assert (WW : same_dict (u_wgt u2) (u_wgt v2)).
  { assert (E1 : u_wgt u2 = u_wgt u1) by (rewrite e1; reflexivity). assert (E2 : u_wgt v = u_wgt u) by (rewrite e2; reflexivity). rewrite E1. rewrite E2 in h2. eapply dict_selected_fun; eassumption. }
  assert (II : same_dict (u_integration u2) (u_integration v2)).
  { assert (E1 : u_integration u2 = u_integration u1) by (rewrite e1; reflexivity). assert (E2 : u_integration v = u_integration u) by (rewrite e2; reflexivity). rewrite E1. rewrite E2 in h3. eapply dict_selected_fun; eassumption. }
  assert (CC : same_opt (u_cov u2) (u_cov v2)).
  { assert (E1 : u_cov u2 = u_cov u1) by (rewrite e1; reflexivity). assert (E2 : u_cov v = u_cov u) by (rewrite e2; reflexivity). rewrite E1. rewrite N1 in *. rewrite E2 in c4.
    destruct (u_cov u1), (u_cov v2); cbn in *; tauto. }
  assert (VV : same_opt (u_window u2) (u_window v2)).
  { assert (E1 : u_window u2 = u_window u1) by (rewrite e1; reflexivity). assert (E2 : u_window v = u_window u) by (rewrite e2; reflexivity). rewrite E1. rewrite N2 in *. rewrite E2 in c5.
    destruct (u_window u1), (u_window v2); cbn in *; tauto. }
  assert (SS : same_opt (u_stats u2) (u_stats v2)).
  { destruct (u_stats u) as [st|] eqn:Q1; destruct (u_stats u1) as [st1|] eqn:Q2; cbn in c3; try contradiction.
    - destruct s2 as (st' & E1 & U1). destruct s1 as (st1' & E2 & U2). rewrite E2. rewrite E1 in c6. destruct (u_stats v2) as [z|] eqn:Q3; [|contradiction]. cbn.
      eapply dict_selected_fun; [|exact (h7 _ _ E1 eq_refl)].
      exact (dict_selected_update _ (u_Nspws u) (u_Nspws u1) _ R P st st' st1 st1' HK EN NK U1 (g7 _ _ eq_refl eq_refl) U2).
    - rewrite s1. rewrite s2 in c6. destruct (u_stats v2); cbn in *; tauto. }
  constructor; try assumption.
  - rewrite f1'. rewrite fo. congruence.
  - rewrite e1. cbn. rewrite l1, e2. cbn. exact k1.
  - rewrite e1. cbn. rewrite l2, e2. cbn. exact k2.
  - rewrite e1. cbn. rewrite l3, e2. cbn. exact k3.
  - rewrite e1. cbn. rewrite l5, e2. cbn. exact k5.
  - rewrite e1. cbn. rewrite l4, e2. cbn. exact k4.
  - rewrite e1. cbn. rewrite l6, e2. cbn. exact k6.
  - rewrite e1. cbn. eapply sub2_fun; [exact sc|]. rewrite e2 in sc'. exact sc'.
  - rewrite e1. cbn. symmetry. exact BP.
  - rewrite e1. cbn. eapply picks_fun; [exact r2|]. rewrite e2 in q2. exact q2.
  - rewrite e1. cbn. eapply picks_fun; [exact r3|]. rewrite e2 in q3. exact q3.
  - rewrite e1. cbn. eapply picks_fun; [exact r4|]. rewrite e2 in q4. exact q4.
  - rewrite e1. cbn. eapply picks_fun; [exact r5|]. rewrite e2 in q5. exact q5.
  - rewrite e1. cbn. eapply picks_fun; [exact r6|]. rewrite e2 in q6. exact q6.
  - rewrite e1. cbn. eapply picks_fun; [exact r7|]. rewrite e2 in q7. exact q7.
  - rewrite e1. cbn. symmetry. exact BL.
  - rewrite e1. cbn. symmetry. exact BV.
  - rewrite e1. cbn. eapply picks_fun; [exact po|]. rewrite e2 in po'. exact po'.
  - rewrite e1. cbn. rewrite la', e2. cbn. exact la.
  - rewrite e1. cbn. rewrite lb', e2. cbn. exact lb.
  - rewrite e1. cbn. symmetry. exact EO.
Qed.
End S.
