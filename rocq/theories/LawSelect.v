(** Two selections in a row. *)
From Coq Require Import QArith Qabs Sorted Permutation.
From Verif Require Import PyDict.
From Verif Require Import Prelude ListLemmas UvpModel UvpSpec UvpProofs SelectProofs SelectMain SelectTotal LawModel LawProofs.
Open Scope nat_scope.

Lemma all_of_seq m n k : Forall (fun i => m <= i < m + n) k -> picks (map (fun i => i - m) k) (seq m n) k.
Proof.
  intros F. induction F as [|i k Hi F IH]; cbn; constructor; [|exact IH].
  rewrite (nth_error_nth' _ 0) by (rewrite seq_length; lia). f_equal. rewrite seq_nth by lia. lia.
Qed.
Lemma picks_of_seq n k : Forall (fun i => i < n) k -> picks k (seq 0 n) k.
Proof.
  intros F. rewrite <- (map_id k) at 1. rewrite (map_ext id (fun i => i - 0)) by (intros; unfold id; lia). apply all_of_seq.
  eapply Forall_impl; [|exact F]. cbn. intros; lia.
Qed.
Lemma picks_total {A} R (l : list A) : Forall (fun i => i < length l) R -> exists r, picks R l r.
Proof.
  intros F. induction F as [|i R Hi F [r IH]]; [exists []; constructor|].
  destruct (nth_error l i) as [x|] eqn:E; [|apply nth_error_None in E; lia]. exists (x :: r). constructor; assumption.
Qed.
Lemma where_true {A} (f : A -> bool) l : (forall x, f x = true) -> where_ (map f l) = seq 0 (length l).
Proof.
  intros H. apply sorted_ext; [apply where_sorted|apply seq_sorted|]. intros i. rewrite where_spec, in_seq. split.
  - intros E. pose proof (nth_error_Some (map f l) i) as N. rewrite map_length in N. split; [lia|]. apply N. congruence.
  - intros E. rewrite nth_error_map. destruct (nth_error l i) eqn:Ei; [cbn; rewrite H; reflexivity|apply nth_error_None in Ei; lia].
Qed.

Lemma F2_len {A B} (Q : A -> B -> Prop) l r : Forall2 Q l r -> length l = length r.
Proof. induction 1; cbn; congruence. Qed.

Section S.
Context {X : Type}.
Notation uvp := (uvp X).

Lemma spw_wanted_ext a c w : a_spws a = a_spws c -> spw_wanted a w = spw_wanted c w.
Proof. unfold spw_wanted. intros ->. reflexivity. Qed.
Lemma spw_kept_ext (u : uvp) a c : a_spws a = a_spws c -> spw_kept u a = spw_kept u c.
Proof. intros E. unfold spw_kept. apply filter_ext. intros w. apply spw_wanted_ext, E. Qed.
Lemma spw_kept_none (u : uvp) a : a_spws a = None -> spw_kept u a = u_spw_array u.
Proof. intros E. apply filter_all. intros w _. unfold spw_wanted. rewrite E. reflexivity. Qed.

(** a selection that names no windows leaves them alone *)
Record windows_kept (u u' : uvp) : Prop := {
  wk_N : u_Nspws u' = u_Nspws u;
  wk_arr : u_spw_array u' = u_spw_array u;
  wk_sf : u_spw_freq_array u' = u_spw_freq_array u;
  wk_f : u_freq_array u' = u_freq_array u;
  wk_sd : u_spw_dly_array u' = u_spw_dly_array u;
  wk_d : u_dly_array u' = u_dly_array u }.
Lemma map_rank_pairs {A} (u : uvp) (l : list nat) (v : list A) : wf u -> (forall x, In x l -> In x (u_spw_array u)) ->
  map (fun p => (rank (u_spw_array u) (fst p), snd p)) (combine l v) = combine l v.
Proof.
  intros W H. rewrite <- (map_id (combine l v)) at 2. apply map_ext_in. intros [x y] Hx. cbn. apply in_combine_l in Hx. rewrite rank_id; auto.
Qed.
Lemma spec_nospw (u : uvp) a u' R P : wf u -> select_spec u a u' R P -> a_spws a = None -> windows_kept u u'.
Proof.
  intros W S E. pose proof (spw_kept_none u a E) as K.
  pose proof (sp_N _ _ _ _ _ S) as HN. pose proof (sp_arr _ _ _ _ _ S) as HA. rewrite K in HN, HA.
  rewrite map_rank_id in HA by auto.
  pose proof (sp_freq _ _ _ _ _ S) as HF. pose proof (sp_dly _ _ _ _ _ S) as HD. rewrite K in HF, HD.
  rewrite filter_all in HF by (intros p _; unfold spw_wanted; rewrite E; reflexivity).
  rewrite filter_all in HD by (intros p _; unfold spw_wanted; rewrite E; destruct (negb _), (dly_positive _); reflexivity).
  rewrite map_rank_pairs in HF by (auto; apply W). rewrite map_rank_pairs in HD by (auto; apply W).
  apply combine_inj in HF; [|apply S|apply W]. apply combine_inj in HD; [|apply S|apply W].
  destruct HF, HD. constructor; try assumption. rewrite HN. rewrite (Permutation_length (wf_spw u W)). apply seq_length.
Qed.

Lemma dict_selected_fun k R P (d x y : list (nat * arr X)) : dict_selected k R P d x -> dict_selected k R P d y -> same_dict x y.
Proof.
  intros [H1 H2] [H3 H4] s.
  assert (G : forall x y, (forall w, In w k -> exists a a', dget Nat.eq_dec d w = Some a /\ dget Nat.eq_dec x (rank k w) = Some a' /\ sub_array R P a a') ->
     (forall s, dget Nat.eq_dec x s <> None -> exists w, In w k /\ s = rank k w) ->
     (forall w, In w k -> exists a a', dget Nat.eq_dec d w = Some a /\ dget Nat.eq_dec y (rank k w) = Some a' /\ sub_array R P a a') ->
     forall v, dget Nat.eq_dec x s = Some v -> dget Nat.eq_dec y s = Some v).
  { intros x0 y0 A1 A2 A3 v E. destruct (A2 s ltac:(congruence)) as [w [Hw ->]]. destruct (A1 w Hw) as (a & a' & B1 & B2 & B3).
    destruct (A3 w Hw) as (c & c' & D1 & D2 & D3). rewrite B1 in D1. injection D1 as <-. rewrite E in B2. injection B2 as <-.
    rewrite D2. f_equal. apply sub_array_sub2 in B3, D3. eapply sub2_fun; eassumption. }
  destruct (dget Nat.eq_dec x s) as [v|] eqn:Ex; [symmetry; eapply G; [exact H1|exact H2|exact H3|exact Ex]|].
  destruct (dget Nat.eq_dec y s) as [v|] eqn:Ey; [|reflexivity]. rewrite (G y x H3 H4 H1 v Ey) in Ex. discriminate.
Qed.

Lemma row_wanted_lt (u : uvp) a i : row_wanted u a i -> i < length (u_blpair_array u).
Proof. intros (b & t & l & H & _). apply nth_error_Some. congruence. Qed.

Section Two.
Variables (u u1 u2 : uvp) (a b c : select_args) (R1 P1 R2 P2 : list nat).
Hypothesis W : wf u.
Hypothesis C : conj_args a b c.
Hypothesis S1 : select_spec u a u1 R1 P1.
Hypothesis S2 : select_spec u1 b u2 R2 P2.
Let W1 : wf u1 := select_spec_wf u a u1 R1 P1 W S1.

Lemma comp_rows : exists R3, picks R2 R1 R3 /\ StronglySorted lt R3 /\ (forall i, In i R3 <-> row_wanted u c i).
Proof.
  pose proof (sp_rows _ _ _ _ _ S1) as G1. pose proof (sp_rows _ _ _ _ _ S2) as G2.
  assert (L1 : length (u_blpair_array u1) = length R1) by (eapply picks_length, G1).
  destruct (picks_total R2 R1) as [R3 H3].
  { rewrite <- L1. eapply picks_range, G2. }
  exists R3. split; [exact H3|]. split; [eapply comp_sorted; [apply S1|apply S2|exact H3]|].
  intros i. rewrite (picks_In _ _ _ i H3). split.
  - intros (j & Hj & Ej). apply (sp_R _ _ _ _ _ S2) in Hj. destruct Hj as [_ Hj].
    assert (Hi : In i R1) by (eapply nth_error_In; exact Ej). apply (sp_R _ _ _ _ _ S1) in Hi. destruct Hi as [_ Hi].
    apply row_wanted_ok in Hj. apply row_wanted_ok in Hi. apply row_wanted_ok.
    destruct Hi as (x & t & l & A1 & A2 & A3 & A4). destruct Hj as (x' & t' & l' & B1 & B2 & B3 & B4).
    rewrite (picks_nth _ _ _ j i (rp_bp _ _ _ G1) Ej) in B1. rewrite (picks_nth _ _ _ j i (rp_ta _ _ _ G1) Ej) in B2. rewrite (picks_nth _ _ _ j i (rp_la _ _ _ G1) Ej) in B3.
    assert (x' = x) by congruence. assert (t' = t) by congruence. assert (l' = l) by congruence. subst x' t' l'.
    exists x, t, l. split; [exact A1|]. split; [exact A2|]. split; [exact A3|]. apply (ca_row _ _ _ C). split; assumption.
  - intros Hc. apply row_wanted_ok in Hc. destruct Hc as (x & t & l & A1 & A2 & A3 & A4). apply (ca_row _ _ _ C) in A4. destruct A4 as [Aa Ab].
    assert (Hi : In i R1). { apply (sp_R _ _ _ _ _ S1). split; [apply nth_error_Some; congruence|]. apply row_wanted_ok. exists x, t, l. auto. }
    apply In_nth_error in Hi. destruct Hi as [j Ej]. exists j. split; [|exact Ej]. apply (sp_R _ _ _ _ _ S2).
    assert (Hw : row_wanted u1 b j).
    { apply row_wanted_ok. exists x, t, l. rewrite (picks_nth _ _ _ j i (rp_bp _ _ _ G1) Ej), (picks_nth _ _ _ j i (rp_ta _ _ _ G1) Ej), (picks_nth _ _ _ j i (rp_la _ _ _ G1) Ej). auto. }
    split; [eapply row_wanted_lt; exact Hw|exact Hw].
Qed.
Lemma comp_pols : exists P3, picks P2 P1 P3 /\ StronglySorted lt P3 /\ (forall k, In k P3 <-> pol_wanted u c k).
Proof.
  pose proof (sp_pols _ _ _ _ _ S1) as G1. pose proof (sp_pols _ _ _ _ _ S2) as G2.
  assert (L1 : length (u_polpair_array u1) = length P1) by (eapply picks_length, G1).
  destruct (picks_total P2 P1) as [P3 H3].
  { rewrite <- L1. eapply picks_range, G2. }
  exists P3. split; [exact H3|]. split; [eapply comp_sorted; [exact (sp_P_sorted _ _ _ _ _ S1)|exact (sp_P_sorted _ _ _ _ _ S2)|exact H3]|].
  intros i. rewrite (picks_In _ _ _ i H3). split.
  - intros (j & Hj & Ej). apply (sp_P _ _ _ _ _ S2) in Hj. destruct Hj as (p & Hp & Hj).
    assert (Hi : In i P1) by (eapply nth_error_In; exact Ej). apply (sp_P _ _ _ _ _ S1) in Hi. destruct Hi as (q & Hq & Hi).
    rewrite (picks_nth _ _ _ j i G1 Ej) in Hp. exists p. split; [exact Hp|]. apply (ca_pol _ _ _ C). split; [|exact Hj].
    assert (q = p) by congruence. subst q. exact Hi.
  - intros (p & Hp & Hc). apply (ca_pol _ _ _ C) in Hc. destruct Hc as [Ha Hb].
    assert (Hi : In i P1) by (apply (sp_P _ _ _ _ _ S1); exists p; split; assumption).
    apply In_nth_error in Hi. destruct Hi as [j Ej]. exists j. split; [|exact Ej]. apply (sp_P _ _ _ _ _ S2). exists p.
    rewrite (picks_nth _ _ _ j i G1 Ej). split; assumption.
Qed.

Lemma comp_dict R3 P3 (d d1 d2 : list (nat * arr X)) : picks R2 R1 R3 -> picks P2 P1 P3 ->
  dict_selected (spw_kept u a) R1 P1 d d1 -> dict_selected (spw_kept u1 b) R2 P2 d1 d2 -> dict_selected (spw_kept u c) R3 P3 d d2.
Proof.
  intros HR HP [H1 H2] [H3 H4].
  assert (SC : forall x y z : arr X, sub_array R1 P1 x y -> sub_array R2 P2 y z -> sub_array R3 P3 x z).
  { intros x y z A B. apply sub_array_sub2 in A, B. apply sub_array_sub2. eapply sub2_comp; eassumption. }
  destruct (ca_spw _ _ _ C) as [[Eb Ec]|[Ea Ec]].
  - rewrite (spw_kept_ext u c a Ec). rewrite (spw_kept_none u1 b Eb) in H3, H4.
    pose proof (sp_arr _ _ _ _ _ S1) as A1.
    assert (I : forall w, In w (spw_kept u a) -> In (rank (spw_kept u a) w) (u_spw_array u1)) by (intros w Hw; rewrite A1; apply in_map, Hw).
    split.
    + intros w Hw. destruct (H1 w Hw) as (x & y & D1 & D2 & D3). destruct (H3 _ (I w Hw)) as (y' & z & F1 & F2 & F3).
      rewrite (rank_id u1) in F2 by (auto; apply I, Hw). rewrite D2 in F1. injection F1 as <-. exists x, z. repeat split; try assumption. eapply SC; eassumption.
    + intros s Hs. destruct (H4 s Hs) as (w & Hw & ->). rewrite (rank_id u1) by auto. rewrite A1 in Hw. apply in_map_iff in Hw. destruct Hw as (v & <- & Hv). eauto.
  - rewrite (spw_kept_none u a Ea) in H1, H2. pose proof (spec_nospw _ _ _ _ _ W S1 Ea) as K.
    assert (E : spw_kept u1 b = spw_kept u c).
    { unfold spw_kept. rewrite (wk_arr _ _ K). apply filter_ext. intros w. apply spw_wanted_ext. symmetry. exact Ec. }
    rewrite E in H3, H4. split; [|exact H4]. intros w Hw. destruct (H3 w Hw) as (y & z & F1 & F2 & F3).
    assert (Hw' : In w (u_spw_array u)) by (apply filter_In in Hw; apply Hw). destruct (H1 w Hw') as (x & y' & D1 & D2 & D3).
    rewrite rank_id in D2 by auto. rewrite F1 in D2. injection D2 as <-. exists x, z. repeat split; try assumption. eapply SC; eassumption.
Qed.

(** both selections together satisfy the specification of the single one *)
Lemma comp_spec_rows R3 : picks R2 R1 R3 -> rows_picked R3 u u2.
Proof.
  intros H. destruct (sp_rows _ _ _ _ _ S1), (sp_rows _ _ _ _ _ S2). constructor; eapply picks_comp; eassumption.
Qed.
Lemma comp_windows : u_Nspws u2 = length (spw_kept u c) /\ u_spw_array u2 = map (rank (spw_kept u c)) (spw_kept u c) /\
  combine (u_spw_freq_array u2) (u_freq_array u2) = map (fun p => (rank (spw_kept u c) (fst p), snd p)) (filter (fun p => spw_wanted c (fst p)) (combine (u_spw_freq_array u) (u_freq_array u))) /\
  combine (u_spw_dly_array u2) (u_dly_array u2) = map (fun p => (rank (spw_kept u c) (fst p), snd p))
        (filter (fun p => spw_wanted c (fst p) && (negb (u_folded u) || dly_positive (snd p) || match a_spws c with None => true | Some _ => false end)) (combine (u_spw_dly_array u) (u_dly_array u))).
Proof.
  destruct (ca_spw _ _ _ C) as [[Eb Ec]|[Ea Ec]].
  - destruct (spec_nospw _ _ _ _ _ W1 S2 Eb) as [-> -> -> -> -> ->]. rewrite (spw_kept_ext u c a Ec). split; [apply S1|]. split; [apply S1|]. split.
    + rewrite (sp_freq _ _ _ _ _ S1). f_equal. apply filter_ext. intros p. apply spw_wanted_ext. auto.
    + rewrite (sp_dly _ _ _ _ _ S1), Ec. f_equal. apply filter_ext. intros p. f_equal. apply spw_wanted_ext. auto.
  - destruct (spec_nospw _ _ _ _ _ W S1 Ea) as [E1 E2 E3 E4 E5 E6].
    assert (E : spw_kept u1 b = spw_kept u c) by (unfold spw_kept; rewrite E2; apply filter_ext; intros w; apply spw_wanted_ext; auto).
    rewrite <- E. split; [apply S2|]. split; [apply S2|]. split.
    + rewrite (sp_freq _ _ _ _ _ S2), E3, E4. f_equal. apply filter_ext. intros p. apply spw_wanted_ext. auto.
    + rewrite (sp_dly _ _ _ _ _ S2), E5, E6, Ec. f_equal. apply filter_ext. intros p. f_equal; [apply spw_wanted_ext; auto|]. rewrite (sp_folded _ _ _ _ _ S1). reflexivity.
Qed.
Lemma comp_scalar P3 : picks P2 P1 P3 -> sub2 (where_ (map (spw_wanted c) (u_spw_array u))) P3 (u_scalar_array u) (u_scalar_array u2).
Proof.
  intros HP. pose proof (sp_scalar _ _ _ _ _ S1) as A. pose proof (sp_scalar _ _ _ _ _ S2) as B.
  change (sub2 (where_ (map (spw_wanted a) (u_spw_array u))) P1 (u_scalar_array u) (u_scalar_array u1)) in A.
  change (sub2 (where_ (map (spw_wanted b) (u_spw_array u1))) P2 (u_scalar_array u1) (u_scalar_array u2)) in B.
  eapply sub2_comp; [exact A|exact B| |exact HP].
  destruct (ca_spw _ _ _ C) as [[Eb Ec]|[Ea Ec]].
  - rewrite where_true by (intros w; unfold spw_wanted; rewrite Eb; reflexivity).
    assert (E : where_ (map (spw_wanted c) (u_spw_array u)) = where_ (map (spw_wanted a) (u_spw_array u))) by (f_equal; apply map_ext; intros w; apply spw_wanted_ext; auto).
    rewrite E. destruct A as [rows [A1 A2]].
    assert (L : length (u_spw_array u1) = length (where_ (map (spw_wanted a) (u_spw_array u)))).
    { rewrite <- (picks_length _ _ _ A1), (F2_len _ _ _ A2). symmetry. apply W1. }
    rewrite L. apply picks_seq.
  - rewrite (where_true (spw_wanted a)) by (intros w; unfold spw_wanted; rewrite Ea; reflexivity).
    destruct (spec_nospw _ _ _ _ _ W S1 Ea) as [_ E2 _ _ _ _]. rewrite E2.
    assert (E : where_ (map (spw_wanted c) (u_spw_array u)) = where_ (map (spw_wanted b) (u_spw_array u))) by (f_equal; apply map_ext; intros w; apply spw_wanted_ext; auto).
    rewrite E. apply picks_of_seq. rewrite <- (map_length (spw_wanted b) (u_spw_array u)). apply where_range.
Qed.
Lemma comp_omega P3 : picks P2 P1 P3 -> Forall2 (fun r r' => picks P3 r r') (u_OmegaP u) (u_OmegaP u2).
Proof.
  intros HP. pose proof (sp_omega _ _ _ _ _ S1) as A. pose proof (sp_omega _ _ _ _ _ S2) as B. revert A B. generalize (u_OmegaP u2). generalize (u_OmegaP u1).
  intros l1 l2 A. revert l2. induction A as [|x y l l1 H A IH]; intros l2 B; inversion B; subst; constructor; [eapply picks_comp; eassumption|apply IH; assumption].
Qed.
End Two.

Lemma no_row_dec a : no_row_args a \/ ~ no_row_args a.
Proof.
  unfold no_row_args. destruct (a_bls a); [right; intros (?&?&?&?); discriminate|]. destruct (a_blpairs a); [right; intros (?&?&?&?); discriminate|].
  destruct (a_times a); [right; intros (?&?&?&?); discriminate|]. destruct (a_lsts a); [right; intros (?&?&?&?); discriminate|]. left. auto.
Qed.
Lemma row_wanted_none (u : uvp) a i : wf u -> no_row_args a -> i < length (u_blpair_array u) -> row_wanted u a i.
Proof.
  intros W (N1 & N2 & N3 & N4) L.
  destruct (nth_error (u_blpair_array u) i) as [b|] eqn:E1; [|apply nth_error_None in E1; lia].
  destruct (nth_error (u_time_avg_array u) i) as [t|] eqn:E2; [|apply nth_error_None in E2; rewrite (wf_ta u W) in E2; lia].
  destruct (nth_error (u_lst_avg_array u) i) as [l|] eqn:E3; [|apply nth_error_None in E3; rewrite (wf_la u W) in E3; lia].
  exists b, t, l. split; [exact E1|]. split; [exact E2|]. split; [exact E3|]. split; [left; auto|]. split; intros ts Q; congruence.
Qed.
Lemma spec_norow (u : uvp) a u' R P : wf u -> select_spec u a u' R P -> no_row_args a -> u_blpair_array u' = u_blpair_array u.
Proof.
  intros W S N. assert (E : R = seq 0 (length (u_blpair_array u))).
  { apply sorted_ext; [apply S|apply seq_sorted|]. intros i. rewrite (sp_R _ _ _ _ _ S), in_seq. split; [intros [L _]; lia|intros [_ L]; split; [lia|apply row_wanted_none; auto; lia]]. }
  eapply picks_fun; [apply (rp_bp _ _ _ (sp_rows _ _ _ _ _ S))|]. rewrite E. apply picks_seq.
Qed.
Lemma filter_filter' {A} (f g : A -> bool) l : filter f (filter g l) = filter (fun x => f x && g x) l.
Proof. induction l as [|x l IH]; cbn; [reflexivity|]. destruct (g x) eqn:G; cbn; destruct (f x) eqn:F; cbn; rewrite ?IH; reflexivity. Qed.

(** the single selection is possible when both are *)
Lemma comp_valid (u u1 u2 : uvp) a b c : wf u -> conj_args a b c -> select u a = Ok u1 -> select u1 b = Ok u2 ->
  a_bls c <> Some [] -> a_blpairs c <> Some [] -> (a_times c = None \/ a_lsts c = None) -> (a_polpairs c = None <-> a_polpairs a = None /\ a_polpairs b = None) ->
  exists u3, select u c = Ok u3.
Proof.
  intros W C H1 H2 N1 N2 N3 N4. destruct (select_correct u a u1 W H1) as (R1 & P1 & S1). pose proof (select_wf u a u1 W H1) as W1.
  destruct (select_correct u1 b u2 W1 H2) as (R2 & P2 & S2). apply select_ok_iff; [exact W|].
  assert (V1 : valid_args u a) by (apply select_ok_iff; eauto). assert (V2 : valid_args u1 b) by (apply select_ok_iff; eauto).
  constructor; try assumption.
  - intros spws E s Hs. destruct (ca_spw _ _ _ C) as [[Eb Ec]|[Ea Ec]].
    + apply (va_spws _ _ V1 spws); [congruence|exact Hs].
    + destruct (spec_nospw _ _ _ _ _ W S1 Ea) as [_ _ E3 _ E5 _]. rewrite <- E3, <- E5. apply (va_spws _ _ V2 spws); [congruence|exact Hs].
  - destruct (no_row_dec c) as [Nc|Nc]; [left; exact Nc|right].
    destruct (comp_rows u u1 u2 a b c R1 P1 R2 P2 C S1 S2) as (R3 & A1 & A2 & A3).
    assert (NE : R2 <> []).
    { destruct (no_row_dec b) as [Nb|Nb]; [|apply (sp_R_ne _ _ _ _ _ S2 Nb)].
      assert (Na : ~ no_row_args a) by (intros Na; apply Nc, (ca_none _ _ _ C); split; assumption).
      pose proof (sp_R_ne _ _ _ _ _ S1 Na) as NE. destruct R1 as [|i R1]; [congruence|].
      assert (I : In 0 R2); [|intros E; rewrite E in I; exact I].
      pose proof (rp_bp _ _ _ (sp_rows _ _ _ _ _ S1)) as L. apply picks_length in L. cbn in L.
      apply (sp_R _ _ _ _ _ S2). split; [lia|]. apply row_wanted_none; [exact W1|exact Nb|lia]. }
    destruct R2 as [|j R2]; [congruence|]. inversion A1 as [|? x0 ? ? ? ? Q1 Q2]; subst. exists x0. apply A3. left. reflexivity.
  - destruct (a_polpairs c) as [pl|] eqn:Qc; [right|left; reflexivity].
    destruct (comp_pols u u1 u2 a b c R1 P1 R2 P2 C S1 S2) as (P3 & A1 & A2 & A3).
    assert (NE : P2 <> []).
    { destruct (a_polpairs b) as [pb|] eqn:Qb; [apply (sp_P_ne _ _ _ _ _ S2); congruence|].
      assert (Na : a_polpairs a <> None) by (intros Na; destruct N4 as [_ N4]; discriminate (N4 (conj Na eq_refl))).
      pose proof (sp_P_ne _ _ _ _ _ S1 Na) as NE. destruct P1 as [|i P1]; [congruence|].
      assert (I : In 0 P2); [|intros E; rewrite E in I; exact I].
      pose proof (sp_pols _ _ _ _ _ S1) as L. apply picks_length in L. cbn in L.
      apply (sp_P _ _ _ _ _ S2). destruct (u_polpair_array u1) as [|p q] eqn:Q; [discriminate|]. exists p. rewrite Q, Qb. split; [reflexivity|exact I]. }
    destruct P2 as [|j P2]; [congruence|]. inversion A1 as [|? x0 ? ? ? ? Q1 Q2]; subst. exists x0. apply A3. left. reflexivity.
Qed.

(** two selections in a row are the single one *)
Lemma two_is_one (u u1 u2 u3 : uvp) a b c : wf u -> conj_args a b c -> select u a = Ok u1 -> select u1 b = Ok u2 -> select u c = Ok u3 -> same_object u2 u3.
Proof.
  intros W C H1 H2 H3.
  destruct (select_correct u a u1 W H1) as (R1 & P1 & S1). pose proof (select_wf u a u1 W H1) as W1.
  destruct (select_correct u1 b u2 W1 H2) as (R2 & P2 & S2). pose proof (select_wf u1 b u2 W1 H2) as W2.
  destruct (select_correct u c u3 W H3) as (R & P & S3). pose proof (select_wf u c u3 W H3) as W3.
  destruct (comp_rows u u1 u2 a b c R1 P1 R2 P2 C S1 S2) as (R' & A1 & A2 & A3).
  destruct (comp_pols u u1 u2 a b c R1 P1 R2 P2 C S1 S2) as (P' & B1 & B2 & B3).
  assert (R' = R). { apply sorted_ext; [exact A2|apply S3|]. intros i. rewrite A3, (sp_R _ _ _ _ _ S3). split; [intros H; split; [eapply row_wanted_lt; exact H|exact H]|tauto]. }
  assert (P' = P). { apply sorted_ext; [exact B2|apply S3|]. intros i. rewrite B3, (sp_P _ _ _ _ _ S3). tauto. }
  subst R' P'. clear A2 A3 B2 B3.
  pose proof (comp_spec_rows u u1 u2 a b R1 P1 R2 P2 S1 S2 R A1) as [r1 r2 r3 r4 r5 r6 r7]. destruct (sp_rows _ _ _ _ _ S3) as [s1 s2 s3 s4 s5 s6 s7].
  destruct (comp_windows u u1 u2 a b c R1 P1 R2 P2 W C S1 S2) as (w1 & w2 & w3 & w4).
  rewrite <- (sp_freq _ _ _ _ _ S3) in w3. rewrite <- (sp_dly _ _ _ _ _ S3) in w4.
  apply combine_inj in w3; [|apply W2|apply W3]. apply combine_inj in w4; [|apply W2|apply W3]. destruct w3 as [w3 w3']. destruct w4 as [w4 w4'].
  pose proof (comp_scalar u u1 u2 a b c R1 P1 R2 P2 W C S1 S2 P B1) as sc. pose proof (comp_omega u u1 u2 a b R1 P1 R2 P2 S1 S2 P B1) as om.
  assert (BP : u_blpair_array u2 = u_blpair_array u3) by (eapply picks_fun; eassumption).
  assert (PICK : Forall2 (dict_selected (spw_kept u c) R P) (dicts u) (dicts u2)).
  { pose proof (sp_dicts _ _ _ _ _ S1) as D1. pose proof (sp_dicts _ _ _ _ _ S2) as D2. revert D1 D2. generalize (dicts u2) (dicts u1) (dicts u).
    intros l2 l1 l D1. revert l2. induction D1 as [|x y l l1 H D1 IH]; intros l2 D2; inversion D2; subst; constructor; [|apply IH; assumption].
    eapply comp_dict; eassumption. }
  pose proof (sp_dicts _ _ _ _ _ S3) as D3.
  assert (SD : Forall2 same_dict (dicts u2) (dicts u3)).
  { revert PICK D3. generalize (dicts u3) (dicts u2) (dicts u). intros l3 l2 l D1. revert l3. induction D1 as [|x y l l2 H D1 IH]; intros l3 D2; inversion D2; subst; constructor; [|apply IH; assumption].
    eapply dict_selected_fun; eassumption. }
  destruct (select_shapes u a u1 W H1) as (c1 & c2 & c3). destruct (select_shapes u1 b u2 W1 H2) as (d1 & d2 & d3). destruct (select_shapes u c u3 W H3) as (e1 & e2 & e3).
  assert (TR : forall x y z v : option (list (nat * arr X)), same_shape x y -> same_shape y z -> same_shape x v -> same_shape z v) by (intros [|] [|] [|] [|]; cbn; tauto).
  pose proof (TR _ _ _ _ c1 d1 e1) as f1. pose proof (TR _ _ _ _ c2 d2 e2) as f2. pose proof (TR _ _ _ _ c3 d3 e3) as f3.
  apply dicts_split in SD; [|exact f1|exact f2|exact f3].
  destruct SD as (g1 & g2 & g3 & g4 & g5 & g6 & g7).
  assert (OP : forall x y : option (list (nat * arr X)), same_shape x y -> (forall p q, x = Some p -> y = Some q -> same_dict p q) -> same_opt x y) by (intros [|] [|]; cbn; auto).
  assert (BL : combine (u_bl_array u2) (u_bl_vecs u2) = combine (u_bl_array u3) (u_bl_vecs u3)).
  { destruct (select_bl_vecs u a u1 W H1) as [(na & ba & va)|(na & ba)]; destruct (select_bl_vecs u1 b u2 W1 H2) as [(nb & bb & vb)|(nb & bb)];
    destruct (select_bl_vecs u c u3 W H3) as [(nc & bc & vc)|(nc & bc)]; pose proof (ca_none _ _ _ C) as N; try tauto.
    - rewrite bb, vb, bc, vc, ba, va. reflexivity.
    - rewrite bb, bc, ba, va, BP. reflexivity.
    - rewrite bb, vb, bc, ba. rewrite <- BP. rewrite (spec_norow u1 b u2 R2 P2 W1 S2 nb). reflexivity.
    - rewrite bb, bc, ba, filter_filter', <- BP. apply filter_ext. intros x.
      destruct (existsb _ (u_blpair_array u2)) eqn:E2; [|reflexivity]. cbn.
      apply existsb_exists in E2. destruct E2 as (y & Hy & E2). apply existsb_exists. exists y. split; [|exact E2].
      apply (picks_In _ _ _ _ (rp_bp _ _ _ (sp_rows _ _ _ _ _ S2))) in Hy. destruct Hy as (j & _ & Hj). eapply nth_error_In; exact Hj. }
  apply combine_inj in BL; [|apply W2|apply W3]. destruct BL as [BL BV].
  constructor; try assumption; try (eapply picks_fun; eassumption); try (apply OP; assumption).
  - rewrite (sp_folded _ _ _ _ _ S2), (sp_folded _ _ _ _ _ S1), (sp_folded _ _ _ _ _ S3). reflexivity.
  - rewrite w1. symmetry. apply S3.
  - rewrite w2. symmetry. apply S3.
  - eapply sub2_fun; [exact sc|]. exact (sp_scalar _ _ _ _ _ S3).
  - apply picks_fun with (idx := P) (l := u_polpair_array u); [|apply S3]. eapply picks_comp; [apply S1|apply S2|exact B1].
  - rewrite (sp_label1 _ _ _ _ _ S2), (sp_label1 _ _ _ _ _ S1), (sp_label1 _ _ _ _ _ S3). reflexivity.
  - rewrite (sp_label2 _ _ _ _ _ S2), (sp_label2 _ _ _ _ _ S1), (sp_label2 _ _ _ _ _ S3). reflexivity.
  - pose proof (sp_omega _ _ _ _ _ S3) as om'. revert om om'. generalize (u_OmegaP u3) (u_OmegaP u2) (u_OmegaP u). intros l3 l2 l D1. revert l3.
    induction D1 as [|x y l l2 H D1 IH]; intros l3 D2; inversion D2; subst; [reflexivity|]. f_equal; [eapply picks_fun; eassumption|apply IH; assumption].
Qed.
End S.
