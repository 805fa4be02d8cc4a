From Coq Require Import QArith Qabs Sorted Permutation.
From Verif Require Import PyDict.
From Verif Require Import Prelude ListLemmas UvpModel UvpSpec UvpProofs SelectProofs SelectMain.
Open Scope nat_scope.

Section S.
Context {X : Type}.
Notation uvp := (uvp X).

Lemma forallb_memN l ss : forallb (fun s => memN s l) ss = true <-> forall s, In s ss -> In s l.
Proof.
  rewrite forallb_forall. split; intros H s Hs; specialize (H s Hs); [apply memN_In | apply memN_In]; exact H.
Qed.

Lemma where_bound {A} (m : list bool) (l : list A) : length m = length l -> exists r, gather l (where_ m) = Ok r.
Proof. intros L. rewrite gather_mask by exact L. eauto. Qed.

Lemma select_spws_ok (u : uvp) spws : wf u ->
  (exists r, select_spws u spws = Ok r) <->
  (forall s, In s spws -> In s (u_spw_freq_array u) /\ In s (u_spw_dly_array u)).
Proof.
  intros W. split.
  - intros [r H]. unfold select_spws, spw_to_freq_indices, spw_to_dly_indices in H.
    apply bind_ok in H; destruct H as [fi [Hfi H]]. apply require_ok in Hfi. destruct Hfi as [A1 _].
    apply bind_ok in H; destruct H as [di [Hdi H]]. apply require_ok in Hdi. destruct Hdi as [A2 _].
    intros s Hs. split; [apply (proj1 (forallb_memN _ _) A1 s Hs) | apply (proj1 (forallb_memN _ _) A2 s Hs)].
  - intros H. unfold select_spws, spw_to_freq_indices, spw_to_dly_indices, spw_indices.
    assert (B1 : forallb (fun s => memN s (u_spw_freq_array u)) spws = true) by (apply forallb_memN; intros; apply H; assumption).
    assert (B2 : forallb (fun s => memN s (u_spw_dly_array u)) spws = true) by (apply forallb_memN; intros; apply H; assumption).
    assert (B3 : forallb (fun s => memN s (u_spw_array u)) spws = true).
    { apply forallb_memN; intros s Hs. apply (wf_freq_in u W). apply H; exact Hs. }
    rewrite B1, B2, B3. cbn [require bind].
    set (md := if u_folded u then _ else _).
    assert (Lmd : length md = length (u_spw_dly_array u)).
    { pose proof (wf_dly u W) as Ld. unfold md, or_maskN. destruct (u_folded u).
      - rewrite map2_length by (rewrite map_length; lia). exact Ld.
      - apply map_length. }
    rewrite gather_mask by (unfold or_maskN; apply map_length). cbn [bind].
    rewrite gather_mask by exact Lmd. cbn [bind].
    rewrite gather_mask by (unfold or_maskN; apply map_length). cbn [bind].
    rewrite gather_mask by (unfold or_maskN; rewrite map_length; symmetry; apply (wf_freq u W)). cbn [bind].
    rewrite gather_mask by (rewrite Lmd; symmetry; apply (wf_dly u W)). cbn [bind].
    rewrite gather_mask by (unfold or_maskN; rewrite map_length; symmetry; apply (proj1 (wf_scalar u W))). cbn [bind].
    set (mp := mask (or_maskN (u_spw_array u) spws) (u_spw_array u)).
    assert (Emp : mp = filter (fun x => memN x spws) (u_spw_array u)) by apply mask_map_filter.
    assert (ND : NoDup mp) by (rewrite Emp; apply NoDup_filter, wf_NoDup, W).
    rewrite (nodup_fixed mp ND).
    rewrite down_convert_spec; [cbn [bind]; eauto | exact ND | |].
    + intros x Hx. rewrite Emp. unfold or_maskN in Hx. rewrite mask_map_filter in Hx.
      apply filter_In in Hx. apply filter_In. split; [apply (wf_freq_in u W)|]; tauto.
    + intros x Hx. rewrite Emp. apply filter_In.
      assert (P : picks (where_ md) (u_spw_dly_array u) (mask md (u_spw_dly_array u))) by (apply mask_picks; exact Lmd).
      apply (picks_In _ _ _ _ P) in Hx. destruct Hx as [i [Hi E]]. split.
      { apply (wf_dly_in u W). eapply nth_error_In; exact E. }
      apply where_spec in Hi. unfold md in Hi. destruct (u_folded u).
      * rewrite map2_nth in Hi. unfold or_maskN in Hi. rewrite nth_error_map, E in Hi. cbn [option_map] in Hi.
        destruct (nth_error (u_dly_array u) i); [|discriminate]. injection Hi as Hi.
        apply andb_true_iff in Hi. tauto.
      * unfold or_maskN in Hi. rewrite nth_error_map, E in Hi. cbn [option_map] in Hi. congruence.
Qed.

Lemma row_mask_ok (u : uvp) a :
  (exists m, row_mask u a = Ok m) <->
  (a_bls a <> Some [] /\ a_blpairs a <> Some [] /\ (a_times a = None \/ a_lsts a = None)).
Proof.
  unfold row_mask, blpairs_from_bls.
  destruct (a_bls a) as [[|b bls]|], (a_blpairs a) as [[|bp bps]|], (a_times a) as [ts|], (a_lsts a) as [ls|];
    cbn [bind]; split; intros H;
    try (destruct H as [m H]; discriminate H);
    try (destruct H as [H1 [H2 H3]]; exfalso; (apply H1; reflexivity) || (apply H2; reflexivity) || (destruct H3 as [H3|H3]; discriminate H3));
    try (eexists; reflexivity);
    (split; [discriminate|]; split; [discriminate|]; auto).
Qed.

Lemma selects_total {A} s idx n (l : list A) : selects s idx n -> length l = n -> exists r, index s l = Ok r.
Proof. intros H L. destruct (H A l L) as [r [E _]]. eauto. Qed.

Lemma select_rows_meta_ok (u1 : uvp) a m : row_lens u1 -> row_mask u1 a = Ok m ->
  (exists r, select_rows_meta u1 m = Ok r) <-> (no_row_args a \/ exists i, row_wanted u1 a i).
Proof.
  intros W Hm. split.
  - intros [[u2 s] H]. destruct (rows_stage u1 u2 a m s W Hm H) as [R [_ [HR [_ [_ [_ [_ [_ [_ [_ [_ Ne]]]]]]]]]]].
    pose proof (row_mask_spec u1 a m W Hm) as Sp. destruct m as [m|]; [|left; exact Sp].
    right. destruct Sp as [N _]. specialize (Ne N). destruct R as [|i R]; [congruence|].
    exists i. apply HR. left; reflexivity.
  - intros H. pose proof (row_mask_spec u1 a m W Hm) as Sp. destruct m as [m|]; [|cbn; eauto].
    destruct Sp as [N [Lm Sp]]. destruct H as [H|[i Wi]]; [contradiction|].
    assert (Hi : nth_error m i = Some true).
    { destruct Wi as [b [t [l [Eb [Et [El Wb]]]]]]. rewrite (Sp i b t l Eb Et El). f_equal. apply wanted_b_spec. exact Wb. }
    cbn [select_rows_meta].
    assert (Ex : existsb (fun b => b) m = true).
    { apply existsb_exists. exists true. split; [eapply nth_error_In; exact Hi | reflexivity]. }
    rewrite Ex. cbn [require].
    assert (Nw : where_ m <> []).
    { intros C. apply where_spec in Hi. rewrite C in Hi. contradiction. }
    destruct (to_sel_total _ Nw) as [s Hs]. rewrite Hs. cbn [bind].
    assert (SL : selects s (where_ m) (length (u_blpair_array u1))).
    { apply selects_to_sel; [apply where_sorted | | exact Hs]. rewrite <- Lm. apply where_range. }
    destruct (selects_total _ _ _ (u_blpair_array u1) SL eq_refl) as [x0 E0]. rewrite E0. cbn [bind].
    destruct (selects_total _ _ _ (u_time_1_array u1) SL (rl_t1 u1 W)) as [x1 E1]. rewrite E1. cbn [bind].
    destruct (selects_total _ _ _ (u_time_2_array u1) SL (rl_t2 u1 W)) as [x2 E2]. rewrite E2. cbn [bind].
    destruct (selects_total _ _ _ (u_time_avg_array u1) SL (rl_ta u1 W)) as [x3 E3]. rewrite E3. cbn [bind].
    destruct (selects_total _ _ _ (u_lst_1_array u1) SL (rl_l1 u1 W)) as [x4 E4]. rewrite E4. cbn [bind].
    destruct (selects_total _ _ _ (u_lst_2_array u1) SL (rl_l2 u1 W)) as [x5 E5]. rewrite E5. cbn [bind].
    destruct (selects_total _ _ _ (u_lst_avg_array u1) SL (rl_la u1 W)) as [x6 E6]. rewrite E6. cbn [bind].
    eauto.
Qed.

Lemma select_pols_meta_ok (u2 : uvp) a :
  (forall r, In r (u_scalar_array u2) -> length r = length (u_polpair_array u2)) ->
  (exists r, select_pols_meta u2 (a_polpairs a) = Ok r) <-> (a_polpairs a = None \/ exists k, pol_wanted u2 a k).
Proof.
  intros Ws. split.
  - intros [[u3 s] H]. destruct (pols_stage u2 u3 a s Ws H) as [P [_ [HP [_ [_ [_ [_ [_ [_ Ne]]]]]]]]].
    destruct (a_polpairs a) as [p|] eqn:E; [|left; reflexivity]. right.
    destruct P as [|k P]; [exfalso; apply Ne; [discriminate|reflexivity]|]. exists k. apply HP. left; reflexivity.
  - intros H. destruct (a_polpairs a) as [pols|] eqn:Ea; [|cbn; eauto].
    destruct H as [H|[k [p [Ek Hk]]]]; [discriminate|]. rewrite Ea in Hk.
    destruct pols as [|p0 pols]; [destruct Hk|]. cbn [select_pols_meta].
    set (m := or_maskZ (u_polpair_array u2) (p0 :: pols)).
    assert (Nw : where_ m <> []).
    { intros C. assert (Hw : In k (where_ m)).
      { apply where_spec. unfold m. rewrite or_maskZ_nth, Ek. cbn [option_map]. f_equal. apply memZ_In. exact Hk. }
      rewrite C in Hw. contradiction. }
    destruct (to_sel_total _ Nw) as [s Hs]. rewrite Hs. cbn [bind].
    assert (SL : selects s (where_ m) (length (u_polpair_array u2))).
    { apply selects_to_sel; [apply where_sorted | | exact Hs].
      replace (length (u_polpair_array u2)) with (length m) by apply map_length. apply where_range. }
    destruct (selects_total _ _ _ (u_polpair_array u2) SL eq_refl) as [x0 E0]. rewrite E0. cbn [bind].
    destruct (map_res_total (index s) (u_scalar_array u2)) as [x1 E1].
    { apply Forall_forall. intros r Hr. apply (selects_total _ _ _ r SL (Ws r Hr)). }
    rewrite E1. cbn [bind]. eauto.
Qed.

Lemma index2_total rs ps R P (a : arr X) n p : selects rs R n -> selects ps P p -> length a = n ->
  (forall r, In r a -> length r = p) -> exists a', index2 rs ps a = Ok a'.
Proof.
  intros Sr Sp La Lr. unfold index2. destruct (Sr (list (list X)) a La) as [rows [E Pk]]. rewrite E. cbn [bind].
  apply map_res_total. apply Forall_forall. intros r Hr. apply (picks_In _ _ _ _ Pk) in Hr.
  destruct Hr as [i [_ Ei]]. apply (selects_total ps P p r Sp). apply Lr. eapply nth_error_In; exact Ei.
Qed.

Lemma select_loop_total rs ps (d out : list (nat * arr X)) ss :
  (forall s so, In (s, so) ss -> exists a a', dget Nat.eq_dec d so = Some a /\ index2 rs ps a = Ok a') ->
  exists d', select_loop d rs ps ss out = Ok d'.
Proof.
  revert out; induction ss as [|[s so] ss IH]; intros out H; cbn; [eauto|].
  destruct (H s so (or_introl eq_refl)) as [a [a' [E1 E2]]]. unfold lookup_arr, aget. rewrite E1. cbn [bind].
  rewrite E2. cbn [bind]. apply IH. intros s1 so1 H1. apply (H s1 so1). right; exact H1.
Qed.

Theorem select_ok_iff (u : uvp) a : wf u -> (exists u', select u a = Ok u') <-> valid_args u a.
Proof.
  intros W. unfold select, _select. split.
  - intros [u' H].
    destruct (match a_spws a with None => _ | Some _ => _ end) as [[u1 mp]|e] eqn:E1; [|discriminate].
    pose proof (stage1 _ _ _ _ W E1) as S. pose proof (row_lens_stage1 _ _ _ _ W S) as W1.
    destruct (bind (row_mask u1 a) (select_rows_meta u1)) as [[u2 rs]|e] eqn:E2; [|discriminate].
    apply bind_ok in E2. destruct E2 as [m [Hm E2]].
    destruct (select_pols_meta u2 (a_polpairs a)) as [[u3 ps]|e] eqn:E3; [|discriminate].
    pose proof (ss_rest _ _ _ _ S) as SR.
    destruct (proj1 (row_mask_ok u1 a) (ex_intro _ m Hm)) as [V1 [V2 V3]].
    constructor; auto.
    + intros spws Es. rewrite Es in E1. exact (proj1 (select_spws_ok u spws W) (ex_intro _ _ E1)).
    + pose proof (proj1 (select_rows_meta_ok u1 a m W1 Hm) (ex_intro _ _ E2)) as [V|[i V]]; [left; exact V|].
      right. exists i. apply (row_wanted_ext u u1 a i (sr_bp _ _ SR) (sr_ta _ _ SR) (sr_la _ _ SR)). exact V.
    + destruct (rows_stage u1 u2 a m rs W1 Hm E2) as [R [_ [_ [_ [_ [_ [_ [HRsca [HRpol _]]]]]]]]].
      pose proof (wf_stage1 _ _ _ _ W S) as [_ [_ [_ [_ A5]]]].
      assert (Ws2 : forall r, In r (u_scalar_array u2) -> length r = length (u_polpair_array u2)).
      { intros r Hr. rewrite HRpol. apply A5. rewrite <- HRsca. exact Hr. }
      pose proof (proj1 (select_pols_meta_ok u2 a Ws2) (ex_intro _ _ E3)) as [V|[k V]]; [left; exact V|].
      right. exists k. unfold pol_wanted in *. rewrite HRpol, (sr_pol _ _ SR) in V. exact V.
  - intros V.
    assert (E1 : exists u1 mp, match a_spws a with None => Ok (u, u_spw_array u) | Some spws => select_spws u spws end = Ok (u1, mp)).
    { destruct (a_spws a) as [spws|] eqn:E; [|eauto].
      destruct (proj2 (select_spws_ok u spws W)) as [[u1 mp] H]; [intros s Hs; apply (va_spws _ _ V spws E s Hs) | eauto]. }
    destruct E1 as [u1 [mp E1]]. rewrite E1.
    pose proof (stage1 _ _ _ _ W E1) as S. pose proof (row_lens_stage1 _ _ _ _ W S) as W1.
    pose proof (ss_rest _ _ _ _ S) as SR.
    destruct (proj2 (row_mask_ok u1 a)) as [m Hm].
    { split; [apply (va_bls _ _ V)|]. split; [apply (va_blpairs _ _ V) | apply (va_time_lst _ _ V)]. }
    destruct (proj2 (select_rows_meta_ok u1 a m W1 Hm)) as [[u2 rs] E2].
    { destruct (va_row _ _ V) as [N|[i Wi]]; [left; exact N|]. right. exists i.
      apply (row_wanted_ext u u1 a i (sr_bp _ _ SR) (sr_ta _ _ SR) (sr_la _ _ SR)). exact Wi. }
    rewrite Hm. cbn [bind]. rewrite E2.
    destruct (rows_stage u1 u2 a m rs W1 Hm E2) as [R [HRs [HR [HRsel [HRp [HRw [HRd [HRsca [HRpol _]]]]]]]]].
    pose proof (wf_stage1 _ _ _ _ W S) as [_ [_ [_ [_ A5]]]].
    assert (Ws2 : forall r, In r (u_scalar_array u2) -> length r = length (u_polpair_array u2)).
    { intros r Hr. rewrite HRpol. apply A5. rewrite <- HRsca. exact Hr. }
    destruct (proj2 (select_pols_meta_ok u2 a Ws2)) as [[u3 ps] E3].
    { destruct (va_pols _ _ V) as [N|[k K]]; [left; exact N|]. right. exists k. unfold pol_wanted in *.
      rewrite HRpol, (sr_pol _ _ SR). exact K. }
    rewrite E3.
    destruct (pols_stage u2 u3 a ps Ws2 E3) as [P [HPs [HP [HPsel [HPp [HPsca [HPw [HPr [HPd _]]]]]]]]].
    assert (Epol : u_polpair_array u2 = u_polpair_array u) by (rewrite HRpol; apply (sr_pol _ _ SR)).
    assert (Ebp : u_blpair_array u1 = u_blpair_array u) by apply (sr_bp _ _ SR).
    rewrite Epol in *. rewrite Ebp in *.
    assert (Emap : combine (u_spw_array u3) mp = map (fun w => (rank (spw_kept u a) w, w)) (spw_kept u a)).
    { rewrite (sw_arr _ _ HPw), (sw_arr _ _ HRw), (ss_arr _ _ _ _ S), (ss_map _ _ _ _ S). apply combine_map_self. }
    assert (DT : forall d, In d (dicts u) -> exists d', select_dict d rs ps (combine (u_spw_array u3) mp) = Ok d').
    { intros d Hd. rewrite Emap. apply select_loop_total. intros s so Hin. apply in_map_iff in Hin.
      destruct Hin as [w [E Hw]]. injection E as <- <-.
      destruct (shaped_kept u a d W Hd w Hw) as [ar [E [L1 L2]]].
      destruct (index2_total rs ps R P ar _ _ HRsel HPsel L1 L2) as [ar' E']. eauto. }
    assert (DO : forall o, (forall d, In d (opt_list o) -> In d (dicts u)) ->
              exists o', select_opt o rs ps (combine (u_spw_array u3) mp) = Ok o').
    { intros [d|] Ho; cbn; [|eauto]. destruct (DT d (Ho d (or_introl eq_refl))) as [d' E]. rewrite E. cbn. eauto. }
    unfold select_data.
    assert (E3d : u_data u3 = u_data u /\ u_wgt u3 = u_wgt u /\ u_integration u3 = u_integration u /\ u_nsample u3 = u_nsample u /\
      u_cov u3 = u_cov u /\ u_window u3 = u_window u /\ u_stats u3 = u_stats u /\ u_OmegaP u3 = u_OmegaP u).
    { destruct HPd, HRd, SR. repeat split; congruence. }
    destruct E3d as [F1 [F2 [F3 [F4 [F5 [F6 [F7 F8]]]]]]]. rewrite F1, F2, F3, F4, F5, F6, F7, F8.
    destruct (DT (u_data u)) as [x1 G1]; [unfold dicts; cbn; tauto|]. rewrite G1; cbn [bind].
    destruct (DT (u_wgt u)) as [x2 G2]; [unfold dicts; cbn; tauto|]. rewrite G2; cbn [bind].
    destruct (DT (u_integration u)) as [x3 G3]; [unfold dicts; cbn; tauto|]. rewrite G3; cbn [bind].
    destruct (DT (u_nsample u)) as [x4 G4]; [unfold dicts; cbn; tauto|]. rewrite G4; cbn [bind].
    destruct (DO (u_cov u)) as [x5 G5]; [unfold dicts; intros; rewrite !in_app_iff; tauto|]. rewrite G5; cbn [bind].
    destruct (DO (u_window u)) as [x6 G6]; [unfold dicts; intros; rewrite !in_app_iff; tauto|]. rewrite G6; cbn [bind].
    destruct (DO (u_stats u)) as [x7 G7]; [unfold dicts; intros; rewrite !in_app_iff; tauto|]. rewrite G7; cbn [bind].
    destruct (map_res_total (index ps) (u_OmegaP u)) as [x8 G8].
    { apply Forall_forall. intros r Hr. apply (selects_total _ _ _ r HPsel). apply (wf_omega u W r Hr). }
    rewrite G8; cbn [bind]. eauto.
Qed.
End S.
