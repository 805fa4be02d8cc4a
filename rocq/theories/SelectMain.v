From Coq Require Import QArith Qabs Sorted Permutation.
From Verif Require Import PyDict.
From Verif Require Import Prelude ListLemmas UvpModel UvpSpec UvpProofs SelectProofs.
Open Scope nat_scope.

Section S.
Context {X : Type}.
Notation uvp := (uvp X).

Record same_spw (u u1 : uvp) : Prop := {
  sw_folded : u_folded u1 = u_folded u;
  sw_N : u_Nspws u1 = u_Nspws u;
  sw_arr : u_spw_array u1 = u_spw_array u;
  sw_sfa : u_spw_freq_array u1 = u_spw_freq_array u;
  sw_sda : u_spw_dly_array u1 = u_spw_dly_array u;
  sw_fa : u_freq_array u1 = u_freq_array u;
  sw_da : u_dly_array u1 = u_dly_array u }.

Record same_data (u u1 : uvp) : Prop := {
  sd_data : u_data u1 = u_data u;
  sd_wgt : u_wgt u1 = u_wgt u;
  sd_int : u_integration u1 = u_integration u;
  sd_ns : u_nsample u1 = u_nsample u;
  sd_cov : u_cov u1 = u_cov u;
  sd_wf : u_window u1 = u_window u;
  sd_st : u_stats u1 = u_stats u;
  sd_lb1 : u_label_1_array u1 = u_label_1_array u;
  sd_lb2 : u_label_2_array u1 = u_label_2_array u;
  sd_om : u_OmegaP u1 = u_OmegaP u }.

Lemma seq_sorted a n : StronglySorted lt (seq a n).
Proof.
  revert a; induction n as [|n IH]; intros a; cbn; constructor; [apply IH|].
  apply Forall_forall. intros x H. apply in_seq in H. lia.
Qed.

Lemma rows_stage (u1 u2 : uvp) a m s : row_lens u1 ->
  row_mask u1 a = Ok m -> select_rows_meta u1 m = Ok (u2, s) ->
  exists R, StronglySorted lt R /\
    (forall i, In i R <-> i < length (u_blpair_array u1) /\ row_wanted u1 a i) /\
    selects s R (length (u_blpair_array u1)) /\
    rows_picked R u1 u2 /\ same_spw u1 u2 /\ same_data u1 u2 /\
    u_scalar_array u2 = u_scalar_array u1 /\ u_polpair_array u2 = u_polpair_array u1 /\
    length (u_bl_vecs u2) = length (u_bl_array u2) /\
    ((no_row_args a /\ u_bl_array u2 = u_bl_array u1) \/
          (~ no_row_args a /\
           u_bl_array u2 = filter (fun bl => existsb (fun b => (bl =? b / 1000000)%Z || (bl =? b mod 1000000)%Z)
                                                     (u_blpair_array u2)) (u_bl_array u1))) /\
    (~ no_row_args a -> R <> []).
Proof.
  intros W Hm H. pose proof (row_mask_spec u1 a m W Hm) as Sp.
  set (n := length (u_blpair_array u1)) in *.
  assert (WI : forall i, i < n -> exists b t l, nth_error (u_blpair_array u1) i = Some b /\
      nth_error (u_time_avg_array u1) i = Some t /\ nth_error (u_lst_avg_array u1) i = Some l).
  { intros i Hi. destruct (nth_error (u_blpair_array u1) i) as [b|] eqn:Eb; [|apply nth_error_None in Eb; lia].
    destruct (nth_error_same_len _ (u_time_avg_array u1) i b (eq_sym (rl_ta u1 W)) Eb) as [t Et].
    destruct (nth_error_same_len _ (u_lst_avg_array u1) i b (eq_sym (rl_la u1 W)) Eb) as [l El].
    exists b, t, l. auto. }
  destruct m as [m|]; cbn [select_rows_meta] in H.
  - destruct Sp as [Nn [Lm Sp]].
    apply require_ok in H. destruct H as [Ex H].
    apply bind_ok in H. destruct H as [s' [Hs H]].
    apply bind_ok in H; destruct H as [ba [Hba H]].
    apply bind_ok in H; destruct H as [t1 [Ht1 H]].
    apply bind_ok in H; destruct H as [t2 [Ht2 H]].
    apply bind_ok in H; destruct H as [ta [Hta H]].
    apply bind_ok in H; destruct H as [l1 [Hl1 H]].
    apply bind_ok in H; destruct H as [l2 [Hl2 H]].
    apply bind_ok in H; destruct H as [la [Hla H]].
    injection H as <- <-.
    assert (SL : selects s' (where_ m) n).
    { apply selects_to_sel; [apply where_sorted | | exact Hs]. rewrite <- Lm. apply where_range. }
    exists (where_ m). split; [apply where_sorted|]. split.
    { intros i. rewrite where_spec. split.
      - intros E. assert (Hi : i < n) by (rewrite <- Lm; apply nth_error_Some; congruence).
        split; [exact Hi|]. destruct (WI i Hi) as [b [t [l [Eb [Et El]]]]].
        rewrite (Sp i b t l Eb Et El) in E. injection E as E. apply wanted_b_spec in E.
        exists b, t, l. tauto.
      - intros [Hi [b [t [l [Eb [Et [El Wb]]]]]]]. rewrite (Sp i b t l Eb Et El). f_equal.
        apply wanted_b_spec. exact Wb. }
    split; [exact SL|].
    split; [constructor; cbn; (eapply selects_picks; [exact SL| |eassumption])|].
    + reflexivity.
    + apply (rl_t1 u1 W).
    + apply (rl_t2 u1 W).
    + apply (rl_ta u1 W).
    + apply (rl_l1 u1 W).
    + apply (rl_l2 u1 W).
    + apply (rl_la u1 W).
    + split; [constructor; reflexivity|]. split; [constructor; reflexivity|].
      split; [reflexivity|]. split; [reflexivity|]. split; [|split].
      * cbn. set (f := fun bl => memZ bl _).
        pose proof (rl_bl u1 W) as Lb. revert Lb. generalize (u_bl_vecs u1) (u_bl_array u1).
        intros v l. revert v. induction l as [|b l IH]; intros [|x v] L; cbn in *; auto; try discriminate.
        destruct (f b); cbn; rewrite IH; lia.
      * right. split; [exact Nn|]. cbn. rewrite mask_map_filter. apply filter_ext. intros bl.
        clear. induction ba as [|b l IH]; [reflexivity|]. cbn [flat_map existsb split_bls app].
        unfold memZ in *. cbn [existsb]. rewrite IH, orb_assoc. reflexivity.
      * intros _ C. apply existsb_exists in Ex. destruct Ex as [b [Hb Eb]]. subst b.
        apply In_nth_error in Hb. destruct Hb as [i Hi]. apply where_spec in Hi. rewrite C in Hi. contradiction.
  - injection H as <- <-. exists (seq 0 n). split; [apply seq_sorted|]. split.
    { intros i. rewrite in_seq. split.
      - intros [_ Hi]. split; [exact Hi|]. destruct (WI i Hi) as [b [t [l [Eb [Et El]]]]].
        exists b, t, l. destruct Sp as [S1 [S2 [S3 S4]]]. repeat split; auto.
        + intros ts E; congruence.
        + intros ts E; congruence.
      - intros [Hi _]. cbn. auto with arith. }
    split; [apply selects_all|]. split.
    { constructor; unfold n; try apply picks_seq.
      - rewrite <- (rl_t1 u1 W). apply picks_seq.
      - rewrite <- (rl_t2 u1 W). apply picks_seq.
      - rewrite <- (rl_ta u1 W). apply picks_seq.
      - rewrite <- (rl_l1 u1 W). apply picks_seq.
      - rewrite <- (rl_l2 u1 W). apply picks_seq.
      - rewrite <- (rl_la u1 W). apply picks_seq. }
    split; [constructor; reflexivity|]. split; [constructor; reflexivity|].
    split; [reflexivity|]. split; [reflexivity|]. split; [apply (rl_bl u1 W)|].
    split; [left; auto | intros C; contradiction].
Qed.

Record same_rows (u u1 : uvp) : Prop := {
  sx_bp : u_blpair_array u1 = u_blpair_array u;
  sx_t1 : u_time_1_array u1 = u_time_1_array u;
  sx_t2 : u_time_2_array u1 = u_time_2_array u;
  sx_ta : u_time_avg_array u1 = u_time_avg_array u;
  sx_l1 : u_lst_1_array u1 = u_lst_1_array u;
  sx_l2 : u_lst_2_array u1 = u_lst_2_array u;
  sx_la : u_lst_avg_array u1 = u_lst_avg_array u;
  sx_bl : u_bl_array u1 = u_bl_array u;
  sx_blv : u_bl_vecs u1 = u_bl_vecs u }.

Lemma pols_stage (u2 u3 : uvp) a s :
  (forall r, In r (u_scalar_array u2) -> length r = length (u_polpair_array u2)) ->
  select_pols_meta u2 (a_polpairs a) = Ok (u3, s) ->
  exists P, StronglySorted lt P /\ (forall k, In k P <-> pol_wanted u2 a k) /\
    selects s P (length (u_polpair_array u2)) /\
    picks P (u_polpair_array u2) (u_polpair_array u3) /\
    Forall2 (fun r r' => picks P r r') (u_scalar_array u2) (u_scalar_array u3) /\
    same_spw u2 u3 /\ same_rows u2 u3 /\ same_data u2 u3 /\ (a_polpairs a <> None -> P <> []).
Proof.
  intros Ws H. set (n := length (u_polpair_array u2)).
  destruct (a_polpairs a) as [pols|] eqn:Ea; cbn [select_pols_meta] in H.
  - destruct pols as [|p0 pols]; [discriminate|].
    set (m := or_maskZ (u_polpair_array u2) (p0 :: pols)) in *.
    assert (Lm : length m = n) by apply map_length.
    apply bind_ok in H; destruct H as [s' [Hs H]].
    apply bind_ok in H; destruct H as [pa [Hpa H]].
    apply bind_ok in H; destruct H as [sca [Hsca H]]. injection H as <- <-.
    assert (SL : selects s' (where_ m) n).
    { apply selects_to_sel; [apply where_sorted | | exact Hs]. rewrite <- Lm. apply where_range. }
    exists (where_ m). split; [apply where_sorted|]. split.
    { intros k. rewrite where_spec. unfold m, pol_wanted. rewrite or_maskZ_nth, Ea.
      destruct (nth_error (u_polpair_array u2) k) as [p|]; cbn [option_map]; split.
      - intros E. injection E as E. exists p. split; [reflexivity | apply memZ_In; exact E].
      - intros [p' [E I]]. injection E as <-. f_equal. apply memZ_In. exact I.
      - discriminate.
      - intros [p' [E _]]. discriminate. }
    split; [exact SL|]. split; [eapply selects_picks; [exact SL | reflexivity | exact Hpa]|].
    split.
    { cbn. apply map_res_spec in Hsca. clear -Hsca SL Ws.
      assert (G : Forall (fun r => length r = n) (u_scalar_array u2)) by (apply Forall_forall; exact Ws).
      induction Hsca as [|r r' l l' Hr H IH]; constructor.
      - inversion G; subst. eapply selects_picks; eauto.
      - inversion G; subst. apply IH; auto. intros q Hq; apply Ws; right; exact Hq. }
    split; [constructor; reflexivity|]. split; [constructor; reflexivity|]. split; [constructor; reflexivity|].
    intros _ C. unfold to_sel in Hs. rewrite C in Hs. discriminate.
  - injection H as <- <-. exists (seq 0 n). split; [apply seq_sorted|]. split.
    { intros k. unfold pol_wanted. rewrite Ea, in_seq. split.
      - intros [_ Hk]. destruct (nth_error (u_polpair_array u2) k) as [p|] eqn:E; [eauto|].
        apply nth_error_None in E. unfold n in Hk. cbn in Hk. lia.
      - intros [p [E _]]. assert (k < n) by (apply nth_error_Some; congruence). lia. }
    split; [apply selects_all|]. split; [apply picks_seq|]. split.
    { assert (G : Forall (fun r => length r = n) (u_scalar_array u2)) by (apply Forall_forall; exact Ws).
      clear -G. induction G as [|r l Hr G IH]; constructor; [|exact IH]. rewrite <- Hr. apply picks_seq. }
    split; [constructor; reflexivity|]. split; [constructor; reflexivity|]. split; [constructor; reflexivity|].
    intros C; contradiction.
Qed.

(** * data stage *)

Lemma select_loop_spec d rs ps ss (out d' : list (nat * arr X)) :
  select_loop d rs ps ss out = Ok d' -> NoDup (map fst ss) ->
  (forall s so, In (s, so) ss -> exists a a', dget Nat.eq_dec d so = Some a /\
      index2 rs ps a = Ok a' /\ dget Nat.eq_dec d' s = Some a') /\
  (forall s, ~ In s (map fst ss) -> dget Nat.eq_dec d' s = dget Nat.eq_dec out s).
Proof.
  revert out; induction ss as [|[s so] ss IH]; intros out H N; cbn in *.
  - injection H as <-. split; [intros s so []|]; auto.
  - apply bind_ok in H; destruct H as [a [Ha H]]. apply bind_ok in H; destruct H as [a' [Ha' H]].
    inversion N as [|? ? N1 N2]; subst. destruct (IH _ H N2) as [I1 I2].
    unfold lookup_arr, aget in Ha. destruct (dget Nat.eq_dec d so) as [a0|] eqn:E; [|discriminate].
    injection Ha as ->. split.
    + intros s1 so1 [H1|H1]; [|apply I1; exact H1]. injection H1 as <- <-.
      exists a, a'. split; [exact E|]. split; [exact Ha'|].
      rewrite I2 by exact N1. rewrite dget_dset. destruct (Nat.eq_dec s s); congruence.
    + intros s1 H1. rewrite I2 by tauto. rewrite dget_dset. destruct (Nat.eq_dec s1 s); [subst; tauto | reflexivity].
Qed.

Lemma index2_spec rs ps R P (a a' : arr X) n p :
  selects rs R n -> selects ps P p -> length a = n -> (forall r, In r a -> length r = p) ->
  index2 rs ps a = Ok a' -> sub_array R P a a'.
Proof.
  intros Sr Sp La Lr H. unfold index2 in H. apply bind_ok in H. destruct H as [rows [H1 H2]].
  pose proof (selects_picks _ _ _ _ _ Sr La H1) as Pk. exists rows. split; [apply gather_spec; exact Pk|].
  apply map_res_spec in H2.
  assert (G : forall r, In r rows -> length r = p).
  { intros r Hr. apply (picks_In _ _ _ _ Pk) in Hr. destruct Hr as [i [_ E]]. apply Lr. eapply nth_error_In; exact E. }
  clear -H2 G Sp. induction H2 as [|r r' l l' Hr H IH]; constructor.
  - apply gather_spec. eapply selects_picks; [exact Sp | apply G; left; reflexivity | exact Hr].
  - apply IH. intros q Hq; apply G; right; exact Hq.
Qed.

Lemma sub_array_shape R P (a a' : arr X) : sub_array R P a a' ->
  length a' = length R /\ forall r, In r a' -> length r = length P.
Proof.
  intros [rows [H1 H2]]. apply gather_spec in H1. apply picks_length in H1. split.
  - rewrite <- H1. symmetry. eapply Forall2_len; exact H2.
  - assert (F : Forall (fun r => length r = length P) a').
    { eapply Forall2_Forall_r; [exact H2|]. intros x y _ E. apply gather_spec, picks_length in E. exact E. }
    apply Forall_forall. exact F.
Qed.

Lemma combine_map_self (f : nat -> nat) (l : list nat) : combine (map f l) l = map (fun w => (f w, w)) l.
Proof. induction l as [|x l IH]; cbn; congruence. Qed.

Lemma select_dict_spec (d d' : list (nat * arr X)) rs ps R P n p kept :
  NoDup kept -> selects rs R n -> selects ps P p ->
  (forall w, In w kept -> exists a, dget Nat.eq_dec d w = Some a /\ length a = n /\ forall r, In r a -> length r = p) ->
  select_dict d rs ps (combine (map (rank kept) kept) kept) = Ok d' ->
  dict_selected kept R P d d'.
Proof.
  intros N Sr Sp Sh H. unfold select_dict in H. rewrite combine_map_self in H.
  assert (ND : NoDup (map fst (map (fun w => (rank kept w, w)) kept))).
  { rewrite map_map. cbn. apply NoDup_map_in; [|exact N]. intros x y Hx Hy E. apply (rank_inj kept); auto. }
  destruct (select_loop_spec _ _ _ _ _ _ H ND) as [A B]. split.
  - intros w Hw. destruct (A (rank kept w) w) as [a [a' [E1 [E2 E3]]]].
    { apply in_map_iff. eauto. }
    exists a, a'. split; [exact E1|]. split; [exact E3|].
    destruct (Sh w Hw) as [a0 [E0 [La Lr]]]. rewrite E1 in E0. injection E0 as <-.
    eapply index2_spec; eauto.
  - intros s Hs. destruct (in_dec Nat.eq_dec s (map fst (map (fun w => (rank kept w, w)) kept))) as [I|I].
    + apply in_map_iff in I. destruct I as [[q w] [<- I]]. apply in_map_iff in I.
      destruct I as [w' [E I]]. injection E as <- <-. exists w'. auto.
    + rewrite (B s I) in Hs. cbn in Hs. congruence.
Qed.

Lemma renumbered_in (u : uvp) a (sa' : list nat) : sa' = map (rank (spw_kept u a)) (spw_kept u a) ->
  forall (B : Type) (ks : list nat) (l : list B) (f : nat * B -> bool) ks' l',
     length l' = length ks' -> (forall s, In s ks -> In s (u_spw_array u)) ->
     (forall p, f p = true -> spw_wanted a (fst p) = true) ->
     combine ks' l' = map (fun p => (rank (spw_kept u a) (fst p), snd p)) (filter f (combine ks l)) ->
     forall s, In s ks' -> In s sa'.
Proof.
  intros Ea B ks l f ks' l' L I Hf E s Hs.
  assert (M : map fst (combine ks' l') = ks').
  { clear -L. revert l' L; induction ks' as [|k ks' IH]; intros [|x l'] L; cbn in *; auto; try discriminate.
    f_equal. apply IH. lia. }
  rewrite <- M, E, map_map in Hs. cbn in Hs. apply in_map_iff in Hs. destruct Hs as [[w x] [<- Hs]].
  apply filter_In in Hs. destruct Hs as [Hs Hw]. cbn. rewrite Ea.
  apply in_map. apply filter_In. split; [|apply (Hf (w, x)); exact Hw]. apply I. apply in_combine_l in Hs. exact Hs.
Qed.

Lemma renumbered_perm (u : uvp) a : wf u ->
  Permutation (map (rank (spw_kept u a)) (spw_kept u a)) (seq 0 (length (spw_kept u a))).
Proof.
  intros W. pose proof (kept_NoDup u a W) as ND. apply NoDup_Permutation_bis.
  - apply NoDup_map_in; [|exact ND]. intros x y Hx Hy E. apply (rank_inj (spw_kept u a)); auto.
  - rewrite seq_length, map_length. lia.
  - intros x Hx. apply in_map_iff in Hx. destruct Hx as [w [<- Hw]]. apply in_seq.
    pose proof (rank_bound _ w Hw). lia.
Qed.

Lemma wf_stage1 (u u1 : uvp) a mp : wf u -> spw_stage u u1 a mp ->
  (forall s, In s (u_spw_freq_array u1) -> In s (u_spw_array u1)) /\
  (forall s, In s (u_spw_dly_array u1) -> In s (u_spw_array u1)) /\
  Permutation (u_spw_array u1) (seq 0 (u_Nspws u1)) /\
  length (u_scalar_array u1) = length (u_spw_array u1) /\
  (forall r, In r (u_scalar_array u1) -> length r = length (u_polpair_array u1)).
Proof.
  intros W S. pose proof (kept_NoDup u a W) as ND.
  assert (F : forall (B : Type) (ks : list nat) (l : list B) (f : nat * B -> bool) ks' l',
     length l' = length ks' -> (forall s, In s ks -> In s (u_spw_array u)) ->
     (forall p, f p = true -> spw_wanted a (fst p) = true) ->
     combine ks' l' = map (fun p => (rank (spw_kept u a) (fst p), snd p)) (filter f (combine ks l)) ->
     forall s, In s ks' -> In s (u_spw_array u1)).
  { intros B ks l f ks' l' L I Hf E s Hs.
    assert (M : map fst (combine ks' l') = ks').
    { clear -L. revert l' L; induction ks' as [|k ks' IH]; intros [|x l'] L; cbn in *; auto; try discriminate.
      f_equal. apply IH. lia. }
    rewrite <- M, E, map_map in Hs. cbn in Hs. apply in_map_iff in Hs. destruct Hs as [[w x] [<- Hs]].
    apply filter_In in Hs. destruct Hs as [Hs Hw]. cbn. rewrite (ss_arr _ _ _ _ S).
    apply in_map. apply filter_In. split; [|apply (Hf (w, x)); exact Hw]. apply I. apply in_combine_l in Hs. exact Hs. }
  repeat split.
  - intros s Hs. eapply (F _ (u_spw_freq_array u) (u_freq_array u)); [apply (ss_freq_len _ _ _ _ S) | apply (wf_freq_in u W) | | apply (ss_freq _ _ _ _ S) | exact Hs].
    auto.
  - intros s Hs. eapply (F _ (u_spw_dly_array u) (u_dly_array u)); [apply (ss_dly_len _ _ _ _ S) | apply (wf_dly_in u W) | | apply (ss_dly _ _ _ _ S) | exact Hs].
    intros p E. apply andb_true_iff in E. tauto.
  - rewrite (ss_arr _ _ _ _ S), (ss_N _ _ _ _ S). apply NoDup_Permutation_bis.
    + apply NoDup_map_in; [|exact ND]. intros x y Hx Hy E. apply (rank_inj (spw_kept u a)); auto.
    + rewrite seq_length, map_length. lia.
    + intros x Hx. apply in_map_iff in Hx. destruct Hx as [w [<- Hw]]. apply in_seq.
      pose proof (rank_bound _ w Hw). lia.
  - rewrite (picks_length _ _ _ (ss_sca _ _ _ _ S)), (ss_arr _ _ _ _ S), map_length.
    unfold spw_kept. pose proof (gather_where_filter (spw_wanted a) (u_spw_array u)) as G.
    apply gather_spec, picks_length in G. congruence.
  - intros r Hr. rewrite (sr_pol _ _ (ss_rest _ _ _ _ S)).
    apply (picks_In _ _ _ _ (ss_sca _ _ _ _ S)) in Hr. destruct Hr as [i [_ E]].
    apply (wf_scalar u W). eapply nth_error_In; exact E.
Qed.

Lemma dicts_ext (u u1 : uvp) : u_data u1 = u_data u -> u_wgt u1 = u_wgt u -> u_integration u1 = u_integration u ->
  u_nsample u1 = u_nsample u -> u_cov u1 = u_cov u -> u_window u1 = u_window u -> u_stats u1 = u_stats u ->
  dicts u1 = dicts u.
Proof. intros. unfold dicts. congruence. Qed.

Lemma stage1 (u u1 : uvp) a mapping : wf u ->
  (match a_spws a with None => Ok (u, u_spw_array u) | Some spws => select_spws u spws end) = Ok (u1, mapping) ->
  spw_stage u u1 a mapping.
Proof.
  intros W H. destruct (a_spws a) as [spws|] eqn:E.
  - eapply spw_stage_some; eassumption.
  - injection H as <- <-. apply spw_stage_none; assumption.
Qed.

Lemma row_wanted_ext (u u1 : uvp) a i : u_blpair_array u1 = u_blpair_array u ->
  u_time_avg_array u1 = u_time_avg_array u -> u_lst_avg_array u1 = u_lst_avg_array u ->
  row_wanted u1 a i <-> row_wanted u a i.
Proof. intros E1 E2 E3. unfold row_wanted. rewrite E1, E2, E3. tauto. Qed.

Lemma row_lens_stage1 (u u1 : uvp) a mp : wf u -> spw_stage u u1 a mp -> row_lens u1.
Proof.
  intros W S. pose proof (ss_rest _ _ _ _ S) as R. destruct R, W. constructor; congruence.
Qed.

Lemma shaped_kept (u : uvp) a d : wf u -> In d (dicts u) -> forall w, In w (spw_kept u a) ->
  exists ar, dget Nat.eq_dec d w = Some ar /\ length ar = length (u_blpair_array u) /\
    forall r, In r ar -> length r = length (u_polpair_array u).
Proof.
  intros W Hd w Hw. apply (wf_dicts u W d Hd). apply filter_In in Hw. tauto.
Qed.

Lemma select_opt_spec (d d' : option (list (nat * arr X))) rs ps ss : select_opt d rs ps ss = Ok d' ->
  Forall2 (fun x y => select_dict x rs ps ss = Ok y) (opt_list d) (opt_list d').
Proof.
  destruct d as [x|]; cbn; intros H; [|injection H as <-; constructor].
  apply bind_ok in H. destruct H as [y [Hy H]]. injection H as <-. constructor; [exact Hy | constructor].
Qed.

Lemma select_data_spec (u3 u4 : uvp) mp rs ps : select_data u3 mp rs ps = Ok u4 ->
  Forall2 (fun x y => select_dict x rs ps (combine (u_spw_array u3) mp) = Ok y) (dicts u3) (dicts u4) /\
  Forall2 (fun r r' => index ps r = Ok r') (u_OmegaP u3) (u_OmegaP u4) /\
  same_spw u3 u4 /\ same_rows u3 u4 /\ u_polpair_array u4 = u_polpair_array u3 /\
  u_scalar_array u4 = u_scalar_array u3 /\
  u_label_1_array u4 = u_label_1_array u3 /\ u_label_2_array u4 = u_label_2_array u3.
Proof.
  intros H. unfold select_data in H.
  do 8 (apply bind_ok in H; let x := fresh "x" in let Hx := fresh "Hx" in destruct H as [x [Hx H]]).
  injection H as <-. split; [|split; [apply map_res_spec; assumption | repeat split; reflexivity]].
  unfold dicts; cbn [u_data u_wgt u_integration u_nsample u_cov u_window u_stats].
  apply Forall2_app; [repeat constructor; assumption|].
  apply Forall2_app; [apply select_opt_spec; assumption|].
  apply Forall2_app; apply select_opt_spec; assumption.
Qed.

Lemma Forall2_impl_in {A B} (R1 R2 : A -> B -> Prop) l r :
  (forall x y, In x l -> R1 x y -> R2 x y) -> Forall2 R1 l r -> Forall2 R2 l r.
Proof.
  intros G H. induction H as [|x y l r Hxy H IH]; constructor.
  - apply G; [left; reflexivity | exact Hxy].
  - apply IH. intros; apply G; [right|]; assumption.
Qed.

Theorem select_correct (u : uvp) a u' : wf u -> select u a = Ok u' -> exists R P, select_spec u a u' R P.
Proof.
  intros W H. unfold select, _select in H.
  destruct (match a_spws a with None => _ | Some _ => _ end) as [[u1 mp]|e] eqn:E1; [|discriminate].
  pose proof (stage1 _ _ _ _ W E1) as S. pose proof (row_lens_stage1 _ _ _ _ W S) as W1.
  destruct (bind (row_mask u1 a) (select_rows_meta u1)) as [[u2 rs]|e] eqn:E2; [|discriminate].
  apply bind_ok in E2. destruct E2 as [m [Hm E2]].
  destruct (rows_stage u1 u2 a m rs W1 Hm E2) as [R [HRs [HR [HRsel [HRp [HRw [HRd [HRsca [HRpol [HRbl [HRbls HRne]]]]]]]]]]].
  destruct (select_pols_meta u2 (a_polpairs a)) as [[u3 ps]|e] eqn:E3; [|discriminate].
  pose proof (wf_stage1 _ _ _ _ W S) as [A1 [A2 [A3 [A4 A5]]]].
  pose proof (ss_rest _ _ _ _ S) as SR.
  assert (Ws2 : forall r, In r (u_scalar_array u2) -> length r = length (u_polpair_array u2)).
  { intros r Hr. rewrite HRpol. apply A5. rewrite <- HRsca. exact Hr. }
  destruct (pols_stage u2 u3 a ps Ws2 E3) as [P [HPs [HP [HPsel [HPp [HPsca [HPw [HPr [HPd HPne]]]]]]]]].
  destruct (select_data u3 mp rs ps) as [u4|e] eqn:E4; [|discriminate]. injection H as <-.
  exists R, P.
  assert (Epol : u_polpair_array u2 = u_polpair_array u) by (rewrite HRpol; apply (sr_pol _ _ SR)).
  assert (Ebp : u_blpair_array u1 = u_blpair_array u) by apply (sr_bp _ _ SR).
  assert (E3d : dicts u3 = dicts u).
  { apply dicts_ext; destruct HPd, HRd, SR; congruence. }
  assert (Eom : u_OmegaP u3 = u_OmegaP u) by (destruct HPd, HRd, SR; congruence).
  assert (Emap : combine (u_spw_array u3) mp = combine (map (rank (spw_kept u a)) (spw_kept u a)) (spw_kept u a)).
  { rewrite (sw_arr _ _ HPw), (sw_arr _ _ HRw), (ss_arr _ _ _ _ S), (ss_map _ _ _ _ S). reflexivity. }
  destruct (select_data_spec _ _ _ _ _ E4) as [D [Om [Sw [Sx [Ep [Es [El1 El2]]]]]]].
  rewrite E3d, Emap in D. rewrite Eom in Om.
  rewrite Epol in *. rewrite Ebp in *.
  constructor.
  - exact HRs.
  - intros i. rewrite HR, (row_wanted_ext u u1 a i Ebp (sr_ta _ _ SR) (sr_la _ _ SR)). tauto.
  - exact HPs.
  - intros k. rewrite HP. unfold pol_wanted. rewrite Epol. tauto.
  - exact HRne.
  - exact HPne.
  - destruct HRp, Sx, HPr, SR. constructor; congruence.
  - rewrite Ep. exact HPp.
  - rewrite (sw_N _ _ Sw), (sw_N _ _ HPw), (sw_N _ _ HRw). apply (ss_N _ _ _ _ S).
  - rewrite (sw_arr _ _ Sw), (sw_arr _ _ HPw), (sw_arr _ _ HRw). apply (ss_arr _ _ _ _ S).
  - rewrite (sw_sfa _ _ Sw), (sw_sfa _ _ HPw), (sw_sfa _ _ HRw), (sw_fa _ _ Sw), (sw_fa _ _ HPw), (sw_fa _ _ HRw).
    apply (ss_freq _ _ _ _ S).
  - rewrite (sw_sda _ _ Sw), (sw_sda _ _ HPw), (sw_sda _ _ HRw), (sw_da _ _ Sw), (sw_da _ _ HPw), (sw_da _ _ HRw).
    apply (ss_dly _ _ _ _ S).
  - rewrite (sw_sfa _ _ Sw), (sw_sfa _ _ HPw), (sw_sfa _ _ HRw), (sw_fa _ _ Sw), (sw_fa _ _ HPw), (sw_fa _ _ HRw).
    apply (ss_freq_len _ _ _ _ S).
  - rewrite (sw_sda _ _ Sw), (sw_sda _ _ HPw), (sw_sda _ _ HRw), (sw_da _ _ Sw), (sw_da _ _ HPw), (sw_da _ _ HRw).
    apply (ss_dly_len _ _ _ _ S).
  - rewrite (sw_folded _ _ Sw), (sw_folded _ _ HPw), (sw_folded _ _ HRw). apply (sr_folded _ _ SR).
  - exists (u_scalar_array u1). split; [apply (ss_sca _ _ _ _ S)|]. rewrite Es, <- HRsca. exact HPsca.
  - eapply Forall2_impl_in; [|exact Om]. intros r r' Hr. cbn. intros Hi.
    eapply selects_picks; [exact HPsel | apply (wf_omega u W r Hr) | exact Hi].
  - assert (Eb : u_bl_array u1 = u_bl_array u) by apply (sr_bl _ _ SR). rewrite Eb in HRbls.
    rewrite (sx_bl _ _ Sx), (sx_bl _ _ HPr), (sx_bp _ _ Sx), (sx_bp _ _ HPr). exact HRbls.
  - rewrite (sx_bl _ _ Sx), (sx_bl _ _ HPr), (sx_blv _ _ Sx), (sx_blv _ _ HPr). exact HRbl.
  - eapply Forall2_impl_in; [|exact D]. intros d d' Hd. cbn. intros Hs.
    eapply select_dict_spec; [apply (kept_NoDup u a W) | exact HRsel | exact HPsel | | exact Hs].
    intros w Hw. apply (shaped_kept u a d W Hd w Hw).
  - destruct HPd, HRd, SR; congruence.
  - destruct HPd, HRd, SR; congruence.
Qed.

Lemma kept_positions (u : uvp) a {A} (l r : list A) :
  picks (where_ (map (spw_wanted a) (u_spw_array u))) l r -> length r = length (spw_kept u a).
Proof.
  intros H. rewrite (picks_length _ _ _ H).
  unfold spw_kept. pose proof (gather_where_filter (spw_wanted a) (u_spw_array u)) as G.
  apply gather_spec, picks_length in G. congruence.
Qed.

Theorem select_spec_wf (u : uvp) a u' R P : wf u -> select_spec u a u' R P -> wf u'.
Proof.
  intros W S. pose proof (sp_rows _ _ _ _ _ S) as Rw.
  assert (LR : forall A (l r : list A), picks R l r -> length r = length R) by (intros; eapply picks_length; eassumption).
  assert (LP : length (u_polpair_array u') = length P) by (apply (picks_length _ _ _ (sp_pols _ _ _ _ _ S))).
  pose proof (LR _ _ _ (rp_bp _ _ _ Rw)) as Lb.
  constructor.
  - rewrite (sp_arr _ _ _ _ _ S), (sp_N _ _ _ _ _ S). apply renumbered_perm; exact W.
  - apply (sp_freq_len _ _ _ _ _ S).
  - apply (sp_dly_len _ _ _ _ _ S).
  - intros s Hs. eapply (renumbered_in u a _ (sp_arr _ _ _ _ _ S) _ (u_spw_freq_array u) (u_freq_array u));
      [apply (sp_freq_len _ _ _ _ _ S) | apply (wf_freq_in u W) | | apply (sp_freq _ _ _ _ _ S) | exact Hs].
    auto.
  - intros s Hs. eapply (renumbered_in u a _ (sp_arr _ _ _ _ _ S) _ (u_spw_dly_array u) (u_dly_array u));
      [apply (sp_dly_len _ _ _ _ _ S) | apply (wf_dly_in u W) | | apply (sp_dly _ _ _ _ _ S) | exact Hs].
    intros p E. apply andb_true_iff in E. tauto.
  - destruct (sp_scalar _ _ _ _ _ S) as [rows [H1 H2]]. split.
    + rewrite <- (Forall2_len _ _ _ H2), (kept_positions _ _ _ _ H1), (sp_arr _ _ _ _ _ S), map_length. reflexivity.
    + assert (F : Forall (fun r => length r = length (u_polpair_array u')) (u_scalar_array u')).
      { eapply Forall2_Forall_r; [exact H2|]. intros x y _ E. rewrite LP. eapply picks_length; exact E. }
      apply Forall_forall. exact F.
  - rewrite Lb. apply (LR _ _ _ (rp_t1 _ _ _ Rw)).
  - rewrite Lb. apply (LR _ _ _ (rp_t2 _ _ _ Rw)).
  - rewrite Lb. apply (LR _ _ _ (rp_ta _ _ _ Rw)).
  - rewrite Lb. apply (LR _ _ _ (rp_l1 _ _ _ Rw)).
  - rewrite Lb. apply (LR _ _ _ (rp_l2 _ _ _ Rw)).
  - rewrite Lb. apply (LR _ _ _ (rp_la _ _ _ Rw)).
  - apply (sp_bl_len _ _ _ _ _ S).
  - assert (F : Forall (shaped u') (dicts u')).
    { eapply Forall2_Forall_r; [exact (sp_dicts _ _ _ _ _ S)|]. intros d d' _ [H1 _] s Hs.
      rewrite (sp_arr _ _ _ _ _ S) in Hs. apply in_map_iff in Hs. destruct Hs as [w [<- Hw]].
      destruct (H1 w Hw) as [ar [ar' [_ [E Sub]]]]. exists ar'. split; [exact E|].
      destruct (sub_array_shape _ _ _ _ Sub) as [L1 L2]. split; [congruence|].
      intros r Hr. rewrite LP. apply L2; exact Hr. }
    intros d Hd. rewrite Forall_forall in F. apply F; exact Hd.
  - assert (F : Forall (fun r => length r = length (u_polpair_array u')) (u_OmegaP u')).
    { eapply Forall2_Forall_r; [exact (sp_omega _ _ _ _ _ S)|]. intros x y _ E. rewrite LP. eapply picks_length; exact E. }
    apply Forall_forall. exact F.
Qed.

Theorem select_wf (u : uvp) a u' : wf u -> select u a = Ok u' -> wf u'.
Proof.
  intros W H. destruct (select_correct u a u' W H) as [R [P S]]. eapply select_spec_wf; eassumption.
Qed.
End S.
