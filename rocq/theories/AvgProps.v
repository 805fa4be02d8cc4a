(** C18, C19: averaging spectra.

    Specification vocabulary (AvgMain.v, AvgProofs.v): [group_contributions q u ta errw s p r d members]
    lists the (value, weight) pairs of all spectra that go into row [r], bin [d] of the average
    of the group [members]; [wmean] is sum(w x) / sum(w); [group_nsample] the plain sum. *)
From Coq Require Import Reals Lra QArith Permutation.
From Verif Require Import PyDict.
From Verif Require Import Prelude ListLemmas UvpModel UvpSpec UvpProofs KeyProofs LengthProofs
  AvgModel AvgProofs AvgMain AvgObject AvgTotal.
Open Scope nat_scope.

(** a valid object whose integration times and sample counts are stored once per spectrum *)
Definition averageable (u : uvp R) (errw : bool) : Prop :=
  wf u /\ widths u /\ narrow u /\ (errw = true -> stat_widths u) /\
  NoDup (u_polpair_array u) /\ nsamples_nonneg u.

(** * C18: every bin of the averaged object is the weighted mean *)
Theorem C18_weighted_mean : forall u ta norm errw exact_w order circ groups weights u' gs,
  averageable u errw ->
  effective_groups u exact_w order groups weights = Ok gs ->
  average_spectra u exact_w order circ ta norm errw groups weights = Ok u' ->
  (forall g, In g gs -> same_times u ta (fst g)) ->
  NoDup (map (fun g => hd 0%Z (fst g)) gs) ->
  forall s p g ws,
  In s (u_spw_freq_array u) -> In s (u_spw_dly_array u) -> In p (u_polpair_array u) ->
  In (g, ws) gs -> 1 <= length g ->
  exists nw data ints nsmp,
    norm_weights norm ws = Ok nw /\
    get_data u' s (hd 0%Z g) p = Ok data /\
    get_array u_integration u' s (hd 0%Z g) p = Ok ints /\
    get_array u_nsample u' s (hd 0%Z g) p = Ok nsmp /\
    length data = grows u ta g /\ length ints = grows u ta g /\ length nsmp = grows u ta g /\
    forall r, r < grows u ta g ->
      length (nth r data []) = width u s /\
      (forall d, d < width u s ->
        (forall b, In b g -> weighted (spec_terms Power u ta errw s p r d b)) ->
        (tiny <= wsum (group_contributions Power u ta errw s p r d (combine g nw)))%R ->
        cell data r d = wmean (group_contributions Power u ta errw s p r d (combine g nw))) /\
      (0 < width u s ->
        (forall b, In b g -> weighted (spec_terms Integration u ta errw s p r 0 b)) ->
        (tiny <= wsum (group_contributions Integration u ta errw s p r 0 (combine g nw)))%R ->
        cell ints r 0 = wmean (group_contributions Integration u ta errw s p r 0 (combine g nw))) /\
      cell nsmp r 0 = group_nsample u ta s p r (combine g nw).
Proof.
  intros u ta norm errw exact_w order circ groups weights u' gs [W [Wd [Na [Sw [Np Nn]]]]] Hgs Hav Hst Nh s p g ws Hs1 Hs2 Hp Hg Hl.
  destruct (averaged_lookup u ta norm errw exact_w order circ groups weights u' gs W Wd Na Sw Np Nn Hgs Hav Hst s p g ws Nh Hs1 Hs2 Hp Hg Hl)
    as [blk [Hblk [Hd [Hi Hn]]]].
  destruct (average_group_spec u ta norm errw W Wd Na Sw Np Nn s p g ws blk (Hst _ Hg) Hblk) as [Sh [nw [Hnw [HQ HN]]]].
  exists nw, (b_data blk), (first_bin (b_ints blk)), (first_bin (b_nsmp blk)).
  assert (FB : forall rows r, cell (first_bin rows) r 0 = bc (nth r rows []) 0).
  { intros rows r. unfold cell, first_bin. change (@nil R) with (firstn 1 (@nil R)) at 1. rewrite map_nth.
    destruct (nth r rows []) as [|x [|y l]]; reflexivity. }
  assert (LFB : forall rows, length (first_bin rows) = length rows) by (intro; apply map_length).
  split; [exact Hnw|]. split; [exact Hd|]. split; [exact Hi|]. split; [exact Hn|].
  rewrite !LFB. destruct Sh as [S1 S2 S3 S4 S5 S6 S7].
  split; [assumption|]. split; [assumption|]. split; [assumption|]. intros r Hr.
  split; [|split; [|split]].
  - apply (nth_Forall (fun x => length x = width u s)); [assumption | lia].
  - intros d Hdw Hw Ht. rewrite <- (HQ Power r d Hr Hdw Hw Ht). unfold cell. cbn [field_of]. symmetry.
    apply (bc_nth (width u s)); [|exact Hdw]. apply (nth_Forall (fun x => length x = width u s)); [assumption | lia].
  - intros Hdw Hw Ht. rewrite FB, <- (HQ Integration r 0 Hr Hdw Hw Ht). reflexivity.
  - rewrite FB. apply HN, Hr.
Qed.
Print Assumptions C18_weighted_mean.

(** an empty list of groups is an IndexError, whatever the weights *)
Theorem C18_no_groups : forall u ew order circ ta norm errw weights,
  average_spectra u ew order circ ta norm errw [] weights = Err IndexError.
Proof. reflexivity. Qed.
Lemma average_nonempty : forall u ew order circ ta norm errw groups weights u',
  average_spectra u ew order circ ta norm errw groups weights = Ok u' -> groups <> [].
Proof. intros u ew order circ ta norm errw groups weights u' H ->. discriminate H. Qed.

(** without weights the groups averaged are the ones asked for, in order, and then every
    baseline-pair of the object that is in none of them, on its own *)
Theorem C18_groups : forall u order groups,
  (forall l, Permutation (order l) l) -> groups <> [] ->
  (forall g, In g groups -> g <> [] /\ In (hd 0%Z g) (u_blpair_array u)) ->
  exists rest, effective_groups u false order groups None =
    Ok (map (fun g => (g, map (fun _ => 1%R) g)) (groups ++ map (fun b => [b]) rest)) /\
    NoDup rest /\ forall b, In b rest <-> In b (u_blpair_array u) /\ ~ In b (concat groups).
Proof.
  intros u order groups Ho Ng Hg. exists (order (leftover u groups)). destruct (leftover_spec u groups) as [H1 H2].
  split; [apply effective_default; [exact Ng | exact Hg]|]. split.
  - eapply Permutation_NoDup; [apply Permutation_sym, Ho | exact H1].
  - intro b. rewrite <- H2. split; intro H; (eapply Permutation_in; [|exact H]); [apply Ho | apply Permutation_sym, Ho].
Qed.
Print Assumptions C18_groups.

(** it does not fail on groups of baseline-pairs of the object (with equal numbers of times,
    unless the times are averaged) *)
Theorem C18_total : forall u ta order circ groups,
  averageable u false ->
  (forall s, s < u_Nspws u -> In s (u_spw_freq_array u) /\ In s (u_spw_dly_array u)) ->
  (forall l, Permutation (order l) l) -> groups <> [] ->
  (forall g, In g groups -> g <> [] /\ forall b, In b g -> In b (u_blpair_array u)) ->
  (forall g, In g groups -> same_times u ta g) ->
  exists u', average_spectra u false order circ ta true false groups None = Ok u'.
Proof.
  intros u ta order circ groups [W [Wd [Na [_ [Np _]]]]] Hf Ho Ng Hg Hs.
  eapply average_total; eauto.
Qed.
Print Assumptions C18_total.

(** with equal weights every member counts exactly once *)
Lemma combine_ones {A} (g : list A) : combine g (map (fun _ => 1%R) g) = map (fun b => (b, 1%R)) g.
Proof. induction g as [|b g IH]; cbn; [reflexivity | f_equal; exact IH]. Qed.
Lemma contributions_once : forall q u ta errw s p r d g,
  group_contributions q u ta errw s p r d (combine g (map (fun _ => 1%R) g)) =
  flat_map (spec_terms q u ta errw s p r d) g.
Proof.
  intros q u ta errw s p r d g. rewrite combine_ones. unfold group_contributions.
  induction g as [|b g IH]; [reflexivity|]. cbn [map flat_map fst snd]. rewrite copies_of_1, IH.
  cbn [repeat concat]. rewrite app_nil_r. reflexivity.
Qed.
Lemma nsample_once : forall u ta s p r g,
  group_nsample u ta s p r (combine g (map (fun _ => 1%R) g)) = Rsum (map (spec_nsample u ta s p r) g).
Proof.
  intros u ta s p r g. rewrite combine_ones. unfold group_nsample. rewrite map_map. f_equal.
  apply map_ext. intro b. cbn [fst snd]. rewrite copies_of_1. cbn. ring.
Qed.

(** the default call: plain weighted mean over the members, samples add up *)
Theorem C18_default_mean : forall u ta order circ groups u',
  averageable u false -> (forall l, Permutation (order l) l) ->
  (forall g, In g groups -> g <> [] /\ forall b, In b g -> In b (u_blpair_array u)) ->
  (forall g, In g groups -> same_times u ta g) ->
  NoDup (map (hd 0%Z) groups) ->
  average_spectra u false order circ ta true false groups None = Ok u' ->
  forall s p g,
  In s (u_spw_freq_array u) -> In s (u_spw_dly_array u) -> In p (u_polpair_array u) -> In g groups ->
  exists data nsmp,
    get_data u' s (hd 0%Z g) p = Ok data /\ get_array u_nsample u' s (hd 0%Z g) p = Ok nsmp /\
    length data = grows u ta g /\ length nsmp = grows u ta g /\
    forall r, r < grows u ta g ->
      length (nth r data []) = width u s /\
      cell nsmp r 0 = Rsum (map (spec_nsample u ta s p r) g) /\
      forall d, d < width u s ->
        (forall b, In b g -> weighted (spec_terms Power u ta false s p r d b)) ->
        (tiny <= wsum (flat_map (spec_terms Power u ta false s p r d) g))%R ->
        cell data r d = wmean (flat_map (spec_terms Power u ta false s p r d) g).
Proof.
  intros u ta order circ groups u' A Ho Hg Hst Nh Hav s p g Hs1 Hs2 Hp Hgin.
  assert (Hg1 : forall g, In g groups -> g <> [] /\ In (hd 0%Z g) (u_blpair_array u)).
  { intros g0 H0. destruct (Hg g0 H0) as [H1 H2]. split; [exact H1|]. apply H2. destruct g0; [congruence | left; reflexivity]. }
  destruct (C18_groups u order groups Ho (average_nonempty _ _ _ _ _ _ _ _ _ _ Hav) Hg1) as [rest [Hgs [Nr Hr]]].
  set (gl := groups ++ map (fun b => [b]) rest) in *.
  destruct (C18_weighted_mean u ta true false false order circ groups None u' _ A Hgs Hav) with (s := s) (p := p) (g := g) (ws := map (fun _ : Z => 1%R) g)
    as [nw [data [ints [nsmp [Hnw [Hd [Hi [Hn [L1 [L2 [L3 H]]]]]]]]]]]; auto.
  - intros gw Hgw. apply in_map_iff in Hgw. destruct Hgw as [g0 [<- H0]]. cbn [fst]. apply in_app_or in H0. destruct H0 as [H0|H0]; [auto|].
    apply in_map_iff in H0. destruct H0 as [b [<- _]]. right. intros b' [<-|[]]. reflexivity.
  - rewrite map_map. cbn [fst]. unfold gl. rewrite map_app, map_map. cbn [hd]. rewrite map_id.
    apply NoDup_app; auto. intros x Hx Hx'. apply Hr in Hx'. destruct Hx' as [_ Hx'].
    apply in_map_iff in Hx. destruct Hx as [g0 [<- H0]]. apply Hx'. apply in_concat. exists g0. split; [exact H0|].
    destruct (Hg1 g0 H0) as [Hne _]. destruct g0; [congruence | left; reflexivity].
  - apply in_map_iff. exists g. split; [reflexivity|]. apply in_or_app. left. exact Hgin.
  - destruct (Hg1 g Hgin) as [Hne _]. destruct g; [congruence | cbn; lia].
  - rewrite norm_equal in Hnw by (try lra; apply (Hg1 g Hgin)). injection Hnw as <-.
    exists data, nsmp. repeat (split; [assumption|]). intros r Hr0. destruct (H r Hr0) as [R1 [R2 [_ R4]]].
    split; [exact R1|]. rewrite nsample_once in R4. split; [exact R4|]. intros d Hdw Hw Ht.
    rewrite <- contributions_once. apply R2; auto. rewrite contributions_once. exact Ht.
Qed.
Print Assumptions C18_default_mean.

(** the order of the baseline-pairs in a group does not change the averaged spectrum *)
Theorem C18_order_irrelevant : forall u ta order circ g g' u1 u2,
  averageable u false -> (forall l, Permutation (order l) l) ->
  g <> [] -> (forall b, In b g -> In b (u_blpair_array u)) -> same_times u ta g ->
  Permutation g g' ->
  average_spectra u false order circ ta true false [g] None = Ok u1 ->
  average_spectra u false order circ ta true false [g'] None = Ok u2 ->
  forall s p, In s (u_spw_freq_array u) -> In s (u_spw_dly_array u) -> In p (u_polpair_array u) ->
  (forall r d b, In b g -> weighted (spec_terms Power u ta false s p r d b)) ->
  (forall r d, r < grows u ta g -> (tiny <= wsum (flat_map (spec_terms Power u ta false s p r d) g))%R) ->
  get_data u1 s (hd 0%Z g) p = get_data u2 s (hd 0%Z g') p.
Proof.
  intros u ta order circ g g' u1 u2 A Ho Hne Hin Hst P H1 H2 s p Hs1 Hs2 Hp Hw Ht.
  assert (Hne' : g' <> []). { intro E. subst. apply Permutation_sym, Permutation_nil in P. congruence. }
  assert (Hin' : forall b, In b g' -> In b (u_blpair_array u)) by (intros b Hb; apply Hin, (Permutation_in _ (Permutation_sym P)), Hb).
  assert (Hh : forall g0 : list Z, g0 <> [] -> In (hd 0%Z g0) g0) by (intros [|x l] ?; [congruence | left; reflexivity]).
  assert (Gr : grows u ta g' = grows u ta g).
  { unfold grows, out_rows. destruct ta; [reflexivity|]. destruct Hst as [?|Hst]; [discriminate|].
    apply Hst. apply (Permutation_in _ (Permutation_sym P)), Hh, Hne'. }
  assert (Hst' : same_times u ta g').
  { destruct Hst as [->|Hst]; [left; reflexivity|]. right. intros b Hb.
    rewrite (Hst b) by (apply (Permutation_in _ (Permutation_sym P)), Hb).
    symmetry. apply Hst. apply (Permutation_in _ (Permutation_sym P)), Hh, Hne'. }
  destruct (C18_default_mean u ta order circ [g] u1 A Ho) with (s := s) (p := p) (g := g) as [d1 [n1 [E1 [_ [L1 [_ F1]]]]]]; auto.
  { intros x [<-|[]]; auto. } { intros x [<-|[]]; auto. } { constructor; [intros [] | constructor]. } { left; reflexivity. }
  destruct (C18_default_mean u ta order circ [g'] u2 A Ho) with (s := s) (p := p) (g := g') as [d2 [n2 [E2 [_ [L2 [_ F2]]]]]]; auto.
  { intros x [<-|[]]; auto. } { intros x [<-|[]]; auto. } { constructor; [intros [] | constructor]. } { left; reflexivity. }
  rewrite E1, E2. f_equal. apply (nth_ext _ _ [] []); [congruence|]. intros r Hr. rewrite L1 in Hr.
  destruct (F1 r Hr) as [W1 [_ C1]]. destruct (F2 r ltac:(rewrite Gr; exact Hr)) as [W2 [_ C2]].
  apply (nth_ext _ _ 0%R 0%R); [congruence|]. intros d Hd. rewrite W1 in Hd.
  specialize (C1 d Hd (fun b Hb => Hw r d b Hb) (Ht r d Hr)).
  assert (PT : Permutation (flat_map (spec_terms Power u ta false s p r d) g) (flat_map (spec_terms Power u ta false s p r d) g')).
  { apply Permutation_flat_map, P. }
  unfold cell in C1, C2. rewrite C1, C2; auto.
  - apply wmean_perm, PT.
  - intros b Hb. apply Hw, (Permutation_in _ (Permutation_sym P)), Hb.
  - replace (wsum (flat_map (spec_terms Power u ta false s p r d) g')) with (wsum (flat_map (spec_terms Power u ta false s p r d) g)); [apply Ht, Hr|].
    unfold wsum. apply Rsum_perm, Permutation_map, PT.
Qed.
Print Assumptions C18_order_irrelevant.

(** the average lies between the smallest and the largest contribution of positive weight *)
Theorem C18_bounds : forall u ta order circ groups u',
  averageable u false -> (forall l, Permutation (order l) l) ->
  (forall g, In g groups -> g <> [] /\ forall b, In b g -> In b (u_blpair_array u)) ->
  (forall g, In g groups -> same_times u ta g) ->
  NoDup (map (hd 0%Z) groups) ->
  average_spectra u false order circ ta true false groups None = Ok u' ->
  forall s p g r d lo hi,
  In s (u_spw_freq_array u) -> In s (u_spw_dly_array u) -> In p (u_polpair_array u) -> In g groups ->
  r < grows u ta g -> d < width u s ->
  (forall b, In b g -> weighted (spec_terms Power u ta false s p r d b)) ->
  (tiny <= wsum (flat_map (spec_terms Power u ta false s p r d) g))%R ->
  (forall b x w, In b g -> In (x, w) (spec_terms Power u ta false s p r d b) -> (0 < w)%R -> (lo <= x <= hi)%R) ->
  exists data, get_data u' s (hd 0%Z g) p = Ok data /\ (lo <= cell data r d <= hi)%R.
Proof.
  intros u ta order circ groups u' A Ho Hg Hst Nh Hav s p g r d lo hi Hs1 Hs2 Hp Hgin Hr Hd Hw Ht Hb.
  destruct (C18_default_mean u ta order circ groups u' A Ho Hg Hst Nh Hav s p g Hs1 Hs2 Hp Hgin) as [data [nsmp [E [_ [_ [_ H]]]]]].
  exists data. split; [exact E|]. destruct (H r Hr) as [_ [_ C]]. rewrite (C d Hd Hw Ht). apply wmean_bounds.
  - apply Forall_forall. intros [x w] Hin. apply in_flat_map in Hin. destruct Hin as [b [_ Hin]].
    unfold spec_terms in Hin. apply in_map_iff in Hin. destruct Hin as [t [Et _]]. injection Et as _ <-. cbn [snd].
    unfold spec_weight. apply Rmult_le_pos; [apply pow2_ge_0|]. destruct A as [_ [_ [_ [_ [_ Nn]]]]].
    destruct (get_array u_nsample u s b p) as [rows|e] eqn:En; cbn [rows_or_nil]; [apply (Nn _ _ _ _ _ En)|].
    unfold cell. destruct t; cbn; lra.
  - pose proof tiny_pos. lra.
  - apply Forall_forall. intros [x w] Hin Hpos. apply in_flat_map in Hin. destruct Hin as [b [Hbg Hin]].
    exact (Hb b x w Hbg Hin Hpos).
Qed.
Print Assumptions C18_bounds.

(** averaging sub-groups first and combining them with their summed weights is averaging all at
    once; the weights the code recomputes from the averaged integrations and summed samples are
    those summed weights when the integration times are equal *)
Theorem C18_two_steps : forall ls, Forall (fun l => wsum l <> 0%R) ls ->
  wmean (map (fun l => (wmean l, wsum l)) ls) = wmean (concat ls).
Proof. exact wmean_two_step. Qed.
Theorem C18_recomputed_weights : forall tau l, Forall (fun p => fst p = tau) l ->
  total_weight l <> 0%R -> reweight l = total_weight l.
Proof. exact reweight_const. Qed.
Print Assumptions C18_two_steps.
Print Assumptions C18_recomputed_weights.

(** ... and not otherwise: integrations 1 and 3 with one sample each *)
Theorem C18_two_steps_unequal_times_refuted :
  ~ (forall l, Forall (fun p => (0 < fst p)%R /\ (0 < snd p)%R) l -> l <> [] -> reweight l = total_weight l).
Proof.
  intro H. specialize (H [(1, 1); (3, 1)]%R). unfold reweight, total_weight, wmean, xsum, wsum in H.
  cbn [map fst snd Rsum] in H. assert (E := H ltac:(repeat constructor; cbn; lra) ltac:(discriminate)). lra.
Qed.
Print Assumptions C18_two_steps_unequal_times_refuted.

(** error bars add in quadrature: sqrt(sum (w e)^2) / sum w *)
Theorem C18_error_bars : forall l, Forall (fun ew => (fst ew ^ 2 <= IZR (10 ^ 40))%R) l -> (tiny <= Rsum (map snd l))%R ->
  (/ IZR (10 ^ 8) < Rsum (map (fun ew => (fst ew * snd ew) ^ 2)%R l) / (Rsum (map snd l)) ^ 2)%R ->
  avg_stat l = Some (sqrt (Rsum (map (fun ew => (fst ew * snd ew) ^ 2)%R l)) / Rsum (map snd l))%R.
Proof. exact avg_stat_spec. Qed.
Print Assumptions C18_error_bars.
(** ... but error bars below 1e-4 come out infinite *)
Theorem C18_small_error_bars_refuted :
  ~ (forall l, Forall (fun ew => (0 < fst ew)%R /\ (0 < snd ew)%R) l -> l <> [] -> avg_stat l <> None).
Proof.
  intro H. apply (H [(/ 10 ^ 5, 1)]%R).
  - repeat constructor; cbn [fst snd]; [apply Rinv_0_lt_compat, pow_lt|]; lra.
  - discriminate.
  - unfold avg_stat. cbn [map fst snd Rsum].
    assert (T1 : (tiny <= 1)%R).
    { unfold tiny. rewrite <- Rinv_1. apply Rinv_le_contravar; [lra|]. apply IZR_le. lia. }
    rewrite clip_id by lra.
    match goal with |- (if Rle_dec (Rabs ?v) _ then _ else _) = _ => assert (V : (v = / 10 ^ 10)%R) end.
    { rewrite Rmin_left.
      - field.
      - apply Rle_trans with 1%R; [|apply IZR_le; lia]. assert ((/ 10 ^ 5 <= 1)%R) by (rewrite <- Rinv_1; apply Rinv_le_contravar; lra).
        assert ((0 < / 10 ^ 5)%R) by (apply Rinv_0_lt_compat, pow_lt; lra). nra. }
    rewrite V. destruct (Rle_dec _ _) as [_|N]; [reflexivity|]. exfalso. apply N.
    rewrite Rabs_right. 2:{ apply Rle_ge, Rlt_le, Rinv_0_lt_compat, pow_lt; lra. }
    apply Rinv_le_contravar; [apply IZR_lt; reflexivity|]. cbn. lra.
Qed.
Print Assumptions C18_small_error_bars_refuted.

(** averaged window functions keep rows that sum to one *)
Theorem C18_window_rows : forall l n, l <> [] ->
  Forall (fun rw => length (fst rw) = n /\ Rsum (fst rw) = 1%R) l -> (tiny <= Rsum (map snd l))%R ->
  Rsum (avg_window false l) = 1%R.
Proof. intros l n. exact (avg_window_sum false l n). Qed.
Print Assumptions C18_window_rows.
(** ... except exact window functions, which are summed and not divided *)
Theorem C18_exact_window_rows_refuted :
  ~ (forall l n, l <> [] -> Forall (fun rw => length (fst rw) = n /\ Rsum (fst rw) = 1%R) l ->
     (1 <= Rsum (map snd l))%R -> Rsum (avg_window true l) = 1%R).
Proof.
  intro H. specialize (H [([1%R], 1%R); ([1%R], 1%R)] 1). unfold avg_window, colsum in H. cbn in H.
  assert (E := H ltac:(discriminate) ltac:(repeat constructor; cbn; lra) ltac:(lra)). lra.
Qed.
Print Assumptions C18_exact_window_rows_refuted.

(** * C19: relative weights *)
(** how often each baseline-pair of a group is counted when weights are given *)
Definition counted (ws : list R) : result (list nat) := bind (norm_weights true ws) (fun nw => Ok (map copies_of nw)).

(** equal weights, and weights proportional to integers that add up to the group size, are
    honoured exactly *)
Theorem C19_integer_weights : forall ws ks, (0 < Rsum ws)%R -> length ks = length ws ->
  (forall i w k, nth_error ws i = Some w -> nth_error ks i = Some k ->
     (w * INR (length ws) = INR k * Rsum ws)%R) ->
  counted ws = Ok ks.
Proof.
  intros ws ks P L H. destruct (norm_integers ws ks P L H) as [nw [E1 E2]]. unfold counted. rewrite E1. cbn. congruence.
Qed.
Print Assumptions C19_integer_weights.
Theorem C19_equal_weights : forall (g : list Z) c, g <> [] -> (0 < c)%R ->
  counted (map (fun _ => c) g) = Ok (map (fun _ => 1) g).
Proof.
  intros g c Hg Hc. unfold counted. rewrite norm_equal by assumption. cbn [bind]. rewrite map_map. f_equal.
  apply map_ext. intros _. apply copies_of_1.
Qed.
Print Assumptions C19_equal_weights.
Example C19_integer_case : counted [2; 4; 0]%R = Ok [1; 2; 0].
Proof.
  apply C19_integer_weights; [cbn; lra | reflexivity|].
  intros [|[|[|i]]] w k E1 E2; cbn [nth_error] in E1, E2; [| | |destruct i; discriminate];
    inversion E1; inversion E2; cbn; lra.
Qed.

(** a lone member whose weight is below the mean of the group is dropped: with weights 1 and 3
    the average is the second spectrum only *)
Theorem C19_weights_refuted :
  ~ (forall ws ks, Forall (fun w => (0 < w)%R) ws -> counted ws = Ok ks ->
     forall i j wi wj ki kj, nth_error ws i = Some wi -> nth_error ws j = Some wj ->
     nth_error ks i = Some ki -> nth_error ks j = Some kj -> (wi * INR kj = wj * INR ki)%R).
Proof.
  intro H.
  assert (E : counted [1; 3]%R = Ok [0; 1]).
  { unfold counted, norm_weights. cbn [Rsum]. destruct (Rle_dec _ 0) as [?|_]; [lra|]. cbn [bind map length].
    f_equal. f_equal; [|f_equal].
    - apply copies_of_neg. cbn [INR]. lra.
    - apply copies_of_spec. cbn [INR]. lra. }
  specialize (H [1; 3]%R [0; 1] ltac:(repeat constructor; lra) E 0 1 1%R 3%R 0 1 eq_refl eq_refl eq_refl eq_refl).
  cbn in H. lra.
Qed.
Print Assumptions C19_weights_refuted.
Theorem C19_underweight_dropped : forall ws i w, (0 < Rsum ws)%R -> nth_error ws i = Some w ->
  (w * INR (length ws) < Rsum ws)%R -> exists ks, counted ws = Ok ks /\ nth_error ks i = Some 0.
Proof.
  intros ws i w P Hi Hw. unfold counted, norm_weights. destruct (Rle_dec (Rsum ws) 0) as [?|_]; [lra|].
  eexists; split; [reflexivity|]. rewrite map_map, nth_error_map, Hi. cbn [option_map]. f_equal. apply copies_of_neg.
  apply (Rmult_lt_reg_r (Rsum ws)); [exact P|]. unfold Rdiv. rewrite Rmult_assoc, Rinv_l by lra. lra.
Qed.
Print Assumptions C19_underweight_dropped.

(** normalize_weights=False still multiplies by the size of the group: unit weights count each
    member of a group of n n-fold *)
Theorem C19_unnormalised_refuted :
  ~ (forall ws nw, Forall (fun w => (0 < w)%R) ws -> norm_weights false ws = Ok nw -> nw = ws).
Proof.
  intro H. specialize (H [1; 1]%R). unfold norm_weights in H. destruct (Rle_dec 1 0) as [?|_]; [lra|].
  specialize (H _ ltac:(repeat constructor; lra) eq_refl). cbn [map length INR] in H. injection H as H _. lra.
Qed.
Print Assumptions C19_unnormalised_refuted.
Theorem C19_unnormalised : forall (g : list Z), g <> [] ->
  norm_weights false (map (fun _ => 1%R) g) = Ok (map (fun _ => INR (length g)) g).
Proof.
  intros g Hg. unfold norm_weights. destruct (Rle_dec 1 0) as [?|_]; [lra|]. f_equal. rewrite map_map, map_length.
  apply map_ext. intros _. field.
Qed.
Print Assumptions C19_unnormalised.
(** non-positive sums of weights are rejected *)
Theorem C19_nonpositive_rejected : forall ws, (Rsum ws <= 0)%R -> norm_weights true ws = Err ValueError.
Proof. intros ws H. unfold norm_weights. destruct (Rle_dec (Rsum ws) 0); [reflexivity | lra]. Qed.
Print Assumptions C19_nonpositive_rejected.

(** * a concrete object: two baseline-pairs, two times, two delays *)
Definition avg_obj : uvp R :=
  mkuvp false 1 [0] [0; 0] [0; 0] [1; 2]%R [-1 # 1; 0 # 1]%Q [[1%R]]
    [11; 22; 11; 22]%Z [0; 0; 1; 1]%Q [0; 0; 1; 1]%Q [0; 0; 1; 1]%Q [0; 0; 1; 1]%Q [0; 0; 1; 1]%Q [0; 0; 1; 1]%Q
    [1; 2]%Z [0; 0]%R [505]%Z
    [(0, [[[1; 10]]; [[2; 20]]; [[3; 30]]; [[4; 40]]]%R)]
    [(0, [[[1]]; [[1]]; [[1]]; [[1]]]%R)]
    [(0, [[[1]]; [[1]]; [[2]]; [[1]]]%R)]
    [(0, [[[1]]; [[3]]; [[1]]; [[1]]]%R)]
    None None None [] [] [].

Lemma dget_single {A} (a : A) s x : dget Nat.eq_dec [(0, a)] s = Some x -> x = a.
Proof. unfold dget. cbn. destruct (Nat.eq_dec s 0); intro H; congruence. Qed.

Lemma stored_nonneg u : (forall s a r c x, dget Nat.eq_dec (u_nsample u) s = Some a -> In r a -> In c r -> In x c -> (0 <= x)%R) ->
  nsamples_nonneg u.
Proof.
  intros H s b p rows t E. destruct (get_array_rows u _ s b p rows E) as [_ [a [Ha F]]].
  unfold cell. destruct (nth_in_or_default t rows []) as [Hin| ->]; [|cbn; lra].
  destruct (F _ Hin) as [r [Hr Hc]].
  destruct (nth_in_or_default 0 (nth t rows []) 0%R) as [Hx| ->]; [|lra]. exact (H s a r _ _ Ha Hr Hc Hx).
Qed.

Lemma avg_obj_averageable : averageable avg_obj false.
Proof.
  unfold averageable. split; [|split; [|split; [|split; [|split]]]].
  - split; try reflexivity; try (cbn; tauto).
    + cbn. split; [reflexivity|]. intros r [<-|[]]; reflexivity.
    + intros d Hd. cbn in Hd. unfold shaped.
      destruct Hd as [<-|[<-|[<-|[<-|[]]]]]; intros s Hs; cbn in Hs; destruct Hs as [<-|[]];
      (eexists; split; [reflexivity|]; split; [reflexivity|]; cbn; intros r Hr; intuition (subst; reflexivity)).
  - intros s a r c Hs Ha Hr Hc. apply dget_single in Ha. subst a. cbn in Hs. destruct Hs as [<-|[]].
    cbn in Hr. destruct Hr as [<-|[<-|[<-|[<-|[]]]]]; cbn in Hc; destruct Hc as [<-|[]]; reflexivity.
  - intros f s a r c Hf Ha Hr Hc. destruct Hf as [-> | ->]; cbn in Ha; apply dget_single in Ha; subst a;
    cbn in Hr; destruct Hr as [<-|[<-|[<-|[<-|[]]]]]; cbn in Hc; destruct Hc as [<-|[]]; reflexivity.
  - discriminate.
  - repeat constructor. intros [].
  - apply stored_nonneg. intros s a r c x Ha Hr Hc Hx. cbn in Ha; apply dget_single in Ha; subst a;
    cbn in Hr; destruct Hr as [<-|[<-|[<-|[<-|[]]]]]; cbn in Hc; destruct Hc as [<-|[]]; cbn in Hx; destruct Hx as [<-|[]]; lra.
Qed.

(** averaging both baseline-pairs over both times: weights 1, 4 (baseline-pair 11) and 3, 1 (22) *)
Example C18_case : exists u' data nsmp,
  average_spectra avg_obj false (fun l => l) (fun _ => 0%Q) true true false [[11; 22]%Z] None = Ok u' /\
  get_data u' 0 11 505 = Ok data /\ get_array u_nsample u' 0 11 505 = Ok nsmp /\
  cell data 0 0 = ((1 * 1 + 3 * 4 + 2 * 3 + 4 * 1) / 9)%R /\
  cell data 0 1 = ((10 * 1 + 30 * 4 + 20 * 3 + 40 * 1) / 9)%R /\ cell nsmp 0 0 = 6%R.
Proof.
  destruct (C18_total avg_obj true (fun l => l) (fun _ => 0%Q) [[11; 22]%Z] avg_obj_averageable) as [u' H].
  - intros s Hs. cbn in Hs. assert (s = 0) by lia. subst. cbn. tauto.
  - intro l. apply Permutation_refl.
  - discriminate.
  - intros g [<-|[]]. split; [discriminate|]. cbn. tauto.
  - intros g [<-|[]]. left; reflexivity.
  - destruct (C18_default_mean avg_obj true (fun l => l) (fun _ => 0%Q) [[11; 22]%Z] u' avg_obj_averageable
      (fun l => Permutation_refl l)) with (s := 0) (p := 505%Z) (g := [11; 22]%Z) as [data [nsmp [E1 [E2 [_ [_ F]]]]]].
    + intros g [<-|[]]. split; [discriminate|]. cbn. tauto.
    + intros g [<-|[]]. left; reflexivity.
    + repeat constructor. intros [].
    + exact H.
    + cbn; tauto.
    + cbn; tauto.
    + cbn; tauto.
    + cbn; tauto.
    + exists u', data, nsmp. split; [exact H|]. split; [exact E1|]. split; [exact E2|].
      assert (T1 : (tiny <= 1)%R).
      { unfold tiny. rewrite <- Rinv_1. apply Rinv_le_contravar; [lra|]. apply IZR_le. lia. }
      destruct (F 0 ltac:(cbn; lia)) as [_ [N D]].
      split; [|split].
      * rewrite (D 0 ltac:(cbn; lia)).
        -- unfold wmean, xsum, wsum. cbn. field.
        -- intros b [<-|[<-|[]]]; left; unfold wsum; cbn; lra.
        -- unfold wsum. cbn. lra.
      * rewrite (D 1 ltac:(cbn; lia)).
        -- unfold wmean, xsum, wsum. cbn. field.
        -- intros b [<-|[<-|[]]]; left; unfold wsum; cbn; lra.
        -- unfold wsum. cbn. lra.
      * rewrite N. cbn. ring.
Qed.
