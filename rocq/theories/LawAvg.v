(** Properties C319-C320: an averaged spectrum depends only on the spectra that are averaged. *)
From Coq Require Import Reals Lra QArith Sorted Permutation.
From Verif Require Import PyDict.
From Verif Require Import Prelude ListLemmas UvpModel UvpSpec UvpProofs SelectProofs SelectMain SelectTotal KeyProofs LengthProofs
  AvgModel AvgProofs AvgMain AvgObject AvgTotal AvgProps LawModel LawProofs LawSelect.
Open Scope nat_scope.

(** what is stored for baseline-pair [b] in window [s] and polarization [p] of [u] is what is stored for it in window [s'] and
    polarization [p'] of [v] *)
Definition same_spectra (errw : bool) (u v : uvp R) (s s' : nat) (p p' b : Z) : Prop :=
  get_data u s b p = get_data v s' b p' /\ get_array u_integration u s b p = get_array u_integration v s' b p' /\
  get_array u_nsample u s b p = get_array u_nsample v s' b p' /\ (errw = true -> get_stats u s b p = get_stats v s' b p').

Lemma average_group_ext u v ta norm errw s s' p p' g ws : (forall b, In b g -> same_spectra errw u v s s' p p' b) ->
  average_group u ta norm errw s p g ws = average_group v ta norm errw s' p' g ws.
Proof.
  intros H. unfold average_group. destruct (norm_weights norm ws) as [nw|]; [|reflexivity]. cbn [bind].
  assert (E : map_res (fetch u s p errw) g = map_res (fetch v s' p' errw) g).
  { induction g as [|b g IH]; [reflexivity|]. cbn [map_res]. rewrite IH by (intros; apply H; right; assumption).
    destruct (H b (or_introl eq_refl)) as (E1 & E2 & E3 & E4). unfold fetch. rewrite E1, E2, E3. destruct errw; [rewrite E4 by reflexivity; reflexivity|reflexivity]. }
  rewrite E. reflexivity.
Qed.

(** * C319: no cross-talk *)
(** two objects that may differ in all other baseline-pairs, windows, polarizations, times of other pairs, and their groups:
    if they agree on the members of one group, they agree on its average *)
Theorem average_no_crosstalk : forall u v ta norm errw ew ew' order order' circ circ' groups groups' weights weights' u' v' gs gs',
  averageable u errw -> averageable v errw ->
  effective_groups u ew order groups weights = Ok gs -> effective_groups v ew' order' groups' weights' = Ok gs' ->
  average_spectra u ew order circ ta norm errw groups weights = Ok u' -> average_spectra v ew' order' circ' ta norm errw groups' weights' = Ok v' ->
  (forall g, In g gs -> same_times u ta (fst g)) -> (forall g, In g gs' -> same_times v ta (fst g)) ->
  NoDup (map (fun g => hd 0%Z (fst g)) gs) -> NoDup (map (fun g => hd 0%Z (fst g)) gs') ->
  forall s s' p p' g ws,
  In s (u_spw_freq_array u) -> In s (u_spw_dly_array u) -> In p (u_polpair_array u) -> In (g, ws) gs ->
  In s' (u_spw_freq_array v) -> In s' (u_spw_dly_array v) -> In p' (u_polpair_array v) -> In (g, ws) gs' -> 1 <= length g ->
  (forall b, In b g -> same_spectra errw u v s s' p p' b) ->
  get_data u' s (hd 0%Z g) p = get_data v' s' (hd 0%Z g) p' /\
  get_array u_integration u' s (hd 0%Z g) p = get_array u_integration v' s' (hd 0%Z g) p' /\
  get_array u_nsample u' s (hd 0%Z g) p = get_array u_nsample v' s' (hd 0%Z g) p'.
Proof.
  intros u v ta norm errw ew ew' order order' circ circ' groups groups' weights weights' u' v' gs gs'
    (W & Wd & Na & Sw & Np & Nn) (W' & Wd' & Na' & Sw' & Np' & Nn') G G' A A' T T' N N' s s' p p' g ws S1 S2 Sp Sg S1' S2' Sp' Sg' L H.
  destruct (averaged_lookup u ta norm errw ew order circ groups weights u' gs W Wd Na Sw Np Nn G A T s p g ws N S1 S2 Sp Sg L) as (blk & B1 & B2 & B3 & B4).
  destruct (averaged_lookup v ta norm errw ew' order' circ' groups' weights' v' gs' W' Wd' Na' Sw' Np' Nn' G' A' T' s' p' g ws N' S1' S2' Sp' Sg' L) as (blk' & C1 & C2 & C3 & C4).
  rewrite (average_group_ext u v ta norm errw s s' p p' g ws H) in B1. rewrite B1 in C1. injection C1 as <-.
  rewrite B2, B3, B4, C2, C3, C4. repeat split.
Qed.
Print Assumptions average_no_crosstalk.

(** * lookups after a selection of windows and polarizations *)
Section Look.
Context {X : Type}.
Notation uvp := (uvp X).
Lemma lookup_kept (u u' : uvp) a R P (d d' : list (nat * arr X)) w b p rows : wf u -> NoDup (u_polpair_array u) -> no_row_args a ->
  select_spec u a u' R P -> dict_selected (spw_kept u a) R P d d' -> In w (spw_kept u a) ->
  lookup_spec u' d' (rank (spw_kept u a) w) b p rows -> lookup_spec u d w b p rows.
Proof.
  intros W N Na S D Hw L. destruct (dict_selected_lookup u u' a R P d d' w b p rows W N S D Hw L) as (k & ar & idx & E1 & E2 & E3 & E4 & E5).
  exists k, ar, idx. repeat split; try assumption.
  - intros Hi. apply E4 in Hi. apply Hi.
  - intros Hi. apply E4. split; [exact Hi|]. apply row_wanted_none; [exact W|exact Na|]. apply nth_error_Some. congruence.
Qed.
Lemma in_spw_select (u u' : uvp) a R P w : wf u -> select_spec u a u' R P -> In w (spw_kept u a) -> (u_folded u = false \/ a_spws a = None) ->
  (In (rank (spw_kept u a) w) (u_spw_freq_array u') <-> In w (u_spw_freq_array u)) /\ (In (rank (spw_kept u a) w) (u_spw_dly_array u') <-> In w (u_spw_dly_array u)).
Proof.
  intros W S Hw Hc.
  assert (CI : forall (A B : Type) (l : list A) (r : list B) x, length r = length l -> (In x l <-> exists y, In (x, y) (combine l r))).
  { intros A B l. induction l as [|z l IH]; intros [|y r] x E; try discriminate; cbn; [split; [intros []|intros [? []]]|]. injection E as E. rewrite (IH r x E). split.
    - intros [<-|[q Hq]]; [exists y; left; reflexivity|exists q; right; exact Hq].
    - intros [q [Hq|Hq]]; [injection Hq as -> _; left; reflexivity|right; exists q; exact Hq]. }
  assert (Ew : spw_wanted a w = true) by (apply filter_In in Hw; tauto).
  split.
  - rewrite (CI _ _ _ _ _ (sp_freq_len _ _ _ _ _ S)), (CI _ _ _ _ _ (wf_freq u W)), (sp_freq _ _ _ _ _ S). split.
    + intros [y Hy]. apply in_map_iff in Hy. destruct Hy as ([q z] & E & Hq). cbn in E. injection E as E <-. apply filter_In in Hq. destruct Hq as [Hq Eq]. cbn in Eq.
      exists z. assert (q = w). { eapply rank_inj; [|exact Hw|exact E]. apply filter_In. split; [|exact Eq]. apply (wf_freq_in u W). eapply in_combine_l; exact Hq. } subst q. exact Hq.
    + intros [y Hy]. exists y. apply in_map_iff. exists (w, y). split; [reflexivity|]. apply filter_In. split; [exact Hy|exact Ew].
  - rewrite (CI _ _ _ _ _ (sp_dly_len _ _ _ _ _ S)), (CI _ _ _ _ _ (wf_dly u W)), (sp_dly _ _ _ _ _ S). split.
    + intros [y Hy]. apply in_map_iff in Hy. destruct Hy as ([q z] & E & Hq). cbn in E. injection E as E <-. apply filter_In in Hq. destruct Hq as [Hq Eq]. cbn in Eq. apply andb_true_iff in Eq. destruct Eq as [Eq _].
      exists z. assert (q = w). { eapply rank_inj; [|exact Hw|exact E]. apply filter_In. split; [|exact Eq]. apply (wf_dly_in u W). eapply in_combine_l; exact Hq. } subst q. exact Hq.
    + intros [y Hy]. exists y. apply in_map_iff. exists (w, y). split; [reflexivity|]. apply filter_In. split; [exact Hy|]. cbn. rewrite Ew. destruct Hc as [-> | ->]; [reflexivity|rewrite orb_true_r; reflexivity].
Qed.
(** reading any array at a kept key gives what the original object gives *)
Lemma get_array_kept (u u' : uvp) a (f : uvp -> list (nat * arr X)) w b p : wf u -> NoDup (u_polpair_array u) -> no_row_args a ->
  u_folded u = false \/ a_spws a = None -> select u a = Ok u' ->
  In (f u) (dicts u) -> In (f u') (dicts u') -> (forall R P, select_spec u a u' R P -> dict_selected (spw_kept u a) R P (f u) (f u')) ->
  In w (spw_kept u a) -> In p (u_polpair_array u') ->
  get_array f u' (rank (spw_kept u a) w) b p = get_array f u w b p.
Proof.
  intros W N Na Hc H F1 F2 D Hw Hp. destruct (select_correct u a u' W H) as (R & P & S). pose proof (select_wf u a u' W H) as W'. pose proof (select_pols_NoDup u u' a W N H) as N'.
  destruct (in_spw_select u u' a R P w W S Hw Hc) as [I1 I2].
  assert (Hp' : In p (u_polpair_array u)). { apply (picks_In _ _ _ _ (sp_pols _ _ _ _ _ S)) in Hp. destruct Hp as (i & _ & E). eapply nth_error_In; exact E. }
  assert (EB : u_blpair_array u' = u_blpair_array u) by (eapply spec_norow; eassumption).
  assert (KI : known_key u' (rank (spw_kept u a) w) b p <-> known_key u w b p) by (unfold known_key; rewrite I1, I2, EB; tauto).
  destruct (memN w (u_spw_freq_array u)) eqn:M1; [|unfold get_array, key_to_indices].
  2: { assert (M1' : memN (rank (spw_kept u a) w) (u_spw_freq_array u') = false).
       { destruct (memN (rank (spw_kept u a) w) (u_spw_freq_array u')) eqn:Q; [|reflexivity]. apply memN_In, I1, memN_In in Q. congruence. }
       rewrite M1, M1'. reflexivity. }
  destruct (memN w (u_spw_dly_array u)) eqn:M2; [|unfold get_array, key_to_indices].
  2: { assert (M2' : memN (rank (spw_kept u a) w) (u_spw_dly_array u') = false).
       { destruct (memN (rank (spw_kept u a) w) (u_spw_dly_array u')) eqn:Q; [|reflexivity]. apply memN_In, I2, memN_In in Q. congruence. }
       rewrite M2, M2', !andb_false_r. reflexivity. }
  assert (J1 : In (rank (spw_kept u a) w) (u_spw_freq_array u')) by (apply I1, memN_In, M1).
  assert (J2 : In (rank (spw_kept u a) w) (u_spw_dly_array u')) by (apply I2, memN_In, M2).
  destruct (memZ b (u_blpair_array u)) eqn:M3.
  2: { unfold get_array, key_to_indices. rewrite EB, M3, M1, M2. rewrite (proj2 (memN_In _ _) J1), (proj2 (memN_In _ _) J2). reflexivity. }
  assert (K : known_key u w b p) by (split; [apply memN_In, M1|split; [apply memN_In, M2|split; [apply memZ_In, M3|exact Hp']]]).
  destruct (get_array_correct u f w b p W N F1 K) as (r1 & G1 & L1). destruct (get_array_correct u' f (rank (spw_kept u a) w) b p W' N' F2 (proj2 KI K)) as (r2 & G2 & L2).
  rewrite G1, G2. f_equal. apply (lookup_spec_fun u (f u) w b p r2 r1 N); [|exact L1].
  exact (lookup_kept u u' a R P (f u) (f u') w b p r2 W N Na S (D R P S) Hw L2).
Qed.
Lemma spec_dicts (u u' : uvp) a R P : select_spec u a u' R P ->
  dict_selected (spw_kept u a) R P (u_data u) (u_data u') /\ dict_selected (spw_kept u a) R P (u_integration u) (u_integration u') /\ dict_selected (spw_kept u a) R P (u_nsample u) (u_nsample u').
Proof.
  intros S. pose proof (sp_dicts _ _ _ _ _ S) as D. unfold dicts in D. cbn [app] in D. inversion D as [|? ? ? ? D1 Dr1]; subst. inversion Dr1 as [|? ? ? ? D2 Dr2]; subst.
  inversion Dr2 as [|? ? ? ? D3 Dr3]; subst. inversion Dr3 as [|? ? ? ? D4 Dr4]; subst. auto.
Qed.
Lemma get_data_kept (u u' : uvp) a w b p : wf u -> NoDup (u_polpair_array u) -> no_row_args a ->
  u_folded u = false \/ a_spws a = None -> select u a = Ok u' -> In w (spw_kept u a) -> In p (u_polpair_array u') ->
  get_data u' (rank (spw_kept u a) w) b p = get_data u w b p.
Proof.
  intros W N Na Hc H Hw Hp. pose proof (select_wf u a u' W H) as W'. destruct (select_correct u a u' W H) as (R & P & S). unfold get_data. rewrite (get_array_kept u u' a u_data w b p W N Na Hc H); auto.
  - rewrite (sp_folded _ _ _ _ _ S). pose proof (window_dlys_len u w W) as L1. pose proof (window_dlys_len u' (rank (spw_kept u a) w) W') as L2.
    rewrite (window_dlys_select u u' a R P w W S Hc Hw) in L2. rewrite <- L2, <- L1. reflexivity.
  - left. reflexivity.
  - left. reflexivity.
  - intros R' P' S'. apply (spec_dicts u u' a R' P' S').
Qed.
End Look.

(** * C320: selecting windows or polarizations, and averaging *)
(** no error-bar weights; [rank] is the new number of a window *)
Theorem average_select_commute : forall u u1 a ta norm ew order circ groups weights u' u1' gs,
  averageable u false -> averageable u1 false -> no_row_args a -> u_folded u = false \/ a_spws a = None ->
  select u a = Ok u1 ->
  effective_groups u ew order groups weights = Ok gs ->
  average_spectra u ew order circ ta norm false groups weights = Ok u' -> average_spectra u1 ew order circ ta norm false groups weights = Ok u1' ->
  (forall g, In g gs -> same_times u ta (fst g)) -> NoDup (map (fun g => hd 0%Z (fst g)) gs) ->
  forall s p g ws, In s (spw_kept u a) -> In s (u_spw_freq_array u) -> In s (u_spw_dly_array u) -> In p (u_polpair_array u1) -> In (g, ws) gs -> 1 <= length g ->
  get_data u1' (rank (spw_kept u a) s) (hd 0%Z g) p = get_data u' s (hd 0%Z g) p /\
  get_array u_integration u1' (rank (spw_kept u a) s) (hd 0%Z g) p = get_array u_integration u' s (hd 0%Z g) p /\
  get_array u_nsample u1' (rank (spw_kept u a) s) (hd 0%Z g) p = get_array u_nsample u' s (hd 0%Z g) p.
Proof.
  intros u u1 a ta norm ew order circ groups weights u' u1' gs A A1 Na Hc H G V V1 T N s p g ws Hs Hs1 Hs2 Hp Hg L.
  pose proof A as (W & _ & _ & _ & Np & _). destruct (select_correct u a u1 W H) as (R & P & S).
  assert (EB : u_blpair_array u1 = u_blpair_array u) by (eapply spec_norow; eassumption).
  assert (G1 : effective_groups u1 ew order groups weights = Ok gs) by (rewrite <- G; unfold effective_groups; rewrite EB; reflexivity).
  assert (T1 : forall q, In q gs -> same_times u1 ta (fst q)). { intros q Hq. destruct (T q Hq) as [E|E]; [left; exact E|right]. intros b Hb. unfold ntimes. rewrite EB. apply (E b Hb). }
  destruct (in_spw_select u u1 a R P s W S Hs Hc) as [I1 I2].
  assert (Hp' : In p (u_polpair_array u)). { pose proof Hp as Hq. apply (picks_In _ _ _ _ (sp_pols _ _ _ _ _ S)) in Hq. destruct Hq as (i & _ & E). eapply nth_error_In; exact E. }
  apply (average_no_crosstalk u1 u ta norm false ew ew order order circ circ groups groups weights weights u1' u' gs gs A1 A G1 G V1 V T1 T N N
           (rank (spw_kept u a) s) s p p g ws); try assumption; [apply I1, Hs1|apply I2, Hs2|].
  intros b Hb. split; [|split; [|split]].
  - apply get_data_kept; assumption.
  - apply get_array_kept; try assumption; [right; right; left; reflexivity|right; right; left; reflexivity|]. intros R' P' S'. apply (spec_dicts u u1 a R' P' S').
  - apply get_array_kept; try assumption; [right; right; right; left; reflexivity|right; right; right; left; reflexivity|]. intros R' P' S'. apply (spec_dicts u u1 a R' P' S').
  - discriminate.
Qed.
Print Assumptions average_select_commute.

(** two orders of the same groups meet the hypotheses of C319 *)
Example average_no_crosstalk_case : exists u' v',
  average_spectra avg_obj false (fun l => l) (fun _ => 0%Q) true true false [[11]; [22]]%Z None = Ok u' /\
  average_spectra avg_obj false (fun l => l) (fun _ => 0%Q) true true false [[22]; [11]]%Z None = Ok v' /\
  get_data u' 0 11 505 = get_data v' 0 11 505 /\ exists rows, get_data u' 0 11 505 = Ok rows.
Proof.
  assert (T : forall gr, gr <> [] -> (forall g, In g gr -> g = [11]%Z \/ g = [22]%Z) -> exists u', average_spectra avg_obj false (fun l => l) (fun _ => 0%Q) true true false gr None = Ok u').
  { intros gr Ngr Hgr. apply C18_total.
    - exact avg_obj_averageable.
    - intros s Hs. cbn in Hs. assert (s = 0) by lia. subst. cbn. tauto.
    - intro l. apply Permutation_refl.
    - exact Ngr.
    - intros g Hg. apply Hgr in Hg. destruct Hg as [-> | ->]; (split; [discriminate|]); cbn; tauto.
    - intros g _. left; reflexivity. }
  destruct (T [[11]; [22]]%Z) as [u' Hu]; [discriminate|cbn; intros g [<-|[<-|[]]]; auto|]. destruct (T [[22]; [11]]%Z) as [v' Hv]; [discriminate|cbn; intros g [<-|[<-|[]]]; auto|].
  exists u', v'. split; [exact Hu|]. split; [exact Hv|].
  assert (GE : forall gr, effective_groups avg_obj false (fun l => l) gr None = effective_groups avg_obj false (fun l => l) gr None) by reflexivity.
  split.
  - refine (proj1 (average_no_crosstalk avg_obj avg_obj true true false false false (fun l => l) (fun l => l) (fun _ => 0%Q) (fun _ => 0%Q) [[11]; [22]]%Z [[22]; [11]]%Z None None u' v'
      [([11]%Z, [1%R]); ([22]%Z, [1%R])] [([22]%Z, [1%R]); ([11]%Z, [1%R])] avg_obj_averageable avg_obj_averageable _ _ Hu Hv _ _ _ _ 0 0 505%Z 505%Z [11]%Z [1%R] _ _ _ _ _ _ _ _ _ _)); try reflexivity;
      try (intros; left; reflexivity); try (repeat constructor; cbn; intuition discriminate); try (cbn; tauto); try (cbn; lia); try (intros b _; repeat split).
  - destruct (averaged_lookup avg_obj true true false false (fun l => l) (fun _ => 0%Q) [[11]; [22]]%Z None u' [([11]%Z, [1%R]); ([22]%Z, [1%R])]) with (s := 0) (p := 505%Z) (g := [11]%Z) (ws := [1%R]) as (blk & _ & E & _);
      try apply avg_obj_averageable; try exact Hu; try reflexivity; try (intros; left; reflexivity); try (repeat constructor; cbn; intuition discriminate); try (cbn; tauto); try (cbn; lia); try discriminate.
    exists (b_data blk). exact E.
Qed.

(** a selection of a polarization meets the hypotheses of C320 *)
Definition by_pol : select_args := {| a_spws := None; a_bls := None; a_only_pairs_in_bls := true; a_blpairs := None; a_times := None; a_lsts := None; a_polpairs := Some [505]%Z |}.
Example average_select_case : no_row_args by_pol /\ select avg_obj by_pol = Ok avg_obj /\ averageable avg_obj false /\
  effective_groups avg_obj false (fun l => l) [[11; 22]]%Z None = Ok [([11; 22]%Z, [1; 1]%R)].
Proof. split; [repeat split|]. split; [reflexivity|]. split; [exact avg_obj_averageable|reflexivity]. Qed.
