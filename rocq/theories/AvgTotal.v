(** Weights, totality of [average_spectra], and consequences of the weighted mean. *)
From Coq Require Import Reals Lra QArith Permutation Sorted.
From Verif Require Import PyDict.
From Verif Require Import Prelude ListLemmas UvpModel UvpSpec UvpProofs KeyProofs LengthProofs
  AvgModel AvgProofs AvgMain AvgObject.
Open Scope nat_scope.

(** * int() of the normalised weights *)
Lemma copies_of_spec x n : (INR n <= x < INR n + 1)%R -> copies_of x = n.
Proof.
  intro H. unfold copies_of. rewrite INR_IZR_INZ in H.
  assert (E : Int_part x = Z.of_nat n).
  { destruct (base_Int_part x) as [B1 B2].
    assert (G1 : (IZR (Int_part x) < IZR (Z.of_nat n + 1))%R) by (rewrite plus_IZR; lra).
    assert (G2 : (IZR (Z.of_nat n) < IZR (Int_part x + 1))%R) by (rewrite plus_IZR; lra).
    apply lt_IZR in G1. apply lt_IZR in G2. lia. }
  rewrite E. apply Nat2Z.id.
Qed.
Lemma copies_of_INR n : copies_of (INR n) = n.
Proof. apply copies_of_spec. lra. Qed.
Lemma copies_of_1 : copies_of 1%R = 1.
Proof. apply copies_of_spec. cbn. lra. Qed.
Lemma copies_of_neg x : (x < 1)%R -> copies_of x = 0.
Proof.
  intro H. unfold copies_of.
  assert (Int_part x <= 0)%Z.
  { destruct (base_Int_part x) as [B1 _]. apply le_IZR. assert (IZR (Int_part x) < 1)%R by lra.
    apply lt_IZR in H0. apply IZR_le. lia. }
  lia.
Qed.

Lemma Rsum_const {A} (l : list A) c : Rsum (map (fun _ => c) l) = (INR (length l) * c)%R.
Proof.
  induction l as [|x l IH]; [cbn; ring|]. cbn [length map Rsum]. rewrite S_INR, IH. ring.
Qed.

Lemma norm_equal {A} (g : list A) c : g <> [] -> (0 < c)%R ->
  norm_weights true (map (fun _ => c) g) = Ok (map (fun _ => 1%R) g).
Proof.
  intros Hne Hc. unfold norm_weights. rewrite Rsum_const.
  assert (P : (0 < INR (length g))%R). { apply lt_0_INR. destruct g; [congruence | cbn; lia]. }
  destruct (Rle_dec (INR (length g) * c) 0) as [H|_]; [nra|]. f_equal. rewrite map_map, map_length.
  apply map_ext. intros _. field. split; lra.
Qed.

Lemma Rsum_INR l : Rsum (map INR l) = INR (list_sum l).
Proof.
  induction l as [|x l IH]; [reflexivity|]. change (list_sum (x :: l)) with (x + list_sum l).
  rewrite plus_INR. cbn [map Rsum]. rewrite IH. reflexivity.
Qed.

(** integer multiplicities that add up to the group size are used exactly *)
Lemma norm_multiplicities ms : ms <> [] -> list_sum ms = length ms ->
  norm_weights true (map INR ms) = Ok (map INR ms).
Proof.
  intros Hne Hs. unfold norm_weights. rewrite Rsum_INR, Hs.
  assert (P : (0 < INR (length ms))%R). { apply lt_0_INR. destruct ms; [congruence | cbn; lia]. }
  destruct (Rle_dec (INR (length ms)) 0) as [H|_]; [lra|]. f_equal. rewrite map_map, map_length.
  apply map_ext. intro m. field. lra.
Qed.

(** weights whose normalised values are integers are honoured *)
Lemma norm_integers ws ks : (0 < Rsum ws)%R -> length ks = length ws ->
  (forall i w k, nth_error ws i = Some w -> nth_error ks i = Some k -> (w * INR (length ws) = INR k * Rsum ws)%R) ->
  exists nw, norm_weights true ws = Ok nw /\ map copies_of nw = ks.
Proof.
  intros P L H. unfold norm_weights. destruct (Rle_dec (Rsum ws) 0) as [?|_]; [lra|].
  eexists; split; [reflexivity|]. rewrite map_map.
  assert (G : forall n l ks', length ks' = length l ->
     (forall i w k, nth_error l i = Some w -> nth_error ks' i = Some k -> (w * n = INR k * Rsum ws)%R) ->
     map (fun x => copies_of (x * n / Rsum ws)%R) l = ks').
  { intros n. induction l as [|w l IH]; intros [|k ks'] L' H'; cbn in *; try discriminate; auto. f_equal.
    - rewrite (H' 0 w k eq_refl eq_refl). replace (INR k * Rsum ws / Rsum ws)%R with (INR k) by (field; lra).
      apply copies_of_INR.
    - apply IH; [lia|]. intros i w' k' Hw Hk. exact (H' (S i) w' k' Hw Hk). }
  apply G; assumption.
Qed.

(** * combining averages *)
Lemma wmean_two_step ls : Forall (fun l => wsum l <> 0%R) ls ->
  wmean (map (fun l => (wmean l, wsum l)) ls) = wmean (concat ls).
Proof.
  intro F.
  assert (E1 : xsum (map (fun l => (wmean l, wsum l)) ls) = xsum (concat ls)).
  { rewrite xsum_concat. unfold xsum at 1. rewrite map_map. cbn [fst snd]. f_equal. apply map_ext_in. intros l Hl.
    rewrite Forall_forall in F. specialize (F l Hl). unfold wmean. field. exact F. }
  assert (E2 : wsum (map (fun l => (wmean l, wsum l)) ls) = wsum (concat ls)).
  { rewrite wsum_concat. unfold wsum at 1. rewrite map_map. reflexivity. }
  unfold wmean at 1. rewrite E1, E2. reflexivity.
Qed.

(** weights recomputed from averaged metadata: [l] is the list of (integration, nsample) *)
Definition reweight (l : list (R * R)) : R :=
  let w := map (fun p => (fst p, fst p ^ 2 * snd p)%R) l in
  ((wmean w) ^ 2 * Rsum (map snd l))%R.
Definition total_weight (l : list (R * R)) : R := Rsum (map (fun p => fst p ^ 2 * snd p)%R l).
Lemma reweight_const tau l : Forall (fun p => fst p = tau) l -> total_weight l <> 0%R -> reweight l = total_weight l.
Proof.
  intros F Hne. unfold reweight. set (w := map (fun p : R * R => (fst p, fst p ^ 2 * snd p)%R) l).
  assert (E1 : xsum w = (tau * total_weight l)%R).
  { unfold xsum, w, total_weight. rewrite map_map. cbn [fst snd]. rewrite <- Rsum_scale, map_map. f_equal.
    apply map_ext_in. intros p Hp. rewrite Forall_forall in F. rewrite (F p Hp). ring. }
  assert (E2 : wsum w = total_weight l) by (unfold wsum, w, total_weight; rewrite map_map; reflexivity).
  assert (E3 : total_weight l = (tau ^ 2 * Rsum (map snd l))%R).
  { unfold total_weight. rewrite <- Rsum_scale, map_map. f_equal. apply map_ext_in. intros p Hp.
    rewrite Forall_forall in F. rewrite (F p Hp). reflexivity. }
  unfold wmean. rewrite E1, E2. replace (tau * total_weight l / total_weight l)%R with tau by (field; exact Hne).
  rewrite E3. reflexivity.
Qed.

(** * error bars *)
Lemma avg_stat_spec l : Forall (fun ew => (fst ew ^ 2 <= IZR (10 ^ 40))%R) l -> (tiny <= Rsum (map snd l))%R ->
  (/ IZR (10 ^ 8) < Rsum (map (fun ew => (fst ew * snd ew) ^ 2)%R l) / (Rsum (map snd l)) ^ 2)%R ->
  avg_stat l = Some (sqrt (Rsum (map (fun ew => (fst ew * snd ew) ^ 2)%R l)) / Rsum (map snd l))%R.
Proof.
  intros F T B. unfold avg_stat. rewrite clip_id by exact T.
  assert (E : map (fun ew => (Rmin (fst ew ^ 2) (IZR (10 ^ 40)) * snd ew ^ 2)%R) l = map (fun ew => ((fst ew * snd ew) ^ 2)%R) l).
  { apply map_ext_in. intros ew Hew. rewrite Forall_forall in F. rewrite Rmin_left by (apply F; exact Hew). ring. }
  rewrite E. set (S := Rsum (map (fun ew => ((fst ew * snd ew) ^ 2)%R) l)) in *. set (w := Rsum (map snd l)) in *.
  pose proof tiny_pos as TP.
  assert (SP : (0 <= S)%R).
  { apply Rsum_nonneg. apply Forall_forall. intros x Hx. apply in_map_iff in Hx. destruct Hx as [ew [<- _]].
    replace ((fst ew * snd ew) ^ 2)%R with ((fst ew * snd ew) * (fst ew * snd ew))%R by ring. apply Rle_0_sqr. }
  assert (P8 : (0 < / IZR (10 ^ 8))%R) by (apply Rinv_0_lt_compat, IZR_lt; reflexivity).
  destruct (Rle_dec (Rabs (S / w ^ 2)) (/ IZR (10 ^ 8))) as [H|_].
  - rewrite Rabs_right in H by lra. lra.
  - f_equal. rewrite sqrt_div_alt by (apply pow_lt; lra). f_equal. apply sqrt_pow2. lra.
Qed.

(** * window functions *)
Lemma Rsum_nth_swap (rows : list (list R)) n : Forall (fun r => length r = n) rows ->
  Rsum (map (fun d => Rsum (map (fun r => nth d r 0%R) rows)) (seq 0 n)) = Rsum (map Rsum rows).
Proof.
  induction 1 as [|r rows Hr F IH].
  - cbn [map Rsum]. induction (seq 0 n) as [|x l IHl]; cbn [map Rsum]; [reflexivity | rewrite IHl; ring].
  - cbn [map Rsum]. rewrite <- IH.
    assert (E : forall l, Rsum (map (fun d => (nth d r 0 + Rsum (map (fun r0 => nth d r0 0) rows))%R) l) =
      (Rsum (map (fun d => nth d r 0%R) l) + Rsum (map (fun d => Rsum (map (fun r0 => nth d r0 0%R) rows)) l))%R).
    { induction l as [|x l IHl]; cbn [map Rsum]; [ring | rewrite IHl; ring]. }
    rewrite E. f_equal. clear -Hr. subst n. f_equal. induction r as [|x r IH]; [reflexivity|].
    cbn [length seq map nth]. f_equal. rewrite <- seq_shift, map_map. exact IH.
Qed.
Lemma colsum_sum rows n : rows <> [] -> Forall (fun r => length r = n) rows -> Rsum (colsum rows) = Rsum (map Rsum rows).
Proof.
  intros Hne F. unfold colsum. destruct rows as [|r rows]; [congruence|].
  replace (length (hd [] (r :: rows))) with n by (inversion F; subst; reflexivity). apply Rsum_nth_swap. exact F.
Qed.
Lemma Rsum_scale_r c l : Rsum (map (fun x => (x * c)%R) l) = (Rsum l * c)%R.
Proof. induction l as [|x l IH]; cbn [map Rsum]; [ring | rewrite IH; ring]. Qed.

Lemma avg_window_sum exact l n : l <> [] -> Forall (fun rw => length (fst rw) = n /\ Rsum (fst rw) = 1%R) l ->
  (tiny <= Rsum (map snd l))%R ->
  Rsum (avg_window exact l) = if exact then Rsum (map snd l) else 1%R.
Proof.
  intros Hne F T. unfold avg_window.
  assert (E : Rsum (colsum (map (fun rw => map (fun x => (x * snd rw)%R) (fst rw)) l)) = Rsum (map snd l)).
  { rewrite (colsum_sum _ n).
    - rewrite map_map. f_equal. apply map_ext_in. intros rw Hrw. rewrite Forall_forall in F. destruct (F rw Hrw) as [_ S].
      rewrite Rsum_scale_r, S. ring.
    - destruct l; [congruence | discriminate].
    - apply Forall_forall. intros x Hx. apply in_map_iff in Hx. destruct Hx as [rw [<- Hrw]]. rewrite map_length.
      rewrite Forall_forall in F. apply F, Hrw. }
  destruct exact; [exact E|]. unfold Rdiv. rewrite Rsum_scale_r, E, clip_id by exact T.
  pose proof tiny_pos. field. lra.
Qed.

(** * totality *)
Section Total.
Variables (u : uvp R) (ta errw : bool).
Hypothesis W : wf u.
Hypothesis Wd : widths u.
Hypothesis Na : narrow u.
Hypothesis Np : NoDup (u_polpair_array u).
Hypothesis Hfull : forall s, s < u_Nspws u -> In s (u_spw_freq_array u) /\ In s (u_spw_dly_array u).

Lemma fetch_total s p b : s < u_Nspws u -> In p (u_polpair_array u) -> In b (u_blpair_array u) ->
  exists blk, fetch u s p false b = Ok blk.
Proof.
  intros Hs Hp Hb. destruct (Hfull s Hs) as [H1 H2].
  assert (K : known_key u s b p) by (repeat split; assumption).
  unfold fetch.
  destruct (get_array_correct u (@u_nsample R) s b p W Np) as [ns [En _]]; [unfold dicts; cbn; auto | exact K|].
  destruct (get_array_correct u (@u_data R) s b p W Np) as [da [Ed _]]; [unfold dicts; cbn; auto | exact K|].
  destruct (get_array_correct u (@u_integration R) s b p W Np) as [ii [Ei _]]; [unfold dicts; cbn; auto | exact K|].
  rewrite En. cbn [bind]. unfold get_data. rewrite Ed. cbn [bind]. destruct (u_folded u); cbn [bind]; rewrite Ei; cbn [bind]; eauto.
Qed.

Lemma expand_ones {A} (l : list A) : expand (combine l (map (fun _ => 1%R) l)) = l.
Proof.
  unfold expand. induction l as [|x l IH]; [reflexivity|]. cbn [map combine flat_map fst snd].
  rewrite copies_of_1, IH. reflexivity.
Qed.

Lemma map_const_len {A B C} (c : C) (l : list A) (l' : list B) : length l = length l' -> map (fun _ => c) l = map (fun _ => c) l'.
Proof. revert l'; induction l as [|x l IH]; intros [|y l'] H; cbn in *; try discriminate; auto. f_equal. apply IH. lia. Qed.

Lemma average_group_total s p g : s < u_Nspws u -> In p (u_polpair_array u) -> g <> [] ->
  (forall b, In b g -> In b (u_blpair_array u)) -> same_times u ta g ->
  exists blk, average_group u ta true false s p g (map (fun _ => 1%R) g) = Ok blk.
Proof using W Wd Na Np Hfull.
  intros Hs Hp Hne Hg ST. unfold average_group. rewrite norm_equal by (auto; lra). cbn [bind].
  destruct (map_res_total (fetch u s p false) g) as [blocks Hb].
  { apply Forall_forall. intros b Hbg. apply fetch_total; auto. }
  rewrite Hb. cbn [bind]. apply map_res_spec in Hb.
  pose proof (Forall2_len _ _ _ Hb) as Lb.
  rewrite (map_const_len 1%R g (if ta then map time_average blocks else blocks)) by (destruct ta; rewrite ?map_length; exact Lb).
  rewrite expand_ones.
  assert (EQ : (if ta then map time_average blocks else blocks) = map (prepared ta) blocks)
    by (unfold prepared; destruct ta; [reflexivity | symmetry; apply map_id]).
  rewrite EQ.
  destruct (group_average_spec ta (width u s) (wlen false (width u s)) (grows u ta g) blocks) as [blk [E _]].
  - intro E. subst blocks. destruct g; [congruence | discriminate Lb].
  - eapply Forall2_Forall_r; [exact Hb|]. intros b c Hbg Hc.
    destruct (fetch_shape u s p false b c W Wd Na (fun H => match Bool.diff_false_true H with end) Np Hc) as [S [_ S1]].
    exists (ntimes u b). split; [exact S|]. split; [exact S1|]. unfold grows, out_rows.
    destruct ST as [-> | ST]; [reflexivity|]. rewrite (ST b Hbg). reflexivity.
  - exists blk. exact E.
Qed.

Lemma combine_app {A B} (a1 a2 : list A) (b1 b2 : list B) : length a1 = length b1 ->
  combine (a1 ++ a2) (b1 ++ b2) = combine a1 b1 ++ combine a2 b2.
Proof. revert b1; induction a1 as [|x a1 IH]; intros [|y b1] H; cbn in *; try discriminate; auto. f_equal. apply IH. lia. Qed.
Lemma combine_map2 {A B C} (f : A -> B) (g : A -> C) l : combine (map f l) (map g l) = map (fun x => (f x, g x)) l.
Proof. induction l as [|x l IH]; [reflexivity|]. cbn. f_equal. exact IH. Qed.

(** without weights: the requested groups, then every other baseline-pair on its own *)
Definition leftover (groups : list (list Z)) : list Z :=
  filter (fun b => negb (memZ b (concat groups))) (ordered_unique [] (u_blpair_array u)).
Lemma leftover_spec groups : NoDup (leftover groups) /\
  forall b, In b (leftover groups) <-> In b (u_blpair_array u) /\ ~ In b (concat groups).
Proof.
  unfold leftover. destruct (ordered_unique_spec [] (u_blpair_array u)) as [H1 H2]. split; [apply NoDup_filter, H2|].
  intro b. rewrite filter_In, H1, negb_true_iff. cbn. rewrite <- memZ_In with (l := concat groups).
  destruct (memZ b (concat groups)); intuition congruence.
Qed.

Lemma effective_default order groups : groups <> [] -> (forall g, In g groups -> g <> [] /\ In (hd 0%Z g) (u_blpair_array u)) ->
  effective_groups u false order groups None =
  Ok (map (fun g => (g, map (fun _ => 1%R) g)) (groups ++ map (fun b => [b]) (order (leftover groups)))).
Proof.
  intros Ng H. unfold effective_groups.
  assert (E1 : forallb (fun g => negb (Nat.eqb (length g) 0)) groups = true).
  { apply forallb_forall. intros g Hg. destruct (H g Hg) as [Hne _]. destruct g; [congruence | reflexivity]. }
  assert (E2 : forallb (fun g => memZ (hd 0%Z g) (u_blpair_array u)) groups = true).
  { apply forallb_forall. intros g Hg. apply memZ_In. apply H, Hg. }
  assert (E3 : negb (Nat.eqb (length groups) 0) = true) by (destruct groups; [congruence | reflexivity]).
  rewrite E1, E2, E3. cbn [require bind]. fold (leftover groups). f_equal.
  rewrite combine_app by (rewrite map_length; reflexivity). rewrite map_app. f_equal.
  - rewrite <- (map_id groups) at 1. apply (combine_map2 (fun g => g)).
  - rewrite combine_map2, map_map. reflexivity.
Qed.

Theorem average_total order circ groups :
  (forall l, Permutation (order l) l) -> groups <> [] ->
  (forall g, In g groups -> g <> [] /\ forall b, In b g -> In b (u_blpair_array u)) ->
  (forall g, In g groups -> same_times u ta g) ->
  exists u', average_spectra u false order circ ta true false groups None = Ok u'.
Proof using W Wd Na Np Hfull.
  intros Ho Ng Hg ST. unfold average_spectra.
  rewrite effective_default; [|exact Ng|].
  2:{ intros g Hin. destruct (Hg g Hin) as [Hne Hb]. split; [exact Hne|]. apply Hb. destruct g; [congruence | left; reflexivity]. }
  cbn [bind]. set (gl := groups ++ map (fun b => [b]) (order (leftover groups))).
  set (gs := map (fun g => (g, map (fun _ => 1%R) g)) gl).
  assert (Hgl : forall g, In g gl -> g <> [] /\ (forall b, In b g -> In b (u_blpair_array u)) /\ same_times u ta g).
  { intros g Hin. apply in_app_or in Hin. destruct Hin as [Hin|Hin].
    - destruct (Hg g Hin) as [H1 H2]. repeat split; auto.
    - apply in_map_iff in Hin. destruct Hin as [b [<- Hb]]. split; [discriminate|]. split.
      + intros b' [<-|[]]. apply (Permutation_in _ (Ho _)) in Hb. apply leftover_spec in Hb. apply Hb.
      + right. intros b' [<-|[]]. reflexivity. }
  destruct (map_res_total (average_spw u ta true false gs) (seq 0 (u_Nspws u))) as [spws Hs].
  { apply Forall_forall. intros s Hs. apply in_seq in Hs. unfold average_spw.
    match goal with |- exists y, bind (map_res ?F _) _ = Ok y => destruct (map_res_total F (u_polpair_array u)) as [pols Hp] end.
    { apply Forall_forall. intros p Hp.
      match goal with |- exists y, bind (map_res ?F _) _ = Ok y => destruct (map_res_total F gs) as [bs Hbs] end.
      { apply Forall_forall. intros gw Hgw. apply in_map_iff in Hgw. destruct Hgw as [g [<- Hgin]]. cbn [fst snd].
        destruct (Hgl g Hgin) as [H1 [H2 H3]]. apply average_group_total; auto; lia. }
      rewrite Hbs. cbn [bind]. eauto. }
    rewrite Hp. cbn [bind]. eauto. }
  rewrite Hs. cbn [bind].
  assert (Hhd : forall gw, In gw gs -> memZ (hd 0%Z (fst gw)) (u_blpair_array u) = true).
  { intros gw Hgw. apply in_map_iff in Hgw. destruct Hgw as [g [<- Hgin]]. cbn [fst]. destruct (Hgl g Hgin) as [H1 [H2 _]].
    apply memZ_In, H2. destruct g; [congruence | left; reflexivity]. }
  assert (HB : exists l, blpair_rows u ta gs = Ok l).
  { unfold blpair_rows.
    match goal with |- exists y, bind (map_res ?F _) _ = Ok y => destruct (map_res_total F gs) as [bs Hbs] end.
    { apply Forall_forall. intros gw Hgw. unfold blpair_to_indices. rewrite (Hhd gw Hgw). cbn [require bind]. eauto. }
    rewrite Hbs. cbn [bind]. eauto. }
  destruct HB as [l HB]. rewrite HB. cbn [bind].
  assert (HM : forall mean (f : uvp R -> list Q), length (f u) = length (u_blpair_array u) -> exists l, meta_rows u ta mean f gs = Ok l).
  { intros mean f Hf. unfold meta_rows.
    match goal with |- exists y, bind (map_res ?F _) _ = Ok y => destruct (map_res_total F gs) as [bs Hbs] end.
    { apply Forall_forall. intros gw Hgw. unfold blpair_to_indices. rewrite (Hhd gw Hgw). cbn [require bind].
      destruct (gather_total (f u) (where_ (or_maskZ (u_blpair_array u) [hd 0%Z (fst gw)]))) as [x Hx].
      { eapply Forall_impl; [|apply where_range]. cbn. intros i. unfold or_maskZ. rewrite map_length, Hf. auto. }
      rewrite Hx. cbn [bind]. eauto. }
    rewrite Hbs. cbn [bind]. eauto. }
  destruct (HM Qmean _ (wf_t1 u W)) as [m1 ->]. destruct (HM Qmean _ (wf_t2 u W)) as [m2 ->].
  destruct (HM Qmean _ (wf_ta u W)) as [m3 ->]. destruct (HM circ _ (wf_l1 u W)) as [m4 ->].
  destruct (HM circ _ (wf_l2 u W)) as [m5 ->]. destruct (HM circ _ (wf_la u W)) as [m6 ->].
  cbn [bind]. eauto.
Qed.
End Total.
