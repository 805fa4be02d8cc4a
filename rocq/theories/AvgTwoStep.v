(** C18: averaging an average. The averaged object can be averaged again, and averaging in two steps (groups of baseline-pairs,
    then groups of these averages and/or times) gives what averaging at once gives, for equal integration times. *)
From Coq Require Import Reals Lra QArith Permutation.
From Verif Require Import PyDict.
From Verif Require Import Prelude ListLemmas UvpModel UvpSpec UvpProofs KeyProofs LengthProofs
  AvgModel AvgProofs AvgMain AvgObject AvgTotal AvgProps.
Open Scope nat_scope.

Lemma moveaxis_shape (P : list R -> Prop) pp n : pp <> [] -> (forall pd, In pd pp -> length pd = n /\ Forall P pd) ->
  length (moveaxis pp) = n /\ forall r, In r (moveaxis pp) -> length r = length pp /\ Forall P r.
Proof.
  intros Hne H. split; [apply moveaxis_len; [intros pd I; apply H, I | exact Hne]|].
  intros r Hr. unfold moveaxis in Hr. apply in_map_iff in Hr. destruct Hr as [i [<- Hi]]. apply in_seq in Hi.
  rewrite map_length. split; [reflexivity|]. apply Forall_forall. intros c Hc. apply in_map_iff in Hc. destruct Hc as [pd [<- Hpd]].
  destruct (H pd Hpd) as [L F]. rewrite Forall_forall in F. apply F, nth_In.
  assert (L0 : length (hd [] pp) = n) by (destruct pp as [|p0 pp]; [congruence | apply H; left; reflexivity]). lia.
Qed.

(** an object with other weights *)
Definition with_wgt {X} (w : list (nat * arr X)) (v : uvp X) : uvp X :=
  mkuvp (u_folded v) (u_Nspws v) (u_spw_array v) (u_spw_freq_array v) (u_spw_dly_array v) (u_freq_array v) (u_dly_array v) (u_scalar_array v)
    (u_blpair_array v) (u_time_1_array v) (u_time_2_array v) (u_time_avg_array v) (u_lst_1_array v) (u_lst_2_array v) (u_lst_avg_array v)
    (u_bl_array v) (u_bl_vecs v) (u_polpair_array v) (u_data v) w (u_integration v) (u_nsample v) (u_cov v) (u_window v) (u_stats v)
    (u_label_1_array v) (u_label_2_array v) (u_OmegaP v).
Lemma average_with_wgt w v ew order circ ta norm errw groups weights v' :
  average_spectra v ew order circ ta norm errw groups weights = Ok v' ->
  average_spectra (with_wgt w v) ew order circ ta norm errw groups weights = Ok (with_wgt w v').
Proof.
  destruct v. intro H. unfold average_spectra in *.
  apply bind_ok in H. destruct H as [gs [H1 H]]. change (effective_groups (with_wgt w (mkuvp u_folded u_Nspws u_spw_array u_spw_freq_array
    u_spw_dly_array u_freq_array u_dly_array u_scalar_array u_blpair_array u_time_1_array u_time_2_array u_time_avg_array u_lst_1_array
    u_lst_2_array u_lst_avg_array u_bl_array u_bl_vecs u_polpair_array u_data u_wgt u_integration u_nsample u_cov u_window u_stats
    u_label_1_array u_label_2_array u_OmegaP)) ew order groups weights = Ok gs) in H1. rewrite H1. cbn [bind].
  apply bind_ok in H. destruct H as [sp [H2 H]]. match goal with |- bind ?e _ = _ => change (e = Ok sp) in H2 end. rewrite H2. cbn [bind].
  do 7 (let H2 := fresh in let x := fresh in apply bind_ok in H; destruct H as [x [H2 H]]; match goal with |- bind ?e _ = _ => change (e = Ok x) in H2 end; rewrite H2; cbn [bind]).
  injection H as <-. reflexivity.
Qed.

Section Again.
Variables (u : uvp R) (ta norm : bool) (exact_w : bool) (order : list Z -> list Z) (circ : list Q -> Q).
Variables (groups : list (list Z)) (weights : option (list (list R))) (u' : uvp R) (gs : list (list Z * list R)).
Hypothesis W : wf u.
Hypothesis Wd : widths u.
Hypothesis Na : narrow u.
Hypothesis Np : NoDup (u_polpair_array u).
Hypothesis Nn : nsamples_nonneg u.
Hypothesis Hgs : effective_groups u exact_w order groups weights = Ok gs.
Hypothesis Hav : average_spectra u exact_w order circ ta norm false groups weights = Ok u'.
Hypothesis Hst : forall g, In g gs -> same_times u ta (fst g).
Hypothesis Hnf : u_folded u = false.
Hypothesis Hpol : u_polpair_array u <> [].

Let Sw : false = true -> stat_widths u := fun H => match Bool.diff_false_true H with end.

Lemma spw_shapes s : s < u_Nspws u ->
  exists A I S, dget Nat.eq_dec (u_data u') s = Some A /\ dget Nat.eq_dec (u_integration u') s = Some I /\ dget Nat.eq_dec (u_nsample u') s = Some S /\
  forall B P, ((B = A /\ P = fun c : list R => length c = width u s) \/ ((B = I \/ B = S) /\ P = fun c : list R => length c = 1)) ->
    length B = length (u_blpair_array u') /\ forall r, In r B -> length r = length (u_polpair_array u) /\ Forall P r.
Proof using W Wd Na Np Nn Hgs Hav Hst Hpol.
  intros Hs. destruct (avg_unfold u ta norm false exact_w order circ groups weights u' gs Hgs Hav) as [spws [Hspw [_ [_ [_ [_ [_ [_ [_ [Ed [Ei En]]]]]]]]]]].
  destruct (blpair_rows_eq u ta norm false exact_w order circ groups weights u' gs Hgs Hav) as [Ebl _].
  apply map_res_spec in Hspw.
  assert (Es : nth_error (seq 0 (u_Nspws u)) s = Some s).
  { rewrite (nth_error_nth' _ 0) by (rewrite seq_length; exact Hs). rewrite seq_nth by exact Hs. reflexivity. }
  destruct (Forall2_nth _ _ _ s s Hspw Es) as [[[A I] S] [Hnth Hsp]].
  unfold average_spw in Hsp. apply bind_ok in Hsp. destruct Hsp as [pols [Hp Hsp]]. injection Hsp as <- <- <-.
  apply map_res_spec in Hp. pose proof (Forall2_len _ _ _ Hp) as Lp.
  assert (FF : Forall (fun x => (length (fst (fst x)) = length (u_blpair_array u') /\ Forall (fun c => length c = width u s) (fst (fst x))) /\
            (length (first_bin (snd (fst x))) = length (u_blpair_array u') /\ Forall (fun c => length c = 1) (first_bin (snd (fst x)))) /\
            (length (first_bin (snd x)) = length (u_blpair_array u') /\ Forall (fun c => length c = 1) (first_bin (snd x)))) pols).
  { eapply Forall2_Forall_r; [exact Hp|]. intros p' x _ Hx.
    apply bind_ok in Hx. destruct Hx as [bs [Hbs Hx]]. injection Hx as <-. cbn [fst snd].
    apply map_res_spec in Hbs. unfold first_bin. rewrite !map_length. rewrite Ebl. clear -Hbs W Wd Na Sw Np Nn Hst.
    induction Hbs as [|g b gs bs Hg Hbs IH]; [repeat split; constructor|].
    destruct IH as [[I1 J1] [[I2 J2] [I3 J3]]]; [intros; apply Hst; right; assumption|].
    destruct (average_group_spec u ta norm false W Wd Na Sw Np Nn s p' (fst g) (snd g) b (Hst g (or_introl eq_refl)) Hg) as [Sb _].
    cbn [map concat]. rewrite !app_length, I1, I2, I3, repeat_length.
    rewrite (sh_T _ _ _ _ Sb), (sh_Ti _ _ _ _ Sb), (sh_Tn _ _ _ _ Sb). repeat split.
    - apply Forall_app. split; [apply (sh_data _ _ _ _ Sb) | exact J1].
    - rewrite map_app. apply Forall_app. split; [|exact J2]. apply Forall_map. eapply Forall_impl; [|apply (sh_ints _ _ _ _ Sb)].
      intros r L. cbv beta in L. cbn [wlen] in L. rewrite firstn_length; destruct L; lia.
    - rewrite map_app. apply Forall_app. split; [|exact J3]. apply Forall_map. eapply Forall_impl; [|apply (sh_nsmp _ _ _ _ Sb)].
      intros r L. cbv beta in L. rewrite firstn_length. lia. }
  rewrite Forall_forall in FF. assert (Hne : pols <> []) by (intro E; subst pols; apply Hpol; destruct (u_polpair_array u); [reflexivity | discriminate Lp]).
  exists (moveaxis (map (fun x => fst (fst x)) pols)), (moveaxis (map (fun x => first_bin (snd (fst x))) pols)),
    (moveaxis (map (fun x => first_bin (snd x)) pols)).
  split; [rewrite Ed, dget_to_dict, nth_error_map, Hnth; reflexivity|].
  split; [rewrite Ei, dget_to_dict, nth_error_map, Hnth; reflexivity|].
  split; [rewrite En, dget_to_dict, nth_error_map, Hnth; reflexivity|].
  assert (G : forall (f : list (list R) * list (list R) * list (list R) -> list (list R)) P,
    (forall x, In x pols -> length (f x) = length (u_blpair_array u') /\ Forall P (f x)) ->
    length (moveaxis (map f pols)) = length (u_blpair_array u') /\
    forall r, In r (moveaxis (map f pols)) -> length r = length (u_polpair_array u) /\ Forall P r).
  { intros f P H. destruct (moveaxis_shape P (map f pols) (length (u_blpair_array u'))) as [L K].
    - destruct pols; [congruence | discriminate].
    - intros pd Hpd. apply in_map_iff in Hpd. destruct Hpd as [x [<- Hx]]. apply H, Hx.
    - split; [exact L|]. intros r Hr. rewrite map_length in K. rewrite Lp. apply K, Hr. }
  intros B P [[-> ->]|[[->| ->] ->]].
  - apply G. intros x Hx. apply FF, Hx.
  - apply (G (fun x => first_bin (snd (fst x)))). intros x Hx. apply FF, Hx.
  - apply (G (fun x => first_bin (snd x))). intros x Hx. apply FF, Hx.
Qed.

Lemma meta_len mean f l : meta_rows u ta mean f gs = Ok l -> length l = length (u_blpair_array u').
Proof using Hgs Hav.
  intro H. destruct (blpair_rows_eq u ta norm false exact_w order circ groups weights u' gs Hgs Hav) as [-> _].
  unfold meta_rows in H. apply bind_ok in H. destruct H as [ls [Hl H]]. injection H as <-. apply map_res_spec in Hl.
  clear -Hl. induction Hl as [|g r gs ls Hg Hl IH]; [reflexivity|]. cbn [map concat]. rewrite !app_length, IH, repeat_length. f_equal.
  apply bind_ok in Hg. destruct Hg as [idx [Hi Hg]]. apply bind_ok in Hg. destruct Hg as [ts [Ht Hg]]. injection Hg as <-.
  unfold blpair_to_indices in Hi. apply require_ok in Hi. destruct Hi as [_ Hi]. injection Hi as <-.
  unfold grows, out_rows. destruct ta; [reflexivity|]. apply gather_spec in Ht. rewrite (picks_length _ _ _ Ht). apply where_mask_len.
Qed.

Hypothesis Hne : forall g, In g gs -> 1 <= length (fst g).
Hypothesis Nh : NoDup (map (fun g => hd 0%Z (fst g)) gs).

Lemma nsamples_ge0 b s p t : (0 <= cell (rows_or_nil (get_array (@u_nsample R) u s b p)) t 0)%R.
Proof using Nn.
  destruct (get_array (@u_nsample R) u s b p) as [rows|e] eqn:E; cbn [rows_or_nil]; [apply (Nn _ _ _ _ _ E)|].
  unfold cell. destruct t; cbn; lra.
Qed.
Lemma spec_nsample_ge0 s p r b : (0 <= spec_nsample u ta s p r b)%R.
Proof using Nn.
  unfold spec_nsample. apply Rsum_nonneg, Forall_forall. intros x Hx. apply in_map_iff in Hx. destruct Hx as [t [<- _]]. apply nsamples_ge0.
Qed.

Lemma averaged_keys b : In b (u_blpair_array u') -> exists g, In g gs /\ b = hd 0%Z (fst g).
Proof using Hgs Hav.
  destruct (blpair_rows_eq u ta norm false exact_w order circ groups weights u' gs Hgs Hav) as [-> _]. intro H.
  apply in_concat in H. destruct H as [l [Hl H]]. apply in_map_iff in Hl. destruct Hl as [g [<- Hg]]. apply repeat_spec in H. exists g. auto.
Qed.

Theorem average_averageable : exists w, averageable (with_wgt w u') false.
Proof using W Wd Na Np Nn Hgs Hav Hst Hnf Hpol Hne Nh.
  exists (u_data u').
  assert (E : u_folded u' = u_folded u /\ u_Nspws u' = u_Nspws u /\ u_spw_array u' = u_spw_array u /\ u_spw_freq_array u' = u_spw_freq_array u /\
    u_spw_dly_array u' = u_spw_dly_array u /\ u_freq_array u' = u_freq_array u /\ u_dly_array u' = u_dly_array u /\ u_scalar_array u' = u_scalar_array u /\
    u_bl_array u' = u_bl_array u /\ u_bl_vecs u' = u_bl_vecs u /\ u_polpair_array u' = u_polpair_array u /\ u_cov u' = None /\ u_window u' = None /\
    u_stats u' = None /\ u_OmegaP u' = u_OmegaP u /\
    length (u_time_1_array u') = length (u_blpair_array u') /\ length (u_time_2_array u') = length (u_blpair_array u') /\
    length (u_time_avg_array u') = length (u_blpair_array u') /\ length (u_lst_1_array u') = length (u_blpair_array u') /\
    length (u_lst_2_array u') = length (u_blpair_array u') /\ length (u_lst_avg_array u') = length (u_blpair_array u')).
  { pose proof meta_len as ML. pose proof Hav as H. unfold average_spectra in H. rewrite Hgs in H. cbn [bind] in H.
    do 2 (apply bind_ok in H; destruct H as [? [_ H]]).
    do 6 (let x := fresh "x" in let K := fresh "K" in apply bind_ok in H; destruct H as [x [K H]]; apply ML in K).
    injection H as H. rewrite <- H in *. cbn in *. repeat split; assumption. }
  destruct E as (E1 & E2 & E3 & E4 & E5 & E6 & E7 & E8 & E9 & E10 & E11 & E12 & E13 & E14 & E15 & L1 & L2 & L3 & L4 & L5 & L6).
  assert (Sin : forall s, In s (u_spw_array u) -> s < u_Nspws u).
  { intros s Hs. apply (Permutation_in _ (wf_spw u W)) in Hs. apply in_seq in Hs. lia. }
  assert (WF : wf (with_wgt (u_data u') u')).
  { constructor; cbn [with_wgt u_folded u_Nspws u_spw_array u_spw_freq_array u_spw_dly_array u_freq_array u_dly_array u_scalar_array u_blpair_array
      u_time_1_array u_time_2_array u_time_avg_array u_lst_1_array u_lst_2_array u_lst_avg_array u_bl_array u_bl_vecs u_polpair_array u_OmegaP];
      rewrite ?E2, ?E3, ?E4, ?E5, ?E6, ?E7, ?E8, ?E9, ?E10, ?E11, ?E15; try apply W; try assumption.
    intros d Hd s Hs. cbn in Hd. rewrite E12, E13, E14 in Hd. cbn in Hd. cbn [with_wgt u_spw_array] in Hs. rewrite E3 in Hs.
    destruct (spw_shapes s (Sin s Hs)) as (A & I & S & HA & HI & HS & HB).
    cbn [with_wgt u_blpair_array u_polpair_array]. rewrite E11.
    assert (C : forall B P, (B = A /\ P = (fun c : list R => length c = width u s) \/ (B = I \/ B = S) /\ P = (fun c : list R => length c = 1)) ->
      length B = length (u_blpair_array u') /\ forall r, In r B -> length r = length (u_polpair_array u)).
    { intros B P H. destruct (HB B P H) as [H1 H2]. split; [exact H1|]. intros r Hr. apply H2, Hr. }
    destruct Hd as [<-|[<-|[<-|[<-|[]]]]]; [exists A|exists A|exists I|exists S]; (split; [assumption|]).
    - apply (C A _ (or_introl (conj eq_refl eq_refl))).
    - apply (C A _ (or_introl (conj eq_refl eq_refl))).
    - apply (C I _ (or_intror (conj (or_introl eq_refl) eq_refl))).
    - apply (C S _ (or_intror (conj (or_intror eq_refl) eq_refl))). }
  split; [exact WF|]. split; [|split; [|split; [discriminate|split]]].
  - intros s a r c Hs Ha Hr Hc. cbn [with_wgt u_spw_array u_data] in *. rewrite E3 in Hs.
    destruct (spw_shapes s (Sin s Hs)) as (A & I & S & HA & HI & HS & HB). assert (a = A) by congruence. subst a.
    destruct (HB A _ (or_introl (conj eq_refl eq_refl))) as [_ K]. destruct (K r Hr) as [_ F]. rewrite Forall_forall in F. rewrite (F c Hc).
    unfold width. rewrite Hnf. unfold window_dlys. cbn [with_wgt u_spw_dly_array u_dly_array]. rewrite E5, E7. reflexivity.
  - intros f s a r c Hf Ha Hr Hc.
    assert (Hs : s < u_Nspws u).
    { destruct (avg_unfold u ta norm false exact_w order circ groups weights u' gs Hgs Hav) as [spws [Hspw [_ [_ [_ [_ [_ [_ [_ [_ [Ei En]]]]]]]]]]].
      apply map_res_spec, Forall2_len in Hspw. rewrite seq_length in Hspw.
      destruct Hf as [->| ->]; cbn [with_wgt u_integration u_nsample] in Ha; rewrite ?Ei, ?En, dget_to_dict, nth_error_map in Ha;
        (destruct (nth_error spws s) eqn:Q; [|discriminate]; assert (s < length spws) by (apply nth_error_Some; congruence); lia). }
    destruct (spw_shapes s Hs) as (A & I & S & HA & HI & HS & HB).
    assert (Ha' : a = I \/ a = S) by (destruct Hf as [->| ->]; cbn [with_wgt u_integration u_nsample] in Ha; [left|right]; congruence).
    destruct (HB a _ (or_intror (conj Ha' eq_refl))) as [_ K]. destruct (K r Hr) as [_ F]. rewrite Forall_forall in F. exact (F c Hc).
  - cbn [with_wgt u_polpair_array]. rewrite E11. exact Np.
  - intros s b p rows t H. change (get_array (@u_nsample R) u' s b p = Ok rows) in H.
    pose proof (get_array_known _ _ _ _ _ _ H) as (K1 & K2 & K3 & K4). rewrite E4 in K1. rewrite E5 in K2. rewrite E11 in K4.
    destruct (averaged_keys b K3) as [[g ws] [Hg ->]]. cbn [fst] in *.
    assert (Av : averageable u false) by (split; [exact W|]; split; [exact Wd|]; split; [exact Na|]; split; [discriminate|]; split; assumption).
    destruct (C18_weighted_mean u ta norm false exact_w order circ groups weights u' gs Av Hgs Hav Hst Nh s p g ws K1 K2 K4 Hg (Hne _ Hg))
      as (nw & data & ints & nsmp & _ & _ & _ & Hn & _ & _ & Ln & R0).
    rewrite Hn in H. injection H as <-. destruct (Nat.lt_ge_cases t (grows u ta g)) as [L|L].
    + destruct (R0 t L) as (_ & _ & _ & ->). unfold group_nsample. apply Rsum_nonneg, Forall_forall. intros x Hx.
      apply in_map_iff in Hx. destruct Hx as [bw [<- _]]. apply Rmult_le_pos; [apply pos_INR | apply spec_nsample_ge0].
    + unfold cell. rewrite (nth_overflow nsmp) by lia. cbn. lra.
Qed.
End Again.

(** * what the first step yields *)
Lemma weights_total l : Forall (fun p : R * R => snd p = 0%R \/ (tiny <= snd p)%R) l -> Forall (fun p => snd p = 0%R) l \/ (tiny <= wsum l)%R.
Proof.
  pose proof tiny_pos. induction 1 as [|[x w] l Hx F IH]; [left; constructor|]. cbn [snd] in Hx. unfold wsum in *. cbn [map Rsum snd].
  assert (P : (0 <= Rsum (map snd l))%R).
  { apply Rsum_nonneg, Forall_map. eapply Forall_impl; [|exact F]. cbn. intros a [->|Ha]; lra. }
  destruct Hx as [->|Hx]; [|right; lra]. destruct IH as [IH|IH]; [left; constructor; auto | right; lra].
Qed.
Lemma flat_map_Forall {A B} (P : B -> Prop) (f : A -> list B) l : (forall a, In a l -> Forall P (f a)) -> Forall P (flat_map f l).
Proof.
  intro H. apply Forall_forall. intros x Hx. apply in_flat_map in Hx. destruct Hx as [a [Ha Hx]]. specialize (H a Ha). rewrite Forall_forall in H. auto.
Qed.
Lemma wmean_const tau l : Forall (fun p => fst p = tau) l -> wsum l <> 0%R -> wmean l = tau.
Proof.
  intros F N. unfold wmean. assert (E : xsum l = (tau * wsum l)%R).
  { clear N. unfold xsum, wsum. induction F as [|[x w] l Hx F IH]; cbn [map Rsum fst snd] in *; [ring|]. rewrite IH, Hx. ring. }
  rewrite E. field. exact N.
Qed.
(** concatenating by rows or by members *)
Lemma rows_members {A B} (f : A -> nat -> B) (g : list A) (ts : list nat) :
  Permutation (concat (map (fun t => flat_map (fun b => [f b t]) g) ts)) (flat_map (fun b => map (f b) ts) g).
Proof.
  induction g as [|b g IH]; cbn [flat_map]; [clear; induction ts; cbn; auto|].
  rewrite <- IH. clear IH. induction ts as [|t ts IH]; cbn [map concat app flat_map]; [constructor|].
  apply perm_skip. rewrite IH. apply Permutation_app_swap_app.
Qed.

(** the group of a baseline-pair of the first average: the one it heads, or itself *)
Definition group_of (groups : list (list Z)) (h : Z) : list Z :=
  match find (fun g => Z.eqb (hd 0%Z g) h) groups with Some g => g | None => [h] end.

Section Two.
Variables (u : uvp R) (ta1 : bool) (order1 : list Z -> list Z) (circ1 : list Q -> Q) (groups1 : list (list Z)) (u1 : uvp R).
Hypothesis Av : averageable u false.
Hypothesis Nf : u_folded u = false.
Hypothesis Ho : forall l, Permutation (order1 l) l.
Hypothesis Hg : forall g, In g groups1 -> g <> [] /\ forall b, In b g -> In b (u_blpair_array u).
Hypothesis Hst : forall g, In g groups1 -> same_times u ta1 g.
Hypothesis Nh : NoDup (map (hd 0%Z) groups1).
Hypothesis Hav : average_spectra u false order1 circ1 ta1 true false groups1 None = Ok u1.

Lemma first_groups : exists rest gs,
  let gl := groups1 ++ map (fun b => [b]) rest in
  gs = map (fun g => (g, map (fun _ => 1%R) g)) gl /\
  effective_groups u false order1 groups1 None = Ok gs /\
  (forall g, In g gl -> g <> [] /\ (forall b, In b g -> In b (u_blpair_array u)) /\ same_times u ta1 g) /\
  NoDup (map (hd 0%Z) gl).
Proof using Hg Ho Hst Nh Hav.
  assert (Hg1 : forall g, In g groups1 -> g <> [] /\ In (hd 0%Z g) (u_blpair_array u)).
  { intros g0 H0. destruct (Hg g0 H0) as [H1 H2]. split; [exact H1|]. apply H2. destruct g0; [congruence | left; reflexivity]. }
  destruct (C18_groups u order1 groups1 Ho (average_nonempty _ _ _ _ _ _ _ _ _ _ Hav) Hg1) as [rest [Hgs [Nr Hr]]].
  exists rest, (map (fun g => (g, map (fun _ => 1%R) g)) (groups1 ++ map (fun b => [b]) rest)).
  split; [reflexivity|]. split; [exact Hgs|]. split.
  - intros g H0. apply in_app_or in H0. destruct H0 as [H0|H0]; [destruct (Hg g H0); repeat split; auto|].
    apply in_map_iff in H0. destruct H0 as [b [<- Hb]]. split; [discriminate|]. split; [intros b' [<-|[]]; apply Hr, Hb|].
    right. intros b' [<-|[]]. reflexivity.
  - rewrite map_app, map_map. cbn [hd]. rewrite map_id.
    apply NoDup_app; auto. intros x Hx Hx'. apply Hr in Hx'. destruct Hx' as [_ Hx'].
    apply in_map_iff in Hx. destruct Hx as [g0 [<- H0]]. apply Hx'. apply in_concat. exists g0. split; [exact H0|].
    destruct (Hg1 g0 H0) as [Hne _]. destruct g0; [congruence | left; reflexivity].
Qed.

Lemma group_of_spec h : In h (u_blpair_array u1) ->
  exists rest gs, let gl := groups1 ++ map (fun b => [b]) rest in
  gs = map (fun g => (g, map (fun _ => 1%R) g)) gl /\ effective_groups u false order1 groups1 None = Ok gs /\
  (forall g, In g gl -> g <> [] /\ (forall b, In b g -> In b (u_blpair_array u)) /\ same_times u ta1 g) /\
  NoDup (map (hd 0%Z) gl) /\ In (group_of groups1 h) gl /\ hd 0%Z (group_of groups1 h) = h.
Proof using Hg Ho Hst Nh Hav.
  intro H. destruct first_groups as (rest & gs & Egs & Hgs & Hgl & Nd). exists rest, gs. cbv zeta in *.
  split; [exact Egs|]. split; [exact Hgs|]. split; [exact Hgl|]. split; [exact Nd|].
  destruct (averaged_keys u ta1 true false order1 circ1 groups1 None u1 gs Hgs Hav h H) as [[g ws] [Hin ->]].
  rewrite Egs in Hin. apply in_map_iff in Hin. destruct Hin as [g' [E Hin]]. injection E as -> _. cbn [fst].
  unfold group_of. destruct (find _ groups1) as [g0|] eqn:F.
  - apply find_some in F. destruct F as [F1 F2]. apply Z.eqb_eq in F2. split; [apply in_or_app; left; exact F1 | exact F2].
  - apply in_app_or in Hin. destruct Hin as [Hin|Hin].
    + exfalso. pose proof (find_none _ _ F g Hin) as X. cbv beta in X. rewrite Z.eqb_refl in X. discriminate.
    + split; [|reflexivity]. apply in_or_app. right. apply in_map_iff in Hin. destruct Hin as [b [<- Hb]]. cbn [hd]. apply in_map_iff. exists b. auto.
Qed.

(** every spectrum has no weight or enough of it, and the same integration time [tau] *)
Definition equal_times (s : nat) (p : Z) (tau : R) (b : Z) : Prop := forall t, t < ntimes u b ->
  cell (rows_or_nil (get_array (@u_integration R) u s b p)) t 0 = tau /\
  (cell (rows_or_nil (get_array (@u_nsample R) u s b p)) t 0 = 0%R \/
   (tiny <= tau ^ 2 * cell (rows_or_nil (get_array (@u_nsample R) u s b p)) t 0)%R).

Lemma first_step s p h : In s (u_spw_freq_array u) -> In s (u_spw_dly_array u) -> In p (u_polpair_array u) -> In h (u_blpair_array u1) ->
  ntimes u1 h = out_rows ta1 (ntimes u h) /\ same_times u ta1 (group_of groups1 h) /\ hd 0%Z (group_of groups1 h) = h /\
  group_of groups1 h <> [] /\ (forall b, In b (group_of groups1 h) -> In b (u_blpair_array u)) /\
  forall r, r < ntimes u1 h ->
    cell (rows_or_nil (get_array (@u_nsample R) u1 s h p)) r 0 = Rsum (map (spec_nsample u ta1 s p r) (group_of groups1 h)) /\
    forall d tau, d < width u s -> (forall b, In b (group_of groups1 h) -> equal_times s p tau b) ->
      (0 < wsum (flat_map (spec_terms Power u ta1 false s p r d) (group_of groups1 h)))%R ->
      spec_value Power u1 s p h r d = wmean (flat_map (spec_terms Power u ta1 false s p r d) (group_of groups1 h)) /\
      spec_weight u1 false s p h r d = wsum (flat_map (spec_terms Power u ta1 false s p r d) (group_of groups1 h)).
Proof using Av Ho Hg Hst Nh Hav.
  intros Hs1 Hs2 Hp Hh. destruct (group_of_spec h Hh) as (rest & gs & Egs & Hgs & Hgl & Nd & Gin & Gh). cbv zeta in *.
  set (g := group_of groups1 h) in *. destruct (Hgl g Gin) as (Gne & Gmem & Gst).
  assert (A1 : forall x, In x gs -> same_times u ta1 (fst x)).
  { intros x Hx. rewrite Egs in Hx. apply in_map_iff in Hx. destruct Hx as [g0 [<- H0]]. apply Hgl, H0. }
  assert (A2 : NoDup (map (fun x => hd 0%Z (fst x)) gs)) by (rewrite Egs, map_map; exact Nd).
  assert (A3 : In (g, map (fun _ => 1%R) g) gs) by (rewrite Egs; apply in_map_iff; exists g; auto).
  assert (A4 : 1 <= length g) by (destruct g; [congruence | cbn; lia]).
  destruct (C18_weighted_mean u ta1 true false false order1 circ1 groups1 None u1 gs Av Hgs Hav A1 A2 s p g _ Hs1 Hs2 Hp A3 A4)
    as (nw & data & ints & nsmp & Hnw & Hd & Hi & Hn & L1 & L2 & L3 & H).
  rewrite norm_equal in Hnw by (try lra; exact Gne). injection Hnw as <-. rewrite Gh in *.
  assert (NT : ntimes u1 h = grows u ta1 g).
  { destruct (get_array_rows _ _ _ _ _ _ Hn) as [L _]. lia. }
  split; [rewrite NT; unfold grows; rewrite Gh; reflexivity|]. split; [exact Gst|]. split; [first [exact Gh | reflexivity]|]. split; [exact Gne|]. split; [exact Gmem|].
  rewrite NT. intros r Hr. destruct (H r Hr) as (_ & C1 & C2 & C3). rewrite nsample_once in C3.
  rewrite Hn. cbn [rows_or_nil]. split; [exact C3|]. intros d tau Hdw Ht Hpos.
  pose proof tiny_pos as TP.
  assert (Tr : forall b t, In b g -> In t (if ta1 then seq 0 (ntimes u b) else [r]) -> t < ntimes u b).
  { intros b t Hb It. unfold grows, out_rows in Hr. destruct Gst as [E|E].
    - rewrite E in It. apply in_seq in It. lia.
    - destruct ta1; [apply in_seq in It; lia|]. destruct It as [<-|[]]. rewrite (E b Hb). exact Hr. }
  assert (FW : forall q d', Forall (fun x => snd x = 0%R \/ (tiny <= snd x)%R) (flat_map (spec_terms q u ta1 false s p r d') g)).
  { intros q d'. apply flat_map_Forall. intros b Hb. unfold spec_terms. apply Forall_map, Forall_forall. intros t It. cbn [snd].
    destruct (Ht b Hb t (Tr b t Hb It)) as [E1 E2]. unfold spec_weight. rewrite E1. destruct E2 as [->|E2]; [left; ring | right; exact E2]. }
  assert (FW1 : forall q d' b, In b g -> weighted (spec_terms q u ta1 false s p r d' b)).
  { intros q d' b Hb. unfold weighted. apply or_comm, weights_total. specialize (FW q d'). rewrite Forall_forall in FW. apply Forall_forall.
    intros x Hx. apply FW, in_flat_map. exists b. auto. }
  assert (SW : forall q d', wsum (flat_map (spec_terms q u ta1 false s p r d') g) = wsum (flat_map (spec_terms Power u ta1 false s p r d) g)).
  { intros q d'. unfold wsum. f_equal. clear. clearbody g. induction g as [|b g0 IH]; [reflexivity|]. cbn [flat_map]. rewrite !map_app, IH. f_equal.
    unfold spec_terms. rewrite !map_map. reflexivity. }
  assert (TW : (tiny <= wsum (flat_map (spec_terms Power u ta1 false s p r d) g))%R).
  { destruct (weights_total _ (FW Power d)) as [Z|Z]; [|exact Z]. apply weighted_zero in Z. destruct Z as [_ Z]. lra. }
  assert (V : cell data r d = wmean (flat_map (spec_terms Power u ta1 false s p r d) g)).
  { rewrite <- contributions_once. apply C1; [exact Hdw | intros b Hb; apply FW1, Hb | rewrite contributions_once; exact TW]. }
  assert (I : cell ints r 0 = tau).
  { rewrite C2; [|lia|intros b Hb; apply FW1, Hb|rewrite contributions_once, SW; exact TW]. rewrite contributions_once.
    apply wmean_const; [|rewrite SW; lra]. apply flat_map_Forall. intros b Hb. unfold spec_terms. apply Forall_map, Forall_forall. intros t It.
    cbn [fst spec_value]. apply (Ht b Hb t (Tr b t Hb It)). }
  split.
  - unfold spec_value. rewrite Hd. exact V.
  - unfold spec_weight. rewrite Hi, Hn. cbn [rows_or_nil]. rewrite I, C3. clear -Ht Tr. clearbody g. induction g as [|b g0 IH]; [cbn; unfold wsum; cbn; ring|].
    cbn [map Rsum flat_map]. rewrite wsum_app, Rmult_plus_distr_l, IH; [f_equal| |].
    + unfold spec_nsample, wsum, spec_terms. rewrite map_map. cbn [snd]. rewrite <- Rsum_scale, map_map. f_equal. apply map_ext_in. intros t It.
      unfold spec_weight. destruct (Ht b (or_introl eq_refl) t (Tr b t (or_introl eq_refl) It)) as [-> _]. reflexivity.
    + intros b0 Hb0. apply Ht. right; exact Hb0.
    + intros b0 t Hb0. apply Tr. right; exact Hb0.
Qed.
End Two.

Lemma Rsum_flat_map {A} (f : A -> list R) l : Rsum (flat_map f l) = Rsum (map (fun a => Rsum (f a)) l).
Proof. induction l as [|a l IH]; cbn [flat_map map Rsum]; [reflexivity|]. rewrite Rsum_app, IH. reflexivity. Qed.
Lemma Rsum_swap {A} (f : A -> nat -> R) g ts : Rsum (map (fun t => Rsum (map (fun b => f b t) g)) ts) = Rsum (map (fun b => Rsum (map (f b) ts)) g).
Proof.
  induction ts as [|t ts IH]; cbn [map Rsum].
  - induction g as [|b g IHg]; cbn; [reflexivity|]. rewrite <- IHg. ring.
  - rewrite IH. clear IH. induction g as [|b g IHg]; cbn [map Rsum]; [ring|]. rewrite <- IHg. ring.
Qed.
Lemma map_flat_map {A B C} (f : B -> C) (g : A -> list B) l : map f (flat_map g l) = flat_map (fun a => map f (g a)) l.
Proof. induction l as [|a l IH]; cbn [flat_map]; [reflexivity|]. rewrite map_app, IH. reflexivity. Qed.
Lemma flat_map_flat_map {A B C} (f : B -> list C) (g : A -> list B) l : flat_map f (flat_map g l) = flat_map (fun a => flat_map f (g a)) l.
Proof. induction l as [|a l IH]; cbn [flat_map]; [reflexivity|]. rewrite flat_map_app, IH. reflexivity. Qed.
Lemma concat_flat_map {A B} (g : A -> list (list B)) l : concat (flat_map g l) = flat_map (fun a => concat (g a)) l.
Proof. induction l as [|a l IH]; cbn [flat_map]; [reflexivity|]. rewrite concat_app, IH. reflexivity. Qed.
Lemma flat_map_perm {A B} (f g : A -> list B) l : (forall a, In a l -> Permutation (f a) (g a)) -> Permutation (flat_map f l) (flat_map g l).
Proof. induction l as [|a l IH]; intro H; cbn [flat_map]; [constructor|]. apply Permutation_app; [apply H; left; reflexivity | apply IH; intros; apply H; right; assumption]. Qed.

(** averaging groups of baseline-pairs ([ta1]: and times), and then groups of these averages ([ta2]: and times), is averaging the union of
    the groups at once, for baseline-pairs with the same integration time *)
Theorem C18_two_steps_object : forall u ta1 ta2 order1 order2 order3 circ1 circ2 circ3 groups1 groups2 u1 u2 u',
  averageable u false -> u_folded u = false ->
  (forall l, Permutation (order1 l) l) -> (forall l, Permutation (order2 l) l) -> (forall l, Permutation (order3 l) l) ->
  (forall g, In g groups1 -> g <> [] /\ forall b, In b g -> In b (u_blpair_array u)) ->
  (forall g, In g groups1 -> same_times u ta1 g) -> NoDup (map (hd 0%Z) groups1) ->
  average_spectra u false order1 circ1 ta1 true false groups1 None = Ok u1 ->
  (forall g, In g groups2 -> g <> [] /\ forall b, In b g -> In b (u_blpair_array u1)) ->
  (forall g, In g groups2 -> same_times u1 ta2 g) -> NoDup (map (hd 0%Z) groups2) ->
  average_spectra u1 false order2 circ2 ta2 true false groups2 None = Ok u2 ->
  average_spectra u false order3 circ3 (ta1 || ta2) true false (map (flat_map (group_of groups1)) groups2) None = Ok u' ->
  forall s p g, In s (u_spw_freq_array u) -> In s (u_spw_dly_array u) -> In p (u_polpair_array u) -> In g groups2 ->
  exists data2 data' nsmp2 nsmp',
    get_data u2 s (hd 0%Z g) p = Ok data2 /\ get_data u' s (hd 0%Z g) p = Ok data' /\
    get_array (@u_nsample R) u2 s (hd 0%Z g) p = Ok nsmp2 /\ get_array (@u_nsample R) u' s (hd 0%Z g) p = Ok nsmp' /\
    length data2 = length data' /\ length nsmp2 = length data' /\ length nsmp' = length data' /\
    forall r, r < length data' ->
      cell nsmp2 r 0 = cell nsmp' r 0 /\
      forall d tau, d < width u s ->
        (forall h b, In h g -> In b (group_of groups1 h) -> equal_times u s p tau b) ->
        (forall h r1, In h g -> r1 < ntimes u1 h -> (0 < wsum (flat_map (spec_terms Power u ta1 false s p r1 d) (group_of groups1 h)))%R) ->
        cell data2 r d = cell data' r d.
Proof.
  intros u ta1 ta2 order1 order2 order3 circ1 circ2 circ3 groups1 groups2 u1 u2 u' Av Nf Ho1 Ho2 Ho3 Hg1 Hst1 Nh1 Hav1 Hg2 Hst2 Nh2 Hav2 Hav' s p g Hs1 Hs2 Hp Hg.
  (* the first average can be averaged *)
  assert (FS := fun h => first_step u ta1 order1 circ1 groups1 u1 Av Ho1 Hg1 Hst1 Nh1 Hav1 s p h Hs1 Hs2 Hp).
  destruct (first_groups u ta1 order1 circ1 groups1 u1 Ho1 Hg1 Hst1 Nh1 Hav1) as (rest & gs & Egs & Hgs & Hgl & Nd). cbv zeta in *.
  assert (AA : exists w, averageable (with_wgt w u1) false).
  { destruct Av as (W & Wd & Na & _ & Np & Nn).
    apply (average_averageable u ta1 true false order1 circ1 groups1 None u1 gs W Wd Na Np Nn Hgs Hav1); auto.
    - intros x Hx. rewrite Egs in Hx. apply in_map_iff in Hx. destruct Hx as [g0 [<- H0]]. apply Hgl, H0.
    - intro E. rewrite E in Hp. destruct Hp.
    - intros x Hx. rewrite Egs in Hx. apply in_map_iff in Hx. destruct Hx as [g0 [<- H0]]. cbn [fst]. destruct (Hgl g0 H0) as [Hn _]. destruct g0; [congruence | cbn; lia].
    - rewrite Egs, map_map. exact Nd. }
  destruct AA as [w AA]. pose proof (average_with_wgt w u1 false order2 circ2 ta2 true false groups2 None u2 Hav2) as Hav2'.
  destruct (avg_unfold u ta1 true false false order1 circ1 groups1 None u1 gs Hgs Hav1) as (spws & _ & _ & Ef & Efr & Edl & Epo & Edy & _).
  assert (WU : width u1 s = width u s) by (unfold width, window_dlys; rewrite Ef, Edl, Edy; reflexivity).
  destruct (Hg2 g Hg) as [Gne Gmem].
  assert (Hh : In (hd 0%Z g) g) by (destruct g; [congruence | left; reflexivity]).
  (* second step *)
  destruct (C18_default_mean (with_wgt w u1) ta2 order2 circ2 groups2 (with_wgt w u2) AA Ho2 Hg2 Hst2 Nh2 Hav2' s p g)
    as (data2 & nsmp2 & D2 & N2 & L2 & M2 & H2); [cbn [with_wgt u_spw_freq_array]; rewrite Efr; exact Hs1 | cbn [with_wgt u_spw_dly_array]; rewrite Edl; exact Hs2 |
      cbn [with_wgt u_polpair_array]; rewrite Epo; exact Hp | exact Hg|].
  change (get_data u2 s (hd 0%Z g) p = Ok data2) in D2. change (get_array (@u_nsample R) u2 s (hd 0%Z g) p = Ok nsmp2) in N2.
  change (grows (with_wgt w u1) ta2 g) with (grows u1 ta2 g) in L2, M2, H2. change (width (with_wgt w u1) s) with (width u1 s) in H2. rewrite WU in H2.
  (* at once *)
  assert (HD : forall g0, In g0 groups2 -> hd 0%Z (flat_map (group_of groups1) g0) = hd 0%Z g0 /\ flat_map (group_of groups1) g0 <> []).
  { intros g0 H0. destruct (Hg2 g0 H0) as [Gn Gm]. destruct g0 as [|h g0]; [congruence|]. cbn [flat_map hd].
    destruct (FS h (Gm h (or_introl eq_refl))) as (_ & _ & Eh & Ne & _). destruct (group_of groups1 h) as [|x l]; [congruence|]. cbn [app hd] in *. split; [exact Eh | discriminate]. }
  destruct (C18_default_mean u (ta1 || ta2) order3 circ3 (map (flat_map (group_of groups1)) groups2) u') with (s := s) (p := p) (g := flat_map (group_of groups1) g)
    as (data' & nsmp' & D' & N' & L' & M' & H'); auto.
  - intros x Hx. apply in_map_iff in Hx. destruct Hx as [g0 [<- H0]]. split; [apply HD, H0|]. intros b Hb. apply in_flat_map in Hb.
    destruct Hb as [h [Ih Ib]]. destruct (FS h) as (_ & _ & _ & _ & K & _); [apply (proj2 (Hg2 g0 H0)), Ih|]. apply K, Ib.
  - intros x Hx. apply in_map_iff in Hx. destruct Hx as [g0 [<- H0]].
    destruct (ta1 || ta2)%bool eqn:T; [left; reflexivity|]. apply orb_false_iff in T. destruct T as [T1 T2]. right. intros b Hb. apply in_flat_map in Hb.
    destruct Hb as [h [Ih Ib]]. destruct (HD g0 H0) as [-> _]. destruct (Hst2 g0 H0) as [E|E]; [congruence|]. specialize (E h Ih).
    destruct (FS h) as (Q1 & Q2 & Q3 & _); [apply (proj2 (Hg2 g0 H0)), Ih|].
    destruct (FS (hd 0%Z g0)) as (Q4 & _); [apply (proj2 (Hg2 g0 H0)); destruct g0; [destruct Ih | left; reflexivity]|].
    rewrite Q1, Q4, T1 in E. cbn [out_rows] in E. destruct Q2 as [Q2|Q2]; [congruence|]. rewrite (Q2 b Ib), Q3. exact E.
  - rewrite map_map. rewrite (map_ext_in _ (hd 0%Z)); [exact Nh2|]. intros g0 H0. apply HD, H0.
  - apply in_map, Hg.
  - destruct (HD g Hg) as [Eh _]. rewrite Eh in D', N'.
    assert (GR : grows u1 ta2 g = grows u (ta1 || ta2) (flat_map (group_of groups1) g)).
    { unfold grows. rewrite Eh. destruct (FS (hd 0%Z g) (Gmem _ Hh)) as (-> & _). destruct ta1, ta2; reflexivity. }
    exists data2, data', nsmp2, nsmp'. repeat (split; [first [assumption | congruence]|]). rewrite L', <- GR. intros r Hr.
    destruct (H2 r Hr) as (_ & S2 & V2). rewrite GR in Hr. destruct (H' r Hr) as (_ & S' & V'). rewrite <- GR in Hr.
    (* the rows of a first average that take part *)
    assert (Rows : forall h t, In h g -> In t (if ta2 then seq 0 (ntimes u1 h) else [r]) -> t < ntimes u1 h).
    { intros h t Ih It. destruct ta2; [apply in_seq in It; lia|]. destruct It as [<-|[]]. unfold grows, out_rows in Hr.
      destruct (Hst2 g Hg) as [E|E]; [discriminate|]. rewrite (E h Ih). exact Hr. }
    (* summing over rows and members of h *)
    assert (Same : forall h, In h g -> forall b, In b (group_of groups1 h) -> ta1 = false -> ntimes u b = ntimes u1 h).
    { intros h Ih b Ib T. destruct (FS h (Gmem h Ih)) as (Q1 & Q2 & Q3 & _). rewrite Q1, T. cbn [out_rows]. destruct Q2 as [Q2|Q2]; [congruence|]. rewrite (Q2 b Ib), Q3. reflexivity. }
    assert (One : forall h, In h g -> ta1 = true -> (if ta2 then seq 0 (ntimes u1 h) else [r]) = [if ta2 then 0 else r]).
    { intros h Ih T. destruct (FS h (Gmem h Ih)) as (Q1 & _). rewrite Q1, T. destruct ta2; reflexivity. }
    split.
    + rewrite S2, S'. rewrite map_flat_map, Rsum_flat_map. f_equal. apply map_ext_in. intros h Ih.
      destruct (FS h (Gmem h Ih)) as (_ & _ & _ & _ & _ & F).
      transitivity (Rsum (map (fun t => Rsum (map (spec_nsample u ta1 s p t) (group_of groups1 h))) (if ta2 then seq 0 (ntimes u1 h) else [r]))).
      { unfold spec_nsample at 1. change (ntimes (with_wgt w u1) h) with (ntimes u1 h). f_equal. apply map_ext_in. intros t It. apply (F t (Rows h t Ih It)). }
      destruct ta1 eqn:T1.
      * rewrite (One h Ih eq_refl). cbn [map Rsum orb]. rewrite Rplus_0_r. f_equal.
      * rewrite (Rsum_swap (fun b t => spec_nsample u false s p t b)). f_equal. apply map_ext_in. intros b Ib. cbn [orb]. unfold spec_nsample.
        rewrite (Same h Ih b Ib eq_refl). f_equal. apply map_ext. intro t. cbn [map Rsum]. ring.
    + intros d tau Hdw Ht Hpos.
      pose proof tiny_pos as TP.
      (* weights of the first averages *)
      set (L := fun h t => flat_map (spec_terms Power u ta1 false s p t d) (group_of groups1 h)).
      assert (T2 : forall h, In h g -> spec_terms Power (with_wgt w u1) ta2 false s p r d h =
        map (fun l => (wmean l, wsum l)) (map (L h) (if ta2 then seq 0 (ntimes u1 h) else [r]))).
      { intros h Ih. destruct (FS h (Gmem h Ih)) as (_ & _ & _ & _ & _ & F). unfold spec_terms. rewrite map_map.
        change (ntimes (with_wgt w u1) h) with (ntimes u1 h). apply map_ext_in. intros t It. pose proof (Rows h t Ih It) as Rt.
        destruct (F t Rt) as (_ & F2). destruct (F2 d tau Hdw (fun b Ib => Ht h b Ih Ib) (Hpos h t Ih Rt)) as [F3 F4].
        unfold L. rewrite <- F3, <- F4. reflexivity. }
      assert (FL : forall h t, In h g -> t < ntimes u1 h -> (tiny <= wsum (L h t))%R).
      { intros h t Ih It. destruct (FS h (Gmem h Ih)) as (Q1 & Q2 & Q3 & _).
        assert (FW : Forall (fun x => snd x = 0%R \/ (tiny <= snd x)%R) (L h t)).
        { apply flat_map_Forall. intros b Ib. unfold spec_terms. apply Forall_map, Forall_forall. intros t' It'. cbn [snd].
          destruct (Ht h b Ih Ib t') as [E1 E2].
          { destruct ta1 eqn:T1; [apply in_seq in It'; lia|]. destruct It' as [<-|[]]. rewrite (Same h Ih b Ib eq_refl). exact It. }
          unfold spec_weight. rewrite E1. destruct E2 as [->|E2]; [left; ring | right; exact E2]. }
        destruct (weights_total _ FW) as [Z|Z]; [|exact Z]. apply weighted_zero in Z. destruct Z as [_ Z]. specialize (Hpos h t Ih It). unfold L in Z. lra. }
      set (LL := flat_map (fun h => map (L h) (if ta2 then seq 0 (ntimes u1 h) else [r])) g).
      assert (FLL : Forall (fun l => (tiny <= wsum l)%R) LL).
      { apply flat_map_Forall. intros h Ih. apply Forall_map, Forall_forall. intros t It. apply FL; [exact Ih | apply Rows; assumption]. }
      assert (E2 : flat_map (spec_terms Power (with_wgt w u1) ta2 false s p r d) g = map (fun l => (wmean l, wsum l)) LL).
      { unfold LL. rewrite map_flat_map. clear -T2. induction g as [|h g IH]; [reflexivity|]. cbn [flat_map]. rewrite T2 by (left; reflexivity). f_equal. apply IH. intros; apply T2; right; assumption. }
      assert (Gp : forall l, Forall (fun l : list (R * R) => (tiny <= wsum l)%R) l -> Forall (fun x : R * R => snd x = 0%R \/ (tiny <= snd x)%R) (map (fun l => (wmean l, wsum l)) l)).
      { intros l F. apply Forall_map. eapply Forall_impl; [|exact F]. cbn. intros a Ha. right; exact Ha. }
      assert (Nn0 : LL <> []).
      { unfold LL. destruct g as [|h g0]; [congruence|]. cbn [flat_map]. intro E. apply app_eq_nil in E. destruct E as [E _]. apply map_eq_nil in E.
        destruct (FS h (Gmem h (or_introl eq_refl))) as (Q1 & _). destruct ta2; [|discriminate]. assert (Z : ntimes u1 h = 0) by (destruct (ntimes u1 h); [reflexivity | discriminate]).
        assert (C := Gmem h (or_introl eq_refl)). apply (count_occ_In Z.eq_dec) in C. unfold ntimes in Z. lia. }
      assert (TW : (tiny <= wsum (map (fun l => (wmean l, wsum l)) LL))%R).
      { destruct (weights_total _ (Gp LL FLL)) as [Z|Z]; [|exact Z]. exfalso. destruct LL as [|l0 l]; [congruence|]. inversion Z as [|? ? Z0 _]. cbn [snd] in Z0. inversion FLL. lra. }
      rewrite V2; [|exact Hdw| |rewrite E2; exact TW].
      2:{ intros h Ih. unfold weighted. apply or_comm, weights_total. rewrite T2 by exact Ih. apply Gp, Forall_map, Forall_forall. intros t It. apply FL; [exact Ih | apply Rows; assumption]. }
      rewrite E2, wmean_two_step by (eapply Forall_impl; [|exact FLL]; cbn; intros; lra).
      (* the contributions are the same *)
      assert (P : Permutation (concat LL) (flat_map (spec_terms Power u (ta1 || ta2) false s p r d) (flat_map (group_of groups1) g))).
      { unfold LL. rewrite concat_flat_map, flat_map_flat_map. apply flat_map_perm. intros h Ih. unfold L. destruct ta1 eqn:T1.
        - rewrite (One h Ih eq_refl). cbn [map concat orb]. rewrite app_nil_r. apply Permutation_refl.
        - cbn [orb]. destruct ta2 eqn:T2'.
          + etransitivity; [apply (rows_members (fun b t => (spec_value Power u s p b t d, spec_weight u false s p b t d)))|].
            apply flat_map_perm. intros b Ib. unfold spec_terms. rewrite (Same h Ih b Ib eq_refl). apply Permutation_refl.
          + cbn [map concat]. rewrite app_nil_r. apply Permutation_refl. }
      rewrite (wmean_perm _ _ P). symmetry. apply V'; [exact Hdw| |].
      * intros b Ib. apply in_flat_map in Ib. destruct Ib as [h [Ih Ib]]. unfold weighted. apply or_comm, weights_total. unfold spec_terms.
        apply Forall_map, Forall_forall. intros t It. cbn [snd].
        destruct (Ht h b Ih Ib t) as [E3 E4].
        { destruct (ta1 || ta2)%bool eqn:T; [apply in_seq in It; lia|]. apply orb_false_iff in T. destruct T as [T3 T4]. destruct It as [<-|[]].
          rewrite (Same h Ih b Ib T3). apply Rows; [exact Ih|]. rewrite T4. left; reflexivity. }
        unfold spec_weight. rewrite E3. destruct E4 as [->|E4]; [left; ring | right; exact E4].
      * assert (WP : wsum (concat LL) = wsum (flat_map (spec_terms Power u (ta1 || ta2) false s p r d) (flat_map (group_of groups1) g)))
          by (unfold wsum; apply Rsum_perm, Permutation_map, P).
        rewrite <- WP, wsum_concat. unfold wsum at 1 in TW. rewrite map_map in TW. exact TW.
Qed.
Print Assumptions C18_two_steps_object.

(** the second step does not fail either *)
Theorem C18_second_average_total : forall u ta1 ta2 order1 order2 circ1 circ2 groups1 groups2 u1,
  averageable u false -> u_folded u = false -> u_polpair_array u <> [] ->
  (forall s, s < u_Nspws u -> In s (u_spw_freq_array u) /\ In s (u_spw_dly_array u)) ->
  (forall l, Permutation (order1 l) l) -> (forall l, Permutation (order2 l) l) ->
  (forall g, In g groups1 -> g <> [] /\ forall b, In b g -> In b (u_blpair_array u)) ->
  (forall g, In g groups1 -> same_times u ta1 g) -> NoDup (map (hd 0%Z) groups1) ->
  average_spectra u false order1 circ1 ta1 true false groups1 None = Ok u1 ->
  groups2 <> [] -> (forall g, In g groups2 -> g <> [] /\ forall b, In b g -> In b (u_blpair_array u1)) ->
  (forall g, In g groups2 -> same_times u1 ta2 g) ->
  exists u2, average_spectra u1 false order2 circ2 ta2 true false groups2 None = Ok u2.
Proof.
  intros u ta1 ta2 order1 order2 circ1 circ2 groups1 groups2 u1 Av Nf Np0 Hfull Ho1 Ho2 Hg1 Hst1 Nh1 Hav1 Ng2 Hg2 Hst2.
  destruct (first_groups u ta1 order1 circ1 groups1 u1 Ho1 Hg1 Hst1 Nh1 Hav1) as (rest & gs & Egs & Hgs & Hgl & Nd). cbv zeta in *.
  assert (AA : exists w, averageable (with_wgt w u1) false).
  { destruct Av as (W & Wd & Na & _ & Np & Nn).
    apply (average_averageable u ta1 true false order1 circ1 groups1 None u1 gs W Wd Na Np Nn Hgs Hav1); auto.
    - intros x Hx. rewrite Egs in Hx. apply in_map_iff in Hx. destruct Hx as [g0 [<- H0]]. apply Hgl, H0.
    - intros x Hx. rewrite Egs in Hx. apply in_map_iff in Hx. destruct Hx as [g0 [<- H0]]. cbn [fst]. destruct (Hgl g0 H0) as [Hn _]. destruct g0; [congruence | cbn; lia].
    - rewrite Egs, map_map. exact Nd. }
  destruct AA as [w AA].
  destruct (avg_unfold u ta1 true false false order1 circ1 groups1 None u1 gs Hgs Hav1) as (spws & _ & _ & Ef & Efr & Edl & Epo & Edy & EN & _).
  destruct (C18_total (with_wgt w u1) ta2 order2 circ2 groups2 AA) as [u2 H2]; auto.
  - intros s Hs. cbn [with_wgt u_Nspws u_spw_freq_array u_spw_dly_array] in *. rewrite Efr, Edl. apply Hfull. rewrite <- EN. exact Hs.
  - exists (with_wgt (u_wgt u1) u2). apply (average_with_wgt (u_wgt u1)) in H2.
    assert (E : with_wgt (u_wgt u1) (with_wgt w u1) = u1) by (destruct u1; reflexivity). rewrite E in H2. exact H2.
Qed.
Print Assumptions C18_second_average_total.

(** two baseline-pairs at two times, integrations of 2 s: the pairs are averaged first and then the times, or everything at once *)
Definition eq_obj : uvp R :=
  mkuvp false 1 [0] [0; 0] [0; 0] [1; 2]%R [-1 # 1; 0 # 1]%Q [[1%R]]
    [11; 22; 11; 22]%Z [0; 0; 1; 1]%Q [0; 0; 1; 1]%Q [0; 0; 1; 1]%Q [0; 0; 1; 1]%Q [0; 0; 1; 1]%Q [0; 0; 1; 1]%Q
    [1; 2]%Z [0; 0]%R [505]%Z
    [(0, [[[1; 10]]; [[2; 20]]; [[3; 30]]; [[4; 40]]]%R)]
    [(0, [[[1]]; [[1]]; [[1]]; [[1]]]%R)]
    [(0, [[[2]]; [[2]]; [[2]]; [[2]]]%R)]
    [(0, [[[1]]; [[3]]; [[1]]; [[0]]]%R)]
    None None None [] [] [].
Lemma eq_obj_averageable : averageable eq_obj false.
Proof.
  unfold averageable. split; [|split; [|split; [|split; [|split]]]].
  - split; try reflexivity; try (cbn; tauto).
    + cbn. split; [reflexivity|]. intros r [<-|[]]; reflexivity.
    + intros d Hd. cbn in Hd. unfold shaped.
      destruct Hd as [<-|[<-|[<-|[<-|[]]]]]; intros s Hs; cbn in Hs; destruct Hs as [<-|[]];
      (eexists; split; [reflexivity|]; split; [reflexivity|]; cbn; intros r Hr; intuition (subst; reflexivity)).
  - intros s a r c Hs Ha Hr Hc. apply dget_single in Ha. subst a. cbn in Hs. destruct Hs as [<-|[]].
    cbn in Hr. destruct Hr as [<-|[<-|[<-|[<-|[]]]]]; cbn in Hc; destruct Hc as [<-|[]]; reflexivity.
  - intros f s a r c Hf Ha Hr Hc. destruct Hf as [-> | ->]; cbn in Ha; apply dget_single in Ha; subst a;
    cbn in Hr; destruct Hr as [<-|[<-|[<-|[<-|[]]]]]; cbn in Hc; destruct Hc as [<-|[]]; reflexivity.
  - discriminate.
  - repeat constructor. intros [].
  - apply stored_nonneg. intros s a r c x Ha Hr Hc Hx. cbn in Ha; apply dget_single in Ha; subst a;
    cbn in Hr; destruct Hr as [<-|[<-|[<-|[<-|[]]]]]; cbn in Hc; destruct Hc as [<-|[]]; cbn in Hx; destruct Hx as [<-|[]]; lra.
Qed.
Example C18_two_steps_case : exists u1 u2 u' data2 data',
  average_spectra eq_obj false (fun l => l) (fun _ => 0%Q) false true false [[11; 22]%Z] None = Ok u1 /\
  average_spectra u1 false (fun l => l) (fun _ => 0%Q) true true false [[11]%Z] None = Ok u2 /\
  average_spectra eq_obj false (fun l => l) (fun _ => 0%Q) true true false [[11; 22]%Z] None = Ok u' /\
  get_data u2 0 11 505 = Ok data2 /\ get_data u' 0 11 505 = Ok data' /\
  cell data2 0 0 = cell data' 0 0 /\ cell data2 0 1 = cell data' 0 1.
Proof.
  assert (G1 : forall g, In g [[11; 22]%Z] -> g <> [] /\ (forall b, In b g -> In b (u_blpair_array eq_obj))) by (intros g [<-|[]]; split; [discriminate | cbn; tauto]).
  assert (S1 : forall ta g, In g [[11; 22]%Z] -> same_times eq_obj ta g).
  { intros ta g [<-|[]]. right. intros b Hb. cbn in Hb. destruct Hb as [<-|[<-|[]]]; reflexivity. }
  assert (F1 : forall s, s < u_Nspws eq_obj -> In s (u_spw_freq_array eq_obj) /\ In s (u_spw_dly_array eq_obj)) by (intros s Hs; cbn in Hs; assert (s = 0) by lia; subst; cbn; tauto).
  assert (P1 : forall l : list Z, Permutation ((fun l => l) l) l) by (intro l; apply Permutation_refl).
  assert (N1 : NoDup (map (hd 0%Z) [[11; 22]%Z])) by (repeat constructor; intros []).
  destruct (C18_total eq_obj false (fun l => l) (fun _ => 0%Q) [[11; 22]%Z] eq_obj_averageable F1 P1 ltac:(discriminate) G1 (S1 false)) as [u1 U1].
  destruct (C18_total eq_obj true (fun l => l) (fun _ => 0%Q) [[11; 22]%Z] eq_obj_averageable F1 P1 ltac:(discriminate) G1 (S1 true)) as [u' U'].
  assert (B1 : u_blpair_array u1 = [11; 11]%Z).
  { destruct (blpair_rows_eq eq_obj false true false false (fun l => l) (fun _ => 0%Q) [[11; 22]%Z] None u1 [([11; 22]%Z, [1%R; 1%R])] eq_refl U1) as [-> _]. reflexivity. }
  assert (G2 : forall g, In g [[11]%Z] -> g <> [] /\ (forall b, In b g -> In b (u_blpair_array u1))).
  { intros g [<-|[]]. split; [discriminate|]. rewrite B1. cbn. tauto. }
  assert (S2 : forall g, In g [[11]%Z] -> same_times u1 true g) by (intros; left; reflexivity).
  assert (N2 : NoDup (map (hd 0%Z) [[11]%Z])) by (repeat constructor; intros []).
  destruct (C18_second_average_total eq_obj false true (fun l => l) (fun l => l) (fun _ => 0%Q) (fun _ => 0%Q) [[11; 22]%Z] [[11]%Z] u1
    eq_obj_averageable eq_refl ltac:(discriminate) F1 P1 P1 G1 (S1 false) N1 U1 ltac:(discriminate) G2 S2) as [u2 U2].
  destruct (C18_two_steps_object eq_obj false true (fun l => l) (fun l => l) (fun l => l) (fun _ => 0%Q) (fun _ => 0%Q) (fun _ => 0%Q) [[11; 22]%Z] [[11]%Z] u1 u2 u'
    eq_obj_averageable eq_refl P1 P1 P1 G1 (S1 false) N1 U1 G2 S2 N2 U2 U' 0 505%Z [11]%Z ltac:(cbn; tauto) ltac:(cbn; tauto) ltac:(cbn; tauto) ltac:(cbn; tauto))
    as (data2 & data' & nsmp2 & nsmp' & D2 & D' & _ & _ & L2 & _ & _ & H).
  exists u1, u2, u', data2, data'. repeat (split; [assumption|]).
  assert (T1 : (tiny <= 1)%R). { unfold tiny. rewrite <- Rinv_1. apply Rinv_le_contravar; [lra|]. apply IZR_le. lia. }
  assert (NT : ntimes u1 11 = 2) by (unfold ntimes; rewrite B1; reflexivity).
  assert (R0 : 0 < length data').
  { assert (A : averageable eq_obj false) by apply eq_obj_averageable.
    destruct (C18_default_mean eq_obj true (fun l => l) (fun _ => 0%Q) [[11; 22]%Z] u' A P1 G1 (S1 true) N1 U' 0 505%Z [11; 22]%Z) as (d & n & E & _ & L & _); try (cbn; tauto).
    change (hd 0%Z [11; 22]%Z) with 11%Z in E. change (hd 0%Z [11]%Z) with 11%Z in D'. rewrite E in D'. injection D' as <-. rewrite L. cbn. lia. }
  destruct (H 0 R0) as [_ V].
  assert (K : forall d, d < 2 -> cell data2 0 d = cell data' 0 d).
  { intros d Hd. apply (V d 2%R).
    - exact Hd.
    - intros h b [<-|[]] Hb. cbn in Hb. destruct Hb as [<-|[<-|[]]]; intros t Ht; cbn in Ht; destruct t as [|[|t]]; try lia; cbn; split; try reflexivity; first [left; reflexivity | right; lra].
    - intros h r1 [<-|[]] Hr. rewrite NT in Hr. destruct r1 as [|[|r1]]; try lia; unfold wsum; cbn; lra. }
  split; apply K; lia.
Qed.
