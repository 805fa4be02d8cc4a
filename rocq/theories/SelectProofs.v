From Coq Require Import QArith Qabs Sorted Permutation.
From Verif Require Import PyDict.
From Verif Require Import Prelude ListLemmas UvpModel UvpSpec UvpProofs.
Open Scope nat_scope.

Lemma map2_nth {A B C} (f : A -> B -> C) l1 l2 i :
  nth_error (map2 f l1 l2) i =
  match nth_error l1 i, nth_error l2 i with Some a, Some b => Some (f a b) | _, _ => None end.
Proof.
  revert l2 i; induction l1 as [|a l1 IH]; intros [|b l2] [|i]; cbn; auto.
  destruct (nth_error l1 i); reflexivity.
Qed.
Lemma map2_length {A B C} (f : A -> B -> C) l1 l2 : length l1 = length l2 -> length (map2 f l1 l2) = length l2.
Proof. revert l2; induction l1 as [|a l1 IH]; intros [|b l2] H; cbn in *; auto. Qed.

Lemma map2_combine {A B C} (f : A -> B -> C) l1 l2 :
  map2 f l1 l2 = map (fun p => f (fst p) (snd p)) (combine l1 l2).
Proof. revert l2; induction l1 as [|a l1 IH]; intros [|b l2]; cbn; auto. f_equal; apply IH. Qed.

Lemma gather_mask {A} m (l : list A) : length m = length l -> gather l (where_ m) = Ok (mask m l).
Proof. intros H. apply gather_spec, mask_picks, H. Qed.

Lemma mask_fst {A B} (f : A * B -> bool) l1 l2 : length l1 = length l2 ->
  mask (map f (combine l1 l2)) l1 = map fst (filter f (combine l1 l2)).
Proof.
  revert l2; induction l1 as [|a l1 IH]; intros [|b l2] H; cbn in *; auto; try discriminate.
  rewrite IH by lia. destruct (f (a, b)); reflexivity.
Qed.
Lemma mask_snd {A B} (f : A * B -> bool) l1 l2 : length l1 = length l2 ->
  mask (map f (combine l1 l2)) l2 = map snd (filter f (combine l1 l2)).
Proof.
  revert l2; induction l1 as [|a l1 IH]; intros [|b l2] H; cbn in *; auto; try discriminate.
  rewrite IH by lia. destruct (f (a, b)); reflexivity.
Qed.
Lemma map_combine_fst {A B C} (f : A -> C) (l1 : list A) (l2 : list B) : length l1 = length l2 ->
  map (fun p => f (fst p)) (combine l1 l2) = map f l1.
Proof.
  revert l2; induction l1 as [|a l1 IH]; intros [|b l2] H; cbn in *; auto; try discriminate.
  f_equal. apply IH; lia.
Qed.
Lemma combine_fst_snd {A B} (l : list (A * B)) : combine (map fst l) (map snd l) = l.
Proof. induction l as [|[a b] l IH]; cbn; congruence. Qed.
Lemma combine_map_l {A B C} (f : A -> C) (l1 : list A) (l2 : list B) :
  combine (map f l1) l2 = map (fun p => (f (fst p), snd p)) (combine l1 l2).
Proof. revert l2; induction l1 as [|a l1 IH]; intros [|b l2]; cbn; auto. f_equal; apply IH. Qed.

Section S.
Context {X : Type}.
Notation uvp := (uvp X).

(** * the three metadata stages *)

(** the row axes have one length *)
Record row_lens (u : uvp) : Prop := {
  rl_t1 : length (u_time_1_array u) = length (u_blpair_array u);
  rl_t2 : length (u_time_2_array u) = length (u_blpair_array u);
  rl_ta : length (u_time_avg_array u) = length (u_blpair_array u);
  rl_l1 : length (u_lst_1_array u) = length (u_blpair_array u);
  rl_l2 : length (u_lst_2_array u) = length (u_blpair_array u);
  rl_la : length (u_lst_avg_array u) = length (u_blpair_array u);
  rl_bl : length (u_bl_vecs u) = length (u_bl_array u) }.

(** the fields the window stage does not touch *)
Record same_rest (u u1 : uvp) : Prop := {
  sr_folded : u_folded u1 = u_folded u;
  sr_bp : u_blpair_array u1 = u_blpair_array u;
  sr_t1 : u_time_1_array u1 = u_time_1_array u;
  sr_t2 : u_time_2_array u1 = u_time_2_array u;
  sr_ta : u_time_avg_array u1 = u_time_avg_array u;
  sr_l1 : u_lst_1_array u1 = u_lst_1_array u;
  sr_l2 : u_lst_2_array u1 = u_lst_2_array u;
  sr_la : u_lst_avg_array u1 = u_lst_avg_array u;
  sr_bl : u_bl_array u1 = u_bl_array u;
  sr_blv : u_bl_vecs u1 = u_bl_vecs u;
  sr_pol : u_polpair_array u1 = u_polpair_array u;
  sr_data : u_data u1 = u_data u;
  sr_wgt : u_wgt u1 = u_wgt u;
  sr_int : u_integration u1 = u_integration u;
  sr_ns : u_nsample u1 = u_nsample u;
  sr_cov : u_cov u1 = u_cov u;
  sr_wf : u_window u1 = u_window u;
  sr_st : u_stats u1 = u_stats u;
  sr_lb1 : u_label_1_array u1 = u_label_1_array u;
  sr_lb2 : u_label_2_array u1 = u_label_2_array u;
  sr_om : u_OmegaP u1 = u_OmegaP u }.

(** what the window stage does *)
Record spw_stage (u u1 : uvp) (a : select_args) (mapping : list nat) : Prop := {
  ss_map : mapping = spw_kept u a;
  ss_arr : u_spw_array u1 = map (rank (spw_kept u a)) (spw_kept u a);
  ss_N : u_Nspws u1 = length (spw_kept u a);
  ss_freq : combine (u_spw_freq_array u1) (u_freq_array u1) =
            map (fun p => (rank (spw_kept u a) (fst p), snd p))
                (filter (fun p => spw_wanted a (fst p)) (combine (u_spw_freq_array u) (u_freq_array u)));
  ss_freq_len : length (u_freq_array u1) = length (u_spw_freq_array u1);
  ss_dly : combine (u_spw_dly_array u1) (u_dly_array u1) =
            map (fun p => (rank (spw_kept u a) (fst p), snd p))
                (filter (fun p => spw_wanted a (fst p) &&
                           (negb (u_folded u) || dly_positive (snd p) ||
                            match a_spws a with None => true | Some _ => false end))
                   (combine (u_spw_dly_array u) (u_dly_array u)));
  ss_dly_len : length (u_dly_array u1) = length (u_spw_dly_array u1);
  ss_sca : picks (where_ (map (spw_wanted a) (u_spw_array u))) (u_scalar_array u) (u_scalar_array u1);
  ss_rest : same_rest u u1 }.

Lemma wf_NoDup (u : uvp) : wf u -> NoDup (u_spw_array u).
Proof. intros W. eapply Permutation_NoDup; [symmetry; apply (wf_spw u W) | apply seq_NoDup]. Qed.

Lemma kept_NoDup (u : uvp) a : wf u -> NoDup (spw_kept u a).
Proof. intros W. apply NoDup_filter, wf_NoDup, W. Qed.

Lemma same_rest_refl (u : uvp) : same_rest u u.
Proof. constructor; reflexivity. Qed.

Lemma filter_all {A} (f : A -> bool) l : (forall x, In x l -> f x = true) -> filter f l = l.
Proof.
  induction l as [|x l IH]; intros H; cbn; [reflexivity|]. rewrite (H x (or_introl eq_refl)).
  f_equal. apply IH. intros; apply H; right; assumption.
Qed.

Lemma rank_id (u : uvp) w : wf u -> In w (u_spw_array u) -> rank (u_spw_array u) w = w.
Proof.
  intros W H. rewrite (rank_perm _ _ w (wf_spw u W)). apply rank_seq.
  assert (I : In w (seq 0 (u_Nspws u))) by (eapply Permutation_in; [apply (wf_spw u W) | exact H]).
  apply in_seq in I. lia.
Qed.

Lemma map_rank_id (u : uvp) l : wf u -> (forall x, In x l -> In x (u_spw_array u)) ->
  map (rank (u_spw_array u)) l = l.
Proof.
  intros W H. rewrite <- (map_id l) at 2. apply map_ext_in. intros x Hx. apply rank_id; auto.
Qed.

Lemma in_combine_fst {A B} (l1 : list A) (l2 : list B) p : In p (combine l1 l2) -> In (fst p) l1.
Proof. destruct p as [x y]. apply in_combine_l. Qed.

Lemma spw_stage_none (u : uvp) a : wf u -> a_spws a = None -> spw_stage u u a (u_spw_array u).
Proof.
  intros W E.
  assert (Wt : forall w, spw_wanted a w = true) by (intros w; unfold spw_wanted; rewrite E; reflexivity).
  assert (K : spw_kept u a = u_spw_array u) by (apply filter_all; auto).
  constructor; rewrite ?K; auto.
  - symmetry. apply map_rank_id; auto.
  - pose proof (Permutation_length (wf_spw u W)) as L. rewrite seq_length in L. auto.
  - rewrite filter_all by auto. rewrite <- (map_id (combine _ _)) at 1. apply map_ext_in.
    intros [s x] H. cbn. rewrite rank_id; auto. apply in_combine_l in H. apply (wf_freq_in u W); exact H.
  - apply (wf_freq u W).
  - rewrite E. rewrite filter_all.
    + rewrite <- (map_id (combine _ _)) at 1. apply map_ext_in.
      intros [s x] H. cbn. rewrite rank_id; auto. apply in_combine_l in H. apply (wf_dly_in u W); exact H.
    + intros p _. rewrite Wt. rewrite !orb_true_r. reflexivity.
  - apply (wf_dly u W).
  - assert (Em : map (spw_wanted a) (u_spw_array u) = repeat true (length (u_scalar_array u))).
    { rewrite (proj1 (wf_scalar u W)). clear -Wt. induction (u_spw_array u) as [|x l IH]; cbn; [reflexivity|].
      rewrite Wt, IH. reflexivity. }
    rewrite Em. clear. replace (u_scalar_array u) with (mask (repeat true (length (u_scalar_array u))) (u_scalar_array u)) at 3.
    + apply mask_picks. apply repeat_length.
    + induction (u_scalar_array u) as [|x l IH]; cbn; congruence.
  - apply same_rest_refl.
Qed.

Lemma nodup_fixed l : NoDup l -> nodup Nat.eq_dec l = l.
Proof. apply nodup_fixed_point. Qed.

Lemma spw_stage_some (u u1 : uvp) a spws mapping : wf u -> a_spws a = Some spws ->
  select_spws u spws = Ok (u1, mapping) -> spw_stage u u1 a mapping.
Proof.
  intros W E H. unfold select_spws in H.
  assert (Wt : forall w, spw_wanted a w = memN w spws) by (intros w; unfold spw_wanted; rewrite E; reflexivity).
  unfold spw_to_freq_indices, spw_to_dly_indices, spw_indices in H.
  apply bind_ok in H; destruct H as [fi [Hfi H]]. apply require_ok in Hfi; destruct Hfi as [_ Hfi]. injection Hfi as <-.
  apply bind_ok in H; destruct H as [di [Hdi H]]. apply require_ok in Hdi; destruct Hdi as [_ Hdi]. injection Hdi as <-.
  apply bind_ok in H; destruct H as [si [Hsi H]]. apply require_ok in Hsi; destruct Hsi as [_ Hsi]. injection Hsi as <-.
  apply bind_ok in H; destruct H as [sfa [Hsfa H]].
  apply bind_ok in H; destruct H as [sda [Hsda H]].
  apply bind_ok in H; destruct H as [mp [Hmp H]].
  apply bind_ok in H; destruct H as [fa [Hfa H]].
  apply bind_ok in H; destruct H as [da [Hda H]].
  apply bind_ok in H; destruct H as [sca [Hsca H]].
  apply bind_ok in H; destruct H as [[[sa sfa'] sda'] [Hconv H]].
  injection H as <- <-.
  (* mapping *)
  unfold or_maskN in *. rewrite gather_where_filter in Hmp. injection Hmp as Hmp.
  assert (K : spw_kept u a = mp).
  { unfold spw_kept. rewrite <- Hmp. apply filter_ext. exact Wt. }
  pose proof (kept_NoDup u a W) as ND. rewrite K in ND.
  rewrite (nodup_fixed mp ND) in Hconv.
  (* frequencies *)
  rewrite <- (map_combine_fst (fun x => memN x spws) _ _ (eq_sym (wf_freq u W))) in Hsfa, Hfa.
  rewrite gather_mask in Hsfa by (rewrite map_length, combine_length, (wf_freq u W); lia).
  rewrite gather_mask in Hfa by (rewrite map_length, combine_length, (wf_freq u W); lia).
  injection Hsfa as Hsfa. injection Hfa as Hfa.
  rewrite mask_fst in Hsfa by (symmetry; apply (wf_freq u W)).
  rewrite mask_snd in Hfa by (symmetry; apply (wf_freq u W)).
  (* delays *)
  set (fd := fun p : nat * Q => memN (fst p) spws && (negb (u_folded u) || dly_positive (snd p))).
  assert (Hm : (if u_folded u then map2 (fun b d => b && dly_positive d)
                     (map (fun x => memN x spws) (u_spw_dly_array u)) (u_dly_array u)
                else map (fun x => memN x spws) (u_spw_dly_array u)) =
               map fd (combine (u_spw_dly_array u) (u_dly_array u))).
  { unfold fd. destruct (u_folded u).
    - rewrite map2_combine, combine_map_l, map_map. apply map_ext. intros [x y]; reflexivity.
    - rewrite <- (map_combine_fst (fun x => memN x spws) _ _ (eq_sym (wf_dly u W))).
      apply map_ext. intros [x y]; cbn. rewrite andb_true_r. reflexivity. }
  rewrite Hm in Hsda, Hda.
  rewrite gather_mask in Hsda by (rewrite map_length, combine_length, (wf_dly u W); lia).
  rewrite gather_mask in Hda by (rewrite map_length, combine_length, (wf_dly u W); lia).
  injection Hsda as Hsda. injection Hda as Hda.
  rewrite mask_fst in Hsda by (symmetry; apply (wf_dly u W)).
  rewrite mask_snd in Hda by (symmetry; apply (wf_dly u W)).
  (* renumbering *)
  assert (Inf : forall x, In x sfa -> In x mp).
  { intros x Hx. rewrite <- Hsfa in Hx. apply in_map_iff in Hx. destruct Hx as [[s y] [<- Hx]].
    apply filter_In in Hx. destruct Hx as [Hx M]. cbn in *. rewrite <- Hmp. apply filter_In.
    split; [|exact M]. apply (wf_freq_in u W). apply in_combine_l in Hx. exact Hx. }
  assert (Ind : forall x, In x sda -> In x mp).
  { intros x Hx. rewrite <- Hsda in Hx. apply in_map_iff in Hx. destruct Hx as [[s y] [<- Hx]].
    apply filter_In in Hx. destruct Hx as [Hx M]. cbn in *. unfold fd in M; cbn in M.
    apply andb_true_iff in M. destruct M as [M _]. rewrite <- Hmp. apply filter_In.
    split; [|exact M]. apply (wf_dly_in u W). apply in_combine_l in Hx. exact Hx. }
  rewrite (down_convert_spec mp sfa sda ND Inf Ind) in Hconv. injection Hconv as <- <- <-.
  constructor; cbn; rewrite ?K; auto.
  - rewrite nodup_fixed by exact ND. reflexivity.
  - rewrite combine_map_l. f_equal. rewrite <- Hsfa, <- Hfa, combine_fst_snd.
    apply filter_ext. intros p. symmetry. apply Wt.
  - rewrite map_length, <- Hsfa, <- Hfa, !map_length. reflexivity.
  - rewrite combine_map_l. f_equal. rewrite <- Hsda, <- Hda, combine_fst_snd.
    apply filter_ext. intros p. unfold fd. rewrite Wt, E, orb_false_r. reflexivity.
  - rewrite map_length, <- Hsda, <- Hda, !map_length. reflexivity.
  - apply gather_spec in Hsca.
    erewrite map_ext; [exact Hsca | exact Wt].
  - constructor; reflexivity.
Qed.

(** * row stage *)

Lemma or_maskZ_nth arr vs i : nth_error (or_maskZ arr vs) i =
  option_map (fun x => memZ x vs) (nth_error arr i).
Proof. unfold or_maskZ. apply nth_error_map. Qed.
Lemma or_close_nth arr vs i : nth_error (or_close arr vs) i =
  option_map (fun x => existsb (fun t => isclose rtol16 x t) vs) (nth_error arr i).
Proof. unfold or_close. apply nth_error_map. Qed.
Lemma existsb_close x vs : existsb (fun t => isclose rtol16 x t) vs = true <->
  exists t', In t' vs /\ close x t'.
Proof.
  rewrite existsb_exists. unfold isclose, close, rtol16.
  split; intros [t [H E]]; exists t; split; auto; apply Qle_bool_iff; exact E.
Qed.

Lemma nth_error_same_len {A B} (l1 : list A) (l2 : list B) i x : length l1 = length l2 ->
  nth_error l1 i = Some x -> exists y, nth_error l2 i = Some y.
Proof.
  intros L H. destruct (nth_error l2 i) as [y|] eqn:E; [eauto|].
  apply nth_error_None in E. assert (i < length l1) by (apply nth_error_Some; congruence). lia.
Qed.

(** the mask, as a boolean for one row *)
Definition wanted_b (a : select_args) (b : Z) (t l : Q) : bool :=
  let blsel := match a_bls a with
     | None => None
     | Some bls => Some (if a_only_pairs_in_bls a then memZ (b / 1000000) bls && memZ (b mod 1000000) bls
                         else memZ (b / 1000000) bls || memZ (b mod 1000000) bls)%Z end in
  let s2 := match a_blpairs a with
     | None => blsel
     | Some bps => Some ((match blsel with Some x => x | None => false end) || memZ b bps) end in
  let s3 := match a_times a with
     | None => s2
     | Some ts => Some ((match s2 with Some x => x | None => true end) && existsb (fun t' => isclose rtol16 t t') ts) end in
  let s4 := match a_lsts a with
     | None => s3
     | Some ts => Some ((match s3 with Some x => x | None => true end) && existsb (fun t' => isclose rtol16 l t') ts) end in
  match s4 with Some x => x | None => true end.


Lemma nth_error_repeat' {A} (x : A) n i : i < n -> nth_error (repeat x n) i = Some x.
Proof. intros H. apply nth_error_repeat. exact H. Qed.

Lemma row_mask_spec (u : uvp) a m : row_lens u -> row_mask u a = Ok m ->
  match m with
  | None => no_row_args a
  | Some m => ~ no_row_args a /\ length m = length (u_blpair_array u) /\
      forall i b t l, nth_error (u_blpair_array u) i = Some b -> nth_error (u_time_avg_array u) i = Some t ->
        nth_error (u_lst_avg_array u) i = Some l -> nth_error m i = Some (wanted_b a b t l)
  end.
Proof.
  intros W H. unfold row_mask, Nbltpairs in H. unfold wanted_b, no_row_args.
  pose proof (rl_ta u W) as Lt. pose proof (rl_la u W) as Ll.
  apply bind_ok in H; destruct H as [m1 [H1 H]].
  apply bind_ok in H; destruct H as [m2 [H2 H]].
  apply bind_ok in H; destruct H as [m3 [H3 H4]].
  set (n := length (u_blpair_array u)) in *.
  (* m1 *)
  assert (S1 : match m1 with None => a_bls a = None
     | Some q => a_bls a <> None /\ length q = n /\ forall i b, nth_error (u_blpair_array u) i = Some b ->
        Some (nth_error q i) = match a_bls a with None => None | Some bls => Some (Some (if a_only_pairs_in_bls a then memZ (b / 1000000) bls && memZ (b mod 1000000) bls
                         else memZ (b / 1000000) bls || memZ (b mod 1000000) bls)%Z) end end).
  { destruct (a_bls a) as [bls|]; [|injection H1 as <-; reflexivity].
    apply bind_ok in H1. destruct H1 as [q [Hq H1]]. injection H1 as <-.
    unfold blpairs_from_bls in Hq. destruct bls as [|b0 bls]; [discriminate|]. injection Hq as <-.
    split; [discriminate|]. split; [apply map_length|]. intros i b Hb.
    rewrite nth_error_map, Hb. cbn [option_map]. unfold split_bls.
    destruct (a_only_pairs_in_bls a); reflexivity. }
  clear H1.
  assert (S2 : match m2 with None => a_bls a = None /\ a_blpairs a = None
     | Some q => ~ (a_bls a = None /\ a_blpairs a = None) /\ length q = n /\ forall i b, nth_error (u_blpair_array u) i = Some b ->
        Some (nth_error q i) = option_map Some (
  let blsel := match a_bls a with
     | None => None
     | Some bls => Some (if a_only_pairs_in_bls a then memZ (b / 1000000) bls && memZ (b mod 1000000) bls
                         else memZ (b / 1000000) bls || memZ (b mod 1000000) bls)%Z end in
  match a_blpairs a with
     | None => blsel
     | Some bps => Some ((match blsel with Some x => x | None => false end) || memZ b bps) end) end).
  { destruct (a_blpairs a) as [bps|].
    - destruct bps as [|b0 bps]; [discriminate|]. injection H2 as <-.
      split; [intros [_ C]; discriminate|]. split.
      { unfold orb_list. rewrite map2_length; unfold or_maskZ; rewrite map_length; [reflexivity|].
        destruct m1 as [q|]; [apply S1 | apply repeat_length]. }
      intros i b Hb. unfold orb_list. rewrite map2_nth, or_maskZ_nth, Hb. cbn [option_map].
      destruct m1 as [q|].
      + destruct S1 as [Nn [Lq S1]]. specialize (S1 i b Hb). destruct (a_bls a) as [bls|]; [|congruence].
        injection S1 as ->. reflexivity.
      + rewrite S1. rewrite nth_error_repeat'; [reflexivity|]. apply nth_error_Some. congruence.
    - injection H2 as <-. destruct m1 as [q|].
      + destruct S1 as [Nn [Lq S1]]. split; [tauto|]. split; [exact Lq|].
        intros i b Hb. rewrite (S1 i b Hb). destruct (a_bls a); reflexivity.
      + auto. }
  clear H2 S1.
  assert (S3 : match m3 with None => a_bls a = None /\ a_blpairs a = None /\ a_times a = None
     | Some q => ~ (a_bls a = None /\ a_blpairs a = None /\ a_times a = None) /\ length q = n /\ forall i b t, nth_error (u_blpair_array u) i = Some b ->
        nth_error (u_time_avg_array u) i = Some t ->
        Some (nth_error q i) = option_map Some (
  let blsel := match a_bls a with
     | None => None
     | Some bls => Some (if a_only_pairs_in_bls a then memZ (b / 1000000) bls && memZ (b mod 1000000) bls
                         else memZ (b / 1000000) bls || memZ (b mod 1000000) bls)%Z end in
  let s2 := match a_blpairs a with
     | None => blsel
     | Some bps => Some ((match blsel with Some x => x | None => false end) || memZ b bps) end in
  match a_times a with
     | None => s2
     | Some ts => Some ((match s2 with Some x => x | None => true end) && existsb (fun t' => isclose rtol16 t t') ts) end) end).
  { destruct (a_times a) as [ts|].
    - injection H3 as <-. split; [intros [_ [_ C]]; discriminate|]. split.
      { unfold andb_list. rewrite map2_length; unfold or_close; rewrite map_length; [exact Lt|].
        rewrite Lt. destruct m2 as [q|]; [apply S2 | apply repeat_length]. }
      intros i b t Hb Ht. unfold andb_list. rewrite map2_nth, or_close_nth, Ht. cbn [option_map].
      destruct m2 as [q|].
      + destruct S2 as [Nn [Lq S2]]. specialize (S2 i b Hb). cbv zeta in S2.
        match goal with |- context [match ?s with Some x => x | None => true end] => destruct s as [x|] end;
          cbn in S2; [injection S2 as ->; reflexivity | discriminate].
      + destruct S2 as [E1 E2]. rewrite E1, E2.
        rewrite nth_error_repeat'; [reflexivity|]. apply nth_error_Some. congruence.
    - injection H3 as <-. destruct m2 as [q|].
      + destruct S2 as [Nn [Lq S2]]. split; [tauto|]. split; [exact Lq|].
        intros i b t Hb Ht. apply (S2 i b Hb).
      + tauto. }
  clear H3 S2.
  destruct (a_lsts a) as [ts|].
  - destruct (a_times a) as [?|]; [discriminate|]. injection H4 as <-.
    split; [intros [_ [_ [_ C]]]; discriminate|]. split.
    { unfold andb_list. rewrite map2_length; unfold or_close; rewrite map_length; [exact Ll|].
      rewrite Ll. destruct m3 as [q|]; [apply S3 | apply repeat_length]. }
    intros i b t l Hb Ht Hl. unfold andb_list. rewrite map2_nth, or_close_nth, Hl. cbn [option_map].
    destruct m3 as [q|].
    + destruct S3 as [Nn [Lq S3]]. specialize (S3 i b t Hb Ht). cbv zeta in S3.
      match goal with |- context [match ?s with Some x => x | None => true end] => destruct s as [x|] end;
        cbn in S3; [injection S3 as ->; reflexivity | discriminate].
    + destruct S3 as [E1 [E2 _]]. rewrite E1, E2.
      rewrite nth_error_repeat'; [reflexivity|]. apply nth_error_Some. congruence.
  - injection H4 as <-. destruct m3 as [q|].
    + destruct S3 as [Nn [Lq S3]]. split; [tauto|]. split; [exact Lq|].
      intros i b t l Hb Ht Hl. specialize (S3 i b t Hb Ht). cbv zeta in S3.
      match goal with |- context [match ?s with Some x => x | None => true end] => destruct s as [x|] end;
        cbn in S3; [injection S3 as ->; reflexivity | discriminate].
    + tauto.
Qed.

Lemma wanted_b_spec a b t l : wanted_b a b t l = true <->
    ((a_bls a = None /\ a_blpairs a = None) \/
     (exists bls, a_bls a = Some bls /\
        if a_only_pairs_in_bls a then In (b / 1000000)%Z bls /\ In (b mod 1000000)%Z bls
        else In (b / 1000000)%Z bls \/ In (b mod 1000000)%Z bls) \/
     (exists bps, a_blpairs a = Some bps /\ In b bps)) /\
    (forall ts, a_times a = Some ts -> exists t', In t' ts /\ close t t') /\
    (forall ts, a_lsts a = Some ts -> exists l', In l' ts /\ close l l').
Proof.
  assert (B : (match (match a_blpairs a with
     | None => match a_bls a with
     | None => None
     | Some bls => Some (if a_only_pairs_in_bls a then memZ (b / 1000000) bls && memZ (b mod 1000000) bls
                         else memZ (b / 1000000) bls || memZ (b mod 1000000) bls)%Z end
     | Some bps => Some ((match (match a_bls a with
     | None => None
     | Some bls => Some (if a_only_pairs_in_bls a then memZ (b / 1000000) bls && memZ (b mod 1000000) bls
                         else memZ (b / 1000000) bls || memZ (b mod 1000000) bls)%Z end) with Some x => x | None => false end) || memZ b bps) end)
     with Some x => x | None => true end) = true <->
     ((a_bls a = None /\ a_blpairs a = None) \/
     (exists bls, a_bls a = Some bls /\
        if a_only_pairs_in_bls a then In (b / 1000000)%Z bls /\ In (b mod 1000000)%Z bls
        else In (b / 1000000)%Z bls \/ In (b mod 1000000)%Z bls) \/
     (exists bps, a_blpairs a = Some bps /\ In b bps))).
  { destruct (a_bls a) as [bls|], (a_blpairs a) as [bps|], (a_only_pairs_in_bls a);
      rewrite ?orb_true_iff, ?andb_true_iff, ?orb_true_iff, ?memZ_In; split.
    all: intros H; repeat match goal with
      | H : _ \/ _ |- _ => destruct H as [H|H]
      | H : _ /\ _ |- _ => destruct H
      | H : exists _, _ |- _ => destruct H
      | H : Some _ = Some _ |- _ => injection H as <-
      | H : Some _ = None |- _ => discriminate H
      | H : None = Some _ |- _ => discriminate H
      | H : false = true |- _ => discriminate H
      end; eauto 10. }
  unfold wanted_b; cbv zeta.
  set (s2 := match a_blpairs a with None => _ | Some _ => _ end) in *. clearbody s2.
  destruct (a_times a) as [ts|], (a_lsts a) as [ls|].
  - rewrite !andb_true_iff, B, !existsb_close. split.
    + intros [[H1 H2] H3]. repeat split; [exact H1| |]; intros q E; injection E as <-; assumption.
    + intros [H1 [H2 H3]]. split; [split; [exact H1|]|]; [apply H2 | apply H3]; reflexivity.
  - rewrite !andb_true_iff, B, !existsb_close. split.
    + intros [H1 H2]. repeat split; [exact H1| |]; intros q E; [injection E as <-; assumption | discriminate].
    + intros [H1 [H2 H3]]. split; [exact H1|]; apply H2; reflexivity.
  - rewrite !andb_true_iff, B, !existsb_close. split.
    + intros [H1 H2]. repeat split; [exact H1| |]; intros q E; [discriminate | injection E as <-; assumption].
    + intros [H1 [H2 H3]]. split; [exact H1|]; apply H3; reflexivity.
  - rewrite B. split; [|tauto]. intros H1. repeat split; [exact H1| |]; intros q E; discriminate.
Qed.
End S.
