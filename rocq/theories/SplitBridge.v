(** An object of UvpModel seen as an object of CombineModel, and what a selection does to it. *)
From Coq Require Import QArith Qabs Sorted Permutation.
From Verif Require Import PyDict.
From Verif Require Import Prelude ListLemmas UvpModel UvpSpec UvpProofs SelectProofs SelectMain CommonProofs LawModel LawProofs LawSelect CombineModel CombineProofs CombineMain CombineSound CombineObject SplitProofs.
Open Scope nat_scope.

Section View.
Context {X : Type}.
Notation uvp := (uvp X).
(** the integers that stand for the stored doubles in CombineModel *)
Variables (zt : Q -> Z) (zf : X -> Z) (zd : Q -> Z).

(** the entry of a dictionary of arrays for one window, row and polarization pair *)
Definition at3 (d : list (nat * arr X)) (s i k : nat) : option (list X) :=
  match dget Nat.eq_dec d s with
  | Some a => match nth_error a i with Some r => nth_error r k | None => None end
  | None => None
  end.
Definition cell_of (u : uvp) (s i k : nat) : list (option (list X)) := map (fun d => at3 d s i k) (dicts u).
Definition table (u : uvp) (s : nat) : list (list (list (option (list X)))) :=
  map (fun i => map (cell_of u s i) (seq 0 (length (u_polpair_array u)))) (seq 0 (length (u_blpair_array u))).
Definition window_freqs (u : uvp) (s : nat) : list X :=
  map snd (filter (fun p => Nat.eqb s (fst p)) (combine (u_spw_freq_array u) (u_freq_array u))).
Definition win_of (u : uvp) (s : nat) : window := mkwin (map zf (window_freqs u s)) (map zd (window_dlys u s)).

(** everything [combine_uvpspec] reads of an object without filter parameters; an entry is what all the arrays store for it.
    [c_static] stands for [folded], the only one of the attributes that must agree that the model has *)
Definition to_c (u : uvp) : cobj (list (option (list X))) (Q * Q * Q * Q) X X :=
  mkc (map (win_of u) (seq 0 (u_Nspws u)))
      (combine (combine (u_blpair_array u) (map zt (u_time_1_array u))) (map zt (u_time_2_array u)))
      (u_polpair_array u)
      (map (table u) (seq 0 (u_Nspws u)))
      (combine (combine (combine (u_time_avg_array u) (u_lst_1_array u)) (u_lst_2_array u)) (u_lst_avg_array u))
      (u_scalar_array u) (combine (u_bl_array u) (u_bl_vecs u)) [] (if u_folded u then 1 else 0)%Z.

Lemma picks_combine {A B} R (a a' : list A) (b b' : list B) : picks R a a' -> picks R b b' -> picks R (combine a b) (combine a' b').
Proof.
  unfold picks. intros H. revert b'. induction H as [|i x R a' Hx H IH]; intros b' H'; inversion H' as [|? y ? b0 Hy H0]; subst; cbn; constructor; [|apply IH; assumption].
  clear -Hx Hy. revert b i Hx Hy. induction a as [|z a IH]; intros [|w b] [|i] Hx Hy; cbn in *; try discriminate; [congruence|apply IH; assumption].
Qed.
Lemma F2_index {A} (Q : A -> nat -> Prop) R : forall o, (forall j i, nth_error R j = Some i -> Q i (o + j)) -> Forall2 Q R (seq o (length R)).
Proof.
  induction R as [|i R IH]; intros o H; cbn; constructor; [specialize (H 0 i eq_refl); rewrite Nat.add_0_r in H; exact H|].
  apply IH. intros j i' E. specialize (H (S j) i' E). rewrite Nat.add_succ_r in H. exact H.
Qed.
Lemma map_index {A B} (f : nat -> B) (g : A -> B) (R : list A) : (forall j i, nth_error R j = Some i -> f j = g i) -> map f (seq 0 (length R)) = map g R.
Proof.
  intros H. apply nth_error_ext'. intros j. rewrite !nth_error_map. destruct (nth_error R j) as [i|] eqn:E.
  - pose proof (nth_error_Some_lt _ _ _ E). rewrite (nth_error_nth' _ 0) by (rewrite seq_length; lia). rewrite seq_nth by lia. cbn. f_equal. apply H, E.
  - apply nth_error_None in E. rewrite (proj2 (nth_error_None (seq 0 (length R)) j)) by (rewrite seq_length; lia). reflexivity.
Qed.
Lemma F2_map_eq {A B C} (f : A -> C) (g : B -> C) (Q : A -> B -> Prop) l r : Forall2 Q l r -> (forall x y, Q x y -> f x = g y) -> map f l = map g r.
Proof. intros F H. induction F; cbn; [reflexivity|]. f_equal; auto. Qed.

Lemma F2_map2 {A B C D} (Q : C -> D -> Prop) (f : A -> C) (g : B -> D) l r : Forall2 (fun x y => Q (f x) (g y)) l r -> Forall2 Q (map f l) (map g r).
Proof. induction 1; cbn; [apply Forall2_nil|apply Forall2_cons; assumption]. Qed.

Lemma filter_sorted (f : nat -> bool) l : StronglySorted lt l -> StronglySorted lt (filter f l).
Proof.
  intros S. induction S as [|x l S IH F]; cbn; [constructor|]. destruct (f x); [|exact IH]. constructor; [exact IH|].
  apply Forall_forall. intros y Hy. apply filter_In in Hy. exact (proj1 (Forall_forall _ _) F y (proj1 Hy)).
Qed.
Lemma rank_sorted kept m w : StronglySorted lt kept -> nth_error kept m = Some w -> rank kept w = m.
Proof.
  unfold rank. intros S. revert m. induction S as [|x l S IH F]; intros m H; [destruct m; discriminate|].
  destruct m as [|m]; cbn in H.
  - injection H as ->. cbn [filter]. rewrite Nat.ltb_irrefl. assert (E : filter (fun z => z <? w) l = []).
    { clear -F. induction F as [|z l Hz F IH]; [reflexivity|]. cbn [filter]. destruct (Nat.ltb_spec z w); [lia|exact IH]. } rewrite E. reflexivity.
  - cbn [filter]. pose proof (proj1 (Forall_forall _ _) F w (nth_error_In _ _ H)). destruct (Nat.ltb_spec x w); [|lia]. cbn [length]. f_equal. apply IH, H.
Qed.

Section Sel.
Variables (u v : uvp) (a : select_args).
Hypothesis WF : wf u.
Hypothesis ORD : u_spw_array u = seq 0 (u_Nspws u).
Hypothesis NF : a_spws a = None \/ u_folded u = false.
Variables (R P : list nat).
Hypothesis SP : select_spec u a v R P.
Let kept := spw_kept u a.

Lemma kept_sorted : StronglySorted lt kept.
Proof. unfold kept, spw_kept. rewrite ORD. apply filter_sorted, seq_sorted. Qed.
Lemma kept_lt w : In w kept -> w < u_Nspws u.
Proof. unfold kept, spw_kept. rewrite ORD. intros H. apply filter_In in H. destruct H as [H _]. apply in_seq in H. lia. Qed.
Lemma kept_wanted w : In w kept -> spw_wanted a w = true.
Proof. intros H. apply filter_In in H. tauto. Qed.
Lemma kept_N : u_Nspws v = length kept.
Proof. exact (sp_N _ _ _ _ _ SP). Qed.

Lemma rank_inj_kept w w' : In w kept -> In w' kept -> rank kept w = rank kept w' -> w = w'.
Proof.
  intros H H' E. apply In_nth_error in H, H'. destruct H as [m Hm], H' as [m' Hm'].
  rewrite (rank_sorted kept m w kept_sorted Hm), (rank_sorted kept m' w' kept_sorted Hm') in E. congruence.
Qed.
Lemma win_filter {A} (l : list nat) (d : list A) (g : A -> bool) w : In w kept -> (forall s, In s l -> In s (u_spw_array u)) ->
  (forall p, In p (combine l d) -> g (snd p) = true) ->
  filter (fun p => Nat.eqb (rank kept w) (fst p)) (map (fun p => (rank kept (fst p), snd p)) (filter (fun p => spw_wanted a (fst p) && g (snd p)) (combine l d)))
  = map (fun p => (rank kept (fst p), snd p)) (filter (fun p => Nat.eqb w (fst p)) (combine l d)).
Proof.
  intros Hw Hl Hg. assert (H : forall s x, In (s, x) (combine l d) -> In s (u_spw_array u)) by (intros s x Hs; apply Hl; exact (in_combine_l _ _ _ _ Hs)).
  revert H Hg. generalize (combine l d). clear Hl. intros L. induction L as [|[s x] L IH]; intros H Hg; [reflexivity|].
  assert (IH' := IH (fun s' x' Hs => H s' x' (or_intror Hs)) (fun p Hp => Hg p (or_intror Hp))). clear IH. cbn [filter fst snd].
  pose proof (Hg (s, x) (or_introl eq_refl)) as G. cbn in G. rewrite G, andb_true_r.
  destruct (Nat.eqb_spec w s) as [->|Ne].
  - rewrite (kept_wanted s Hw). cbn [map filter fst snd]. rewrite Nat.eqb_refl. cbn [map fst snd]. f_equal. exact IH'.
  - destruct (spw_wanted a s) eqn:E; [|exact IH']. cbn [map filter fst snd].
    destruct (Nat.eqb_spec (rank kept w) (rank kept s)) as [Er|_]; [|exact IH']. exfalso. apply Ne. apply rank_inj_kept; [exact Hw| |exact Er].
    apply filter_In. split; [exact (H s x (or_introl eq_refl))|exact E].
Qed.
Lemma snd_map {A} (L : list (nat * A)) : map snd (map (fun p => (rank kept (fst p), snd p)) L) = map snd L.
Proof. rewrite map_map. reflexivity. Qed.
Lemma win_same m w : nth_error kept m = Some w -> win_of v m = win_of u w.
Proof.
  intros Hm. pose proof (nth_error_In _ _ Hm) as Hw. pose proof (rank_sorted kept m w kept_sorted Hm) as Er. unfold win_of, window_freqs, window_dlys. f_equal; f_equal.
  - rewrite (sp_freq _ _ _ _ _ SP). fold kept. rewrite <- Er.
    rewrite <- (snd_map (filter (fun p => Nat.eqb w (fst p)) (combine (u_spw_freq_array u) (u_freq_array u)))).
    rewrite <- (win_filter (u_spw_freq_array u) (u_freq_array u) (fun _ => true) w Hw (wf_freq_in u WF)) by reflexivity. f_equal. f_equal. f_equal.
    apply filter_ext. intros p. rewrite andb_true_r. reflexivity.
  - rewrite (sp_dly _ _ _ _ _ SP). fold kept. rewrite <- Er.
    rewrite <- (snd_map (filter (fun p => Nat.eqb w (fst p)) (combine (u_spw_dly_array u) (u_dly_array u)))).
    rewrite <- (win_filter (u_spw_dly_array u) (u_dly_array u) (fun d => negb (u_folded u) || dly_positive d || match a_spws a with None => true | Some _ => false end) w Hw (wf_dly_in u WF)); [reflexivity|].
    intros p _. destruct NF as [-> | ->]; [rewrite !orb_true_r; reflexivity|reflexivity].
Qed.
Lemma dict_same d d' m w j i q k : dict_selected kept R P d d' -> shaped u d -> nth_error kept m = Some w -> nth_error R j = Some i -> nth_error P q = Some k ->
  at3 d' m j q = at3 d w i k.
Proof.
  intros [D _] Sh Hm Hj Hq. destruct (D w (nth_error_In _ _ Hm)) as (b & b' & E1 & E2 & rows & G1 & G2).
  rewrite (rank_sorted kept m w kept_sorted Hm) in E2. unfold at3. rewrite E1, E2. apply gather_spec in G1.
  pose proof (picks_nth _ _ _ j i G1 Hj) as K. destruct (nth_error rows j) as [r|] eqn:Er.
  - destruct (F2_nth_l _ _ _ _ _ G2 Er) as [r' [Er' Gr]]. rewrite Er', <- K. apply gather_spec in Gr. exact (picks_nth _ _ _ q k Gr Hq).
  - apply nth_error_None in Er. rewrite (picks_length _ _ _ G1) in Er. pose proof (nth_error_Some_lt _ _ _ Hj). lia.
Qed.
Lemma cell_same m w j i q k : nth_error kept m = Some w -> nth_error R j = Some i -> nth_error P q = Some k -> cell_of v m j q = cell_of u w i k.
Proof.
  intros Hm Hj Hq. unfold cell_of. symmetry. pose proof (wf_dicts u WF) as Sh. pose proof (sp_dicts _ _ _ _ _ SP) as F. fold kept in F.
  revert Sh. induction F as [|d d' l l' Hd F IH]; intros Sh; [reflexivity|]. cbn. f_equal; [|apply IH; intros x Hx; apply Sh; right; exact Hx].
  symmetry. apply (dict_same d d' m w j i q k Hd); try assumption. apply Sh. left. reflexivity.
Qed.
Lemma P_range : Forall (fun k => k < length (u_polpair_array u)) P.
Proof. exact (picks_range _ _ _ (sp_pols _ _ _ _ _ SP)). Qed.
Lemma R_range : Forall (fun k => k < length (u_blpair_array u)) R.
Proof. exact (picks_range _ _ _ (rp_bp _ _ _ (sp_rows _ _ _ _ _ SP))). Qed.
Lemma table_same m w : nth_error kept m = Some w -> sub2 R P (table u w) (table v m).
Proof.
  intros Hm. exists (map (fun i => map (cell_of u w i) (seq 0 (length (u_polpair_array u)))) R). split.
  - apply picks_map, picks_of_seq, R_range.
  - unfold table. rewrite (picks_length _ _ _ (rp_bp _ _ _ (sp_rows _ _ _ _ _ SP))), (picks_length _ _ _ (sp_pols _ _ _ _ _ SP)).
    assert (G : Forall2 (fun i j => picks P (map (cell_of u w i) (seq 0 (length (u_polpair_array u)))) (map (cell_of v m j) (seq 0 (length P)))) R (seq 0 (length R))).
    { apply F2_index. intros j i Hj. cbn [Nat.add]. rewrite (map_index (cell_of v m j) (cell_of u w i) P); [apply picks_map, picks_of_seq, P_range|].
      intros q k Hq. exact (cell_same m w j i q k Hm Hj Hq). }
    exact (F2_map2 _ _ _ _ _ G).
Qed.
Lemma kept_where : where_ (map (spw_wanted a) (u_spw_array u)) = kept.
Proof.
  apply sorted_ext; [apply where_sorted|exact kept_sorted|]. intros i. rewrite where_spec, nth_error_map. unfold kept, spw_kept. rewrite filter_In, ORD, in_seq. split.
  - intros H. destruct (nth_error (seq 0 (u_Nspws u)) i) as [x|] eqn:E; [|discriminate]. cbn in H. injection H as H.
    pose proof (nth_error_Some_lt _ _ _ E) as L. rewrite seq_length in L. rewrite (nth_error_nth' _ 0), seq_nth in E by (rewrite ?seq_length; lia). injection E as <-. cbn in H. split; [lia|exact H].
  - intros [H1 H2]. rewrite (nth_error_nth' _ 0), seq_nth by (rewrite ?seq_length; lia). cbn. rewrite H2. reflexivity.
Qed.
Theorem select_part : part kept R P (to_c u) (to_c v).
Proof.
  pose proof (sp_rows _ _ _ _ _ SP) as G. assert (KR : Forall (fun i => i < u_Nspws u) kept) by (apply Forall_forall; exact kept_lt).
  split; cbn.
  - exact kept_sorted.
  - exact (sp_R_sorted _ _ _ _ _ SP).
  - exact (sp_P_sorted _ _ _ _ _ SP).
  - rewrite kept_N. rewrite (map_index (win_of v) (win_of u) kept) by exact win_same. apply picks_map, picks_of_seq, KR.
  - apply picks_combine; [apply picks_combine|]; [exact (rp_bp _ _ _ G)|apply picks_map; exact (rp_t1 _ _ _ G)|apply picks_map; exact (rp_t2 _ _ _ G)].
  - apply picks_combine; [apply picks_combine; [apply picks_combine|]|]; [exact (rp_ta _ _ _ G)|exact (rp_l1 _ _ _ G)|exact (rp_l2 _ _ _ G)|exact (rp_la _ _ _ G)].
  - exact (sp_pols _ _ _ _ _ SP).
  - exists (map (table u) kept). split; [apply picks_map, picks_of_seq, KR|]. rewrite kept_N.
    assert (F : Forall2 (fun w m => sub2 R P (table u w) (table v m)) kept (seq 0 (length kept))) by (apply F2_index; intros m w Hm; exact (table_same m w Hm)).
    exact (F2_map2 _ _ _ _ _ F).
  - destruct (sp_scalar _ _ _ _ _ SP) as [rows [H1 H2]]. rewrite kept_where in H1. exists rows. split; assumption.
  - rewrite (sp_folded _ _ _ _ _ SP). reflexivity.
  - reflexivity.
Qed.
End Sel.
End View.
