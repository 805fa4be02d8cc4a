(** Splitting an object into parts and combining the parts again: the argument for the objects of CombineModel. *)
From Coq Require Import QArith Qabs Sorted Permutation.
From Verif Require Import PyDict.
From Verif Require Import Prelude ListLemmas UvpModel UvpSpec SelectMain CommonProofs LawProofs CombineModel CombineProofs CombineMain CombineSound CombineObject.
Open Scope nat_scope.

Section Split.
Context {V M Sc Vec : Type}.
Variable isclose : Sc -> Sc -> bool.
Variable round8 : Z -> Z.
Variable step : list Z -> Z.
Notation obj := (cobj V M Sc Vec).

(** [c'] holds the windows [W], blpair-times [R] and polarization pairs [P] of [c], in the same order *)
Record part (W R P : list nat) (c c' : obj) : Prop := {
  pt_W : StronglySorted lt W; pt_R : StronglySorted lt R; pt_P : StronglySorted lt P;
  pt_windows : picks W (c_windows c) (c_windows c');
  pt_blpts : picks R (c_blpts c) (c_blpts c');
  pt_rows : picks R (c_rows c) (c_rows c');
  pt_pols : picks P (c_pols c) (c_pols c');
  pt_cells : exists ws, picks W (c_cells c) ws /\ Forall2 (sub2 R P) ws (c_cells c');
  pt_scal : sub2 W P (c_scalar c) (c_scalar c');
  pt_static : c_static c' = c_static c;
  pt_rp : c_rparams c' = [] }.

Lemma picks_nth_inv {A} R (l r : list A) j x : picks R l r -> nth_error r j = Some x -> exists i, nth_error R j = Some i /\ nth_error l i = Some x.
Proof. intros H Hj. destruct (Forall2_nth_r _ _ _ _ _ H Hj) as [i [H1 H2]]. eauto. Qed.
Lemma F2_nth_l {A B} (Q : A -> B -> Prop) l r i x : Forall2 Q l r -> nth_error l i = Some x -> exists y, nth_error r i = Some y /\ Q x y.
Proof. intros F. revert i. induction F; intros [|i] E; cbn in *; try discriminate; [injection E as <-; eauto|eauto]. Qed.
Lemma sorted_full {A} R (l r : list A) : StronglySorted lt R -> NoDup l -> picks R l r -> (forall x, In x l -> In x r) -> R = seq 0 (length l).
Proof.
  intros S N H G. apply sorted_ext; [exact S|apply seq_sorted|]. intros i. rewrite in_seq. split.
  - intros Hi. pose proof (proj1 (Forall_forall _ _) (picks_range _ _ _ H) i Hi). cbn in *. lia.
  - intros Hi. destruct (nth_error_lt l i) as [x Hx]; [lia|]. pose proof (G x (nth_error_In _ _ Hx)) as Hr.
    apply In_nth_error in Hr. destruct Hr as [j Hj]. destruct (picks_nth_inv _ _ _ _ _ H Hj) as [i' [E1 E2]].
    assert (i' = i) by exact (NoDup_nth_inj l i' i x N E2 Hx). subst i'. exact (nth_error_In _ _ E1).
Qed.
Lemma sorted_full_eq {A} R (l r : list A) : StronglySorted lt R -> NoDup l -> picks R l r -> (forall x, In x l -> In x r) -> r = l.
Proof. intros S N H G. rewrite (sorted_full R l r S N H G) in H. exact (picks_fun _ _ _ _ H (picks_seq l)). Qed.

Section One.
Variables (c c' : obj) (W R P : list nat).
Hypothesis WF : wfc step c.
Hypothesis PT : part W R P c c'.

Lemma part_spws : picks W (spws step c) (spws step c').
Proof. apply picks_map. exact (pt_windows _ _ _ _ _ PT). Qed.
Lemma part_len : length (c_windows c') = length W /\ length (c_blpts c') = length R /\ length (c_pols c') = length P.
Proof. split; [|split]; eapply picks_length; [exact (pt_windows _ _ _ _ _ PT)|exact (pt_blpts _ _ _ _ _ PT)|exact (pt_pols _ _ _ _ _ PT)]. Qed.
Lemma part_wfc : wfc step c'.
Proof.
  destruct part_len as (L1 & L2 & L3). split.
  - exact (NoDup_picks _ _ _ (wfc_s _ _ WF) (sorted_NoDup _ (pt_W _ _ _ _ _ PT)) part_spws).
  - exact (NoDup_picks _ _ _ (wfc_b _ _ WF) (sorted_NoDup _ (pt_R _ _ _ _ _ PT)) (pt_blpts _ _ _ _ _ PT)).
  - exact (NoDup_picks _ _ _ (wfc_p _ _ WF) (sorted_NoDup _ (pt_P _ _ _ _ _ PT)) (pt_pols _ _ _ _ _ PT)).
  - destruct (pt_cells _ _ _ _ _ PT) as [ws [H1 H2]]. split.
    + rewrite <- (Forall2_len _ _ _ H2), (picks_length _ _ _ H1). congruence.
    + intros r Hr. apply In_nth_error in Hr. destruct Hr as [m Hm]. destruct (Forall2_nth_r _ _ _ _ _ H2 Hm) as [r0 [E0 [rows [K1 K2]]]].
      split; [rewrite <- (Forall2_len _ _ _ K2), (picks_length _ _ _ K1); congruence|].
      intros e He. apply In_nth_error in He. destruct He as [n Hn]. destruct (Forall2_nth_r _ _ _ _ _ K2 Hn) as [e0 [F0 F1]]. rewrite (picks_length _ _ _ F1). congruence.
  - rewrite (picks_length _ _ _ (pt_rows _ _ _ _ _ PT)). congruence.
  - destruct (pt_scal _ _ _ _ _ PT) as [ws [H1 H2]]. split.
    + rewrite <- (Forall2_len _ _ _ H2), (picks_length _ _ _ H1). congruence.
    + intros r Hr. apply In_nth_error in Hr. destruct Hr as [m Hm]. destruct (Forall2_nth_r _ _ _ _ _ H2 Hm) as [r0 [E0 F]]. rewrite (picks_length _ _ _ F). congruence.
Qed.

Lemma cell_at m n q m0 n0 q0 r e v : nth_error W m = Some m0 -> nth_error R n = Some n0 -> nth_error P q = Some q0 ->
  nth_error (c_cells c) m0 = Some r -> nth_error r n0 = Some e -> nth_error e q0 = Some v ->
  exists r' e', nth_error (c_cells c') m = Some r' /\ nth_error r' n = Some e' /\ nth_error e' q = Some v.
Proof.
  intros Hm Hn Hq H1 H2 H3. destruct (pt_cells _ _ _ _ _ PT) as [ws [K1 K2]].
  pose proof (picks_nth _ _ _ m m0 K1 Hm) as E1. rewrite H1 in E1. destruct (F2_nth_l _ _ _ _ _ K2 E1) as [r' [E2 [rows [G1 G2]]]].
  pose proof (picks_nth _ _ _ n n0 G1 Hn) as E3. rewrite H2 in E3. destruct (F2_nth_l _ _ _ _ _ G2 E3) as [e' [E4 E5]].
  pose proof (picks_nth _ _ _ q q0 E5 Hq) as E6. exists r', e'. repeat split; try assumption. congruence.
Qed.
Lemma cell_from m n q r' e' v : nth_error (c_cells c') m = Some r' -> nth_error r' n = Some e' -> nth_error e' q = Some v ->
  exists m0 n0 q0 r e, nth_error W m = Some m0 /\ nth_error R n = Some n0 /\ nth_error P q = Some q0 /\
  nth_error (c_cells c) m0 = Some r /\ nth_error r n0 = Some e /\ nth_error e q0 = Some v.
Proof.
  intros H1 H2 H3. destruct (pt_cells _ _ _ _ _ PT) as [ws [K1 K2]].
  destruct (Forall2_nth_r _ _ _ _ _ K2 H1) as [r [E1 [rows [G1 G2]]]]. destruct (picks_nth_inv _ _ _ _ _ K1 E1) as [m0 [Hm0 Hr]].
  destruct (Forall2_nth_r _ _ _ _ _ G2 H2) as [e [E2 G3]]. destruct (picks_nth_inv _ _ _ _ _ G1 E2) as [n0 [Hn0 He]].
  destruct (picks_nth_inv _ _ _ _ _ G3 H3) as [q0 [Hq0 Hv]]. exists m0, n0, q0, r, e. repeat split; assumption.
Qed.

Lemma part_holds s b p v : holds step c' s b p v <-> holds step c s b p v /\ In s (spws step c') /\ In b (c_blpts c') /\ In p (c_pols c').
Proof.
  split.
  - intros H. split; [|exact (holds_in step c' s b p v H)]. destruct H as (m & n & q & r & e & H1 & H2 & H3 & H4 & H5 & H6).
    destruct (cell_from m n q r e v H4 H5 H6) as (m0 & n0 & q0 & r0 & e0 & K1 & K2 & K3 & K4 & K5 & K6).
    exists m0, n0, q0, r0, e0. rewrite <- (picks_nth _ _ _ m m0 part_spws K1), <- (picks_nth _ _ _ n n0 (pt_blpts _ _ _ _ _ PT) K2), <- (picks_nth _ _ _ q q0 (pt_pols _ _ _ _ _ PT) K3).
    repeat split; assumption.
  - intros [(m0 & n0 & q0 & r & e & H1 & H2 & H3 & H4 & H5 & H6) (I1 & I2 & I3)].
    apply In_nth_error in I1, I2, I3. destruct I1 as [m J1], I2 as [n J2], I3 as [q J3].
    destruct (picks_nth_inv _ _ _ _ _ part_spws J1) as [m1 [A1 B1]]. assert (m1 = m0) by exact (NoDup_nth_inj _ _ _ _ (wfc_s _ _ WF) B1 H1). subst m1.
    destruct (picks_nth_inv _ _ _ _ _ (pt_blpts _ _ _ _ _ PT) J2) as [n1 [A2 B2]]. assert (n1 = n0) by exact (NoDup_nth_inj _ _ _ _ (wfc_b _ _ WF) B2 H2). subst n1.
    destruct (picks_nth_inv _ _ _ _ _ (pt_pols _ _ _ _ _ PT) J3) as [q1 [A3 B3]]. assert (q1 = q0) by exact (NoDup_nth_inj _ _ _ _ (wfc_p _ _ WF) B3 H3). subst q1.
    destruct (cell_at m n q m0 n0 q0 r e v A1 A2 A3 H4 H5 H6) as (r' & e' & K1 & K2 & K3).
    exists m, n, q, r', e'. repeat split; assumption.
Qed.
Lemma part_row b x : row_of c' b x -> row_of c b x.
Proof.
  intros [n [H1 H2]]. destruct (picks_nth_inv _ _ _ _ _ (pt_blpts _ _ _ _ _ PT) H1) as [n0 [A1 B1]].
  exists n0. rewrite <- (picks_nth _ _ _ n n0 (pt_rows _ _ _ _ _ PT) A1). split; assumption.
Qed.
Lemma part_window s w : window_of step c' s w -> window_of step c s w.
Proof.
  intros [E H]. split; [exact E|]. apply (picks_In _ _ _ _ (pt_windows _ _ _ _ _ PT)) in H. destruct H as [i [_ H]]. exact (nth_error_In _ _ H).
Qed.
Lemma part_scalar s p x : scalar_of step c' s p x -> scalar_of step c s p x.
Proof.
  intros (m & q & r & H1 & H2 & H3 & H4). destruct (pt_scal _ _ _ _ _ PT) as [ws [K1 K2]].
  destruct (Forall2_nth_r _ _ _ _ _ K2 H3) as [r0 [E1 G]]. destruct (picks_nth_inv _ _ _ _ _ K1 E1) as [m0 [A1 B1]]. destruct (picks_nth_inv _ _ _ _ _ G H4) as [q0 [A2 B2]].
  exists m0, q0, r0. rewrite <- (picks_nth _ _ _ m m0 part_spws A1), <- (picks_nth _ _ _ q q0 (pt_pols _ _ _ _ _ PT) A2). repeat split; assumption.
Qed.
Lemma part_full_W : agree (spws step c) (spws step c') -> W = seq 0 (length (c_windows c)) /\ c_windows c' = c_windows c.
Proof.
  intros A. assert (E : W = seq 0 (length (c_windows c))).
  { rewrite <- (map_length (wkey step) (c_windows c)). apply (sorted_full W (spws step c) (spws step c') (pt_W _ _ _ _ _ PT) (wfc_s _ _ WF) part_spws). intros x Hx. apply A, Hx. }
  split; [exact E|]. pose proof (pt_windows _ _ _ _ _ PT) as H. rewrite E in H. exact (picks_fun _ _ _ _ H (picks_seq _)).
Qed.
Lemma part_full_P : agree (c_pols c) (c_pols c') -> P = seq 0 (length (c_pols c)) /\ c_pols c' = c_pols c.
Proof.
  intros A. assert (E : P = seq 0 (length (c_pols c))) by (apply (sorted_full P _ _ (pt_P _ _ _ _ _ PT) (wfc_p _ _ WF) (pt_pols _ _ _ _ _ PT)); intros x Hx; apply A, Hx).
  split; [exact E|]. pose proof (pt_pols _ _ _ _ _ PT) as H. rewrite E in H. exact (picks_fun _ _ _ _ H (picks_seq _)).
Qed.
Lemma part_full_R : agree (c_blpts c) (c_blpts c') -> c_blpts c' = c_blpts c.
Proof. intros A. apply (sorted_full_eq R _ _ (pt_R _ _ _ _ _ PT) (wfc_b _ _ WF) (pt_blpts _ _ _ _ _ PT)). intros x Hx. apply A, Hx. Qed.
Lemma part_scalar_eq : agree (spws step c) (spws step c') -> agree (c_pols c) (c_pols c') -> c_scalar c' = c_scalar c.
Proof.
  intros A1 A2. destruct (part_full_W A1) as [E1 _]. destruct (part_full_P A2) as [E2 _]. pose proof (pt_scal _ _ _ _ _ PT) as H. rewrite E1, E2 in H.
  destruct (wfc_scal _ _ WF) as [L1 L2]. rewrite <- L1 in H. apply sub2_seq_l in H. clear -H L2. revert L2. generalize (c_scalar c) (c_scalar c') H. clear H.
  intros l l' H. induction H as [|r r' l l' Hr H IH]; intros L; [reflexivity|]. f_equal; [|apply IH; intros z Hz; apply L; right; exact Hz].
  rewrite <- (L r) in Hr by (left; reflexivity). exact (picks_fun _ _ _ _ Hr (picks_seq _)).
Qed.
End One.

Lemma scalars_close_refl (a : list (list Sc)) : (forall x, isclose x x = true) -> scalars_close isclose a a = true.
Proof.
  intros Rf. unfold scalars_close. rewrite Nat.eqb_refl. cbn [andb]. apply forallb_forall. intros [x y] H.
  assert (E : x = y). { clear Rf. revert H. induction a as [|z a IH]; cbn; [tauto|]. intros [H|H]; [congruence|auto]. }
  subst y. cbn. rewrite Nat.eqb_refl. cbn [andb]. apply forallb_forall. intros [s t] Hs.
  assert (E : s = t). { clear -Hs. revert Hs. induction x as [|z x IH]; cbn; [tauto|]. intros [H|H]; [congruence|auto]. }
  subst t. apply Rf.
Qed.

(** the parts have everything of [c] on the two other axes *)
Definition full_elsewhere (ax : axis) (c c' : obj) : Prop :=
  (ax <> AxSpw -> agree (spws step c) (spws step c')) /\ (ax <> AxBlpts -> agree (c_blpts c) (c_blpts c')) /\ (ax <> AxPols -> agree (c_pols c) (c_pols c')).

Lemma empty_merge (cs : list obj) : (forall u, In u cs -> c_rparams u = []) -> merge_rparams (map c_rparams cs) = Ok [].
Proof.
  intros H. unfold merge_rparams.
  assert (E : forall f, f ([] : list (Z * Z)) = true -> forallb f (map c_rparams cs) = true).
  { intros f Hf. apply forallb_forall. intros x Hx. apply in_map_iff in Hx. destruct Hx as [u [<- Hu]]. rewrite (H u Hu). exact Hf. }
  rewrite (E (fun d => match d with [] => true | _ => false end)) by reflexivity. rewrite andb_false_r.
  assert (G : concat (map c_rparams cs) = []).
  { clear E. induction cs as [|u cs IH]; [reflexivity|]. cbn. rewrite (H u) by (left; reflexivity). cbn. apply IH. intros v Hv. apply H. right. exact Hv. }
  rewrite G. reflexivity.
Qed.

Theorem recombine (c : obj) ax (cs : list obj) : (forall x, isclose x x = true) -> wfc step c -> nonempty c -> 2 <= length cs ->
  (forall u, In u cs -> exists W R P, part W R P c u) -> (forall u, In u cs -> nonempty u /\ full_elsewhere ax c u) ->
  (forall s b p, In s (spws step c) -> In b (c_blpts c) -> In p (c_pols c) -> exists u, In u cs /\ on_axis step ax s b p u) ->
  (forall a u b v d, cs = a ++ u :: b ++ v :: d -> forall s x p, on_axis step ax s x p u -> on_axis step ax s x p v -> False) ->
  (ax <> AxSpw -> windows_sorted step c) -> (ax <> AxBlpts -> unique_lookup round8 (c_blpts c)) ->
  exists c', combine_objs isclose round8 step cs = Ok c' /\
    c_blpts c' = sorted_set blpt_dec blpt_leb (c_blpts c) /\ Permutation (c_pols c') (c_pols c) /\ Permutation (spws step c') (spws step c) /\
    (ax <> AxSpw -> c_windows c' = c_windows c) /\
    (forall s b p v, holds step c' s b p v <-> holds step c s b p v) /\
    (forall b x, row_of c' b x <-> row_of c b x) /\
    (forall s w, window_of step c' s w <-> window_of step c s w) /\
    (forall s p x, scalar_of step c' s p x <-> scalar_of step c s p x) /\
    c_static c' = c_static c /\ new_bls cs = Ok (c_bls c').
Proof.
  intros Rf WF NE L PT FE CV AP WS UL.
  assert (Wcs : forall u, In u cs -> wfc step u /\ nonempty u).
  { intros u Hu. split; [|apply FE, Hu]. destruct (PT u Hu) as (W & R & P & H). exact (part_wfc c u W R P WF H). }
  assert (ON : forall u, In u cs -> (forall s b p v, holds step u s b p v <-> holds step c s b p v /\ In s (spws step u) /\ In b (c_blpts u) /\ In p (c_pols u))).
  { intros u Hu. destruct (PT u Hu) as (W & R & P & H). exact (part_holds c u W R P WF H). }
  assert (SUB : forall u, In u cs -> (forall x, In x (spws step u) -> In x (spws step c)) /\ (forall x, In x (c_blpts u) -> In x (c_blpts c)) /\ (forall x, In x (c_pols u) -> In x (c_pols c))).
  { intros u Hu. destruct (PT u Hu) as (W & R & P & H). repeat split; intros x Hx.
    - apply (picks_In _ _ _ _ (part_spws c u W R P H)) in Hx. destruct Hx as [i [_ Hi]]. exact (nth_error_In _ _ Hi).
    - apply (picks_In _ _ _ _ (pt_blpts _ _ _ _ _ H)) in Hx. destruct Hx as [i [_ Hi]]. exact (nth_error_In _ _ Hi).
    - apply (picks_In _ _ _ _ (pt_pols _ _ _ _ _ H)) in Hx. destruct Hx as [i [_ Hi]]. exact (nth_error_In _ _ Hi). }
  assert (HAS : forall s b p, In s (spws step c) -> In b (c_blpts c) -> In p (c_pols c) -> exists u, In u cs /\ In s (spws step u) /\ In b (c_blpts u) /\ In p (c_pols u)).
  { intros s b p H1 H2 H3. destruct (CV s b p H1 H2 H3) as [u [Hu Ho]]. exists u. split; [exact Hu|]. destruct (FE u Hu) as [_ (F1 & F2 & F3)].
    destruct ax; cbn in Ho; repeat split; try exact Ho; first [apply F1; [discriminate|assumption]|apply F2; [discriminate|assumption]|apply F3; [discriminate|assumption]]. }
  assert (OV : overlap isclose step cs = Ok ax).
  { apply overlap_spec. split; [exact L|]. split.
    - intros u v Hu Hv. destruct (PT u Hu) as (W & R & P & H). destruct (PT v Hv) as (W' & R' & P' & H'). rewrite (pt_static _ _ _ _ _ H), (pt_static _ _ _ _ _ H'). reflexivity.
    - split.
      + intros a u b v d E. assert (Hu : In u cs) by (rewrite E; apply in_or_app; right; left; reflexivity).
        assert (Hv : In v cs) by (rewrite E; apply in_or_app; right; right; apply in_or_app; right; left; reflexivity).
        destruct (FE u Hu) as [Nu (F1 & F2 & F3)]. destruct (FE v Hv) as [Nv (G1 & G2 & G3)]. specialize (AP a u b v d E).
        assert (AG : forall T (l l1 l2 : list T), agree l l1 -> agree l l2 -> agree l1 l2) by (intros T l l1 l2 K1 K2 x; rewrite <- (K1 x), <- (K2 x); tauto).
        destruct Nu as (N1 & N2 & N3).
        assert (A1 : ax <> AxSpw -> agree (spws step u) (spws step v)) by (intros N; apply (AG _ (spws step c)); auto).
        assert (A2 : ax <> AxBlpts -> agree (c_blpts u) (c_blpts v)) by (intros N; apply (AG _ (c_blpts c)); auto).
        assert (A3 : ax <> AxPols -> agree (c_pols u) (c_pols v)) by (intros N; apply (AG _ (c_pols c)); auto).
        unfold differ, apart. destruct ax; cbn in AP.
        * split; [split; [intros x; exact (AP x (0, 0, 0)%Z 0%Z)|left; unfold spws; destruct (c_windows u); [congruence|discriminate]]|split; [apply A2|apply A3]; discriminate].
        * split; [apply A1; discriminate|split; [split; [intros x; exact (AP [] x 0%Z)|left; exact N2]|apply A3; discriminate]].
        * split; [apply A1; discriminate|split; [apply A2; discriminate|split; [intros x; exact (AP [] (0, 0, 0)%Z x)|left; exact N3]]].
      + intros EA. subst ax. destruct cs as [|u0 rest]; [cbn in L; lia|]. intros u Hu.
        assert (Q : forall v, In v (u0 :: rest) -> c_scalar v = c_scalar c).
        { intros v Hv. destruct (PT v Hv) as (W & R & P & H). destruct (FE v Hv) as [_ (F1 & _ & F3)]. apply (part_scalar_eq c v W R P WF H); [apply F1|apply F3]; discriminate. }
        rewrite (Q u0) by (left; reflexivity). rewrite (Q u) by (right; exact Hu). apply scalars_close_refl, Rf. }
  assert (AL : aligned round8 step ax cs).
  { intros u0 E0. assert (H0 : In u0 cs) by (destruct cs; [discriminate|injection E0 as <-; left; reflexivity]).
    destruct (FE u0 H0) as [_ (F1 & F2 & F3)]. destruct (PT u0 H0) as (W & R & P & H). split.
    - intros N. assert (Q : forall v, In v cs -> c_blpts v = c_blpts c).
      { intros v Hv. destruct (PT v Hv) as (W' & R' & P' & H'). destruct (FE v Hv) as [_ (_ & G2 & _)]. exact (part_full_R c v W' R' P' WF H' (G2 N)). }
      split; [intros u Hu; rewrite (Q u Hu), (Q u0 H0); reflexivity|]. rewrite (Q u0 H0). exact (UL N).
    - intros N. unfold windows_sorted. unfold spws. destruct (part_full_W c u0 W R P WF H (F1 N)) as [_ ->]. exact (WS N). }
  assert (RP : merge_rparams (map c_rparams cs) = Ok []).
  { apply empty_merge. intros u Hu. destruct (PT u Hu) as (W & R & P & H). exact (pt_rp _ _ _ _ _ H). }
  destruct (combine_spec isclose round8 step cs ax [] OV Wcs AL RP) as (c' & E & W' & N' & ES & EB & EP & HH & HR & HW & HS & HF & _ & _ & HB).
  exists c'. split; [exact E|].
  assert (NEx : exists s b p, In s (spws step c) /\ In b (c_blpts c) /\ In p (c_pols c)).
  { destruct NE as (N1 & N2 & N3). unfold spws. destruct (c_windows c) as [|w ws]; [congruence|]. destruct (c_blpts c) as [|b bs]; [congruence|]. destruct (c_pols c) as [|p ps]; [congruence|].
    exists (wkey step w), b, p. repeat split; left; reflexivity. }
  destruct NEx as (s0 & b0 & p0 & I1 & I2 & I3).
  assert (UB : forall x, In x (concat (map c_blpts cs)) <-> In x (c_blpts c)).
  { intros x. rewrite in_concat. split.
    - intros [l [Hl Hx]]. apply in_map_iff in Hl. destruct Hl as [u [<- Hu]]. apply (SUB u Hu), Hx.
    - intros Hx. destruct (HAS s0 x p0 I1 Hx I3) as [u [Hu (_ & K & _)]]. exists (c_blpts u). split; [apply in_map, Hu|exact K]. }
  assert (US : forall x, In x (spws step c') <-> In x (spws step c)).
  { intros x. rewrite ES, sorted_set_In, in_concat. split.
    - intros [l [Hl Hx]]. apply in_map_iff in Hl. destruct Hl as [u [<- Hu]]. apply (SUB u Hu), Hx.
    - intros Hx. destruct (HAS x b0 p0 Hx I2 I3) as [u [Hu (K & _ & _)]]. exists (spws step u). split; [apply in_map, Hu|exact K]. }
  assert (UP : forall x, In x (c_pols c') <-> In x (c_pols c)).
  { intros x. rewrite EP, sorted_set_In, in_concat. split.
    - intros [l [Hl Hx]]. apply in_map_iff in Hl. destruct Hl as [u [<- Hu]]. apply (SUB u Hu), Hx.
    - intros Hx. destruct (HAS s0 b0 x I1 I2 Hx) as [u [Hu (_ & _ & K)]]. exists (c_pols u). split; [apply in_map, Hu|exact K]. }
  split; [rewrite EB; apply sorted_set_unique; [exact blpt_order|exact UB]|].
  assert (EB' : forall x, In x (c_blpts c') <-> In x (c_blpts c)) by (intros x; rewrite EB, sorted_set_In; apply UB).
  split; [apply NoDup_Permutation; [exact (wfc_p _ _ W')|exact (wfc_p _ _ WF)|exact UP]|].
  split; [apply NoDup_Permutation; [exact (wfc_s _ _ W')|exact (wfc_s _ _ WF)|exact US]|].
  assert (HDs : exists u0, hd_error cs = Some u0 /\ In u0 cs) by (destruct cs as [|u0 r]; [cbn in L; lia|exists u0; split; [reflexivity|left; reflexivity]]).
  destruct HDs as [u0 [E0 H0]]. destruct (HF u0 E0) as [HF1 HF2]. destruct (PT u0 H0) as (W0 & R0 & P0 & H00).
  split; [intros N; rewrite (HF2 N); destruct (FE u0 H0) as [_ (F1 & _)]; apply (part_full_W c u0 W0 R0 P0 WF H00 (F1 N))|].
  split.
  { intros s b p v. rewrite HH. split.
    - intros [u [Hu Hh]]. apply (ON u Hu) in Hh. tauto.
    - intros Hh. destruct (holds_in step c s b p v Hh) as (K1 & K2 & K3). destruct (HAS s b p K1 K2 K3) as [u [Hu (J1 & J2 & J3)]]. exists u. split; [exact Hu|]. apply (ON u Hu). tauto. }
  assert (RF : forall b x, row_of c' b x -> row_of c b x).
  { intros b x H. destruct (HR b x H) as [u [Hu [_ Hr]]]. destruct (PT u Hu) as (W & R & P & K). exact (part_row c u W R P K b x Hr). }
  split.
  { intros b x. split; [apply RF|]. intros H. destruct H as [n [H1 H2]]. pose proof (nth_error_In _ _ H1) as Hb. apply EB' in Hb. apply In_nth_error in Hb. destruct Hb as [n' Hn'].
    destruct (nth_error_lt (c_rows c') n') as [y Hy]; [rewrite (wfc_rows _ _ W'); exact (nth_error_Some_lt _ _ _ Hn')|].
    destruct (RF b y (ex_intro _ n' (conj Hn' Hy))) as [n2 [K1 K2]]. assert (n2 = n) by exact (NoDup_nth_inj _ _ _ _ (wfc_b _ _ WF) K1 H1). subst n2.
    rewrite H2 in K2. injection K2 as ->. exists n'. split; assumption. }
  assert (WFw : forall s w, window_of step c' s w -> window_of step c s w).
  { intros s w H. destruct (HW s w H) as [u [Hu Hr]]. destruct (PT u Hu) as (W & R & P & K). exact (part_window c u W R P K s w Hr). }
  split.
  { intros s w. split; [apply WFw|]. intros [Ew Hw]. assert (Is : In s (spws step c')) by (apply US; rewrite <- Ew; unfold spws; apply in_map; exact Hw).
    unfold spws in Is. apply in_map_iff in Is. destruct Is as [w' [Ew' Hw']]. destruct (WFw s w' (conj Ew' Hw')) as [_ K].
    assert (w' = w); [|subst w'; split; assumption]. apply In_nth_error in Hw, K. destruct Hw as [i Hi], K as [j Hj].
    assert (i = j). { apply (NoDup_nth_inj (spws step c) i j s (wfc_s _ _ WF)); unfold spws; rewrite nth_error_map; [rewrite Hi|rewrite Hj]; cbn; congruence. }
    subst j. congruence. }
  assert (SF : forall s p x, scalar_of step c' s p x -> scalar_of step c s p x).
  { intros s p x H. destruct (HS s p x H) as [u [Hu [Hr _]]]. destruct (PT u Hu) as (W & R & P & K). exact (part_scalar c u W R P K s p x Hr). }
  split.
  { intros s p x. split; [apply SF|]. intros (m & q & r & H1 & H2 & H3 & H4).
    pose proof (nth_error_In _ _ H1) as Is. apply US in Is. apply In_nth_error in Is. destruct Is as [m' Hm'].
    pose proof (nth_error_In _ _ H2) as Ip. apply UP in Ip. apply In_nth_error in Ip. destruct Ip as [q' Hq'].
    destruct (wfc_scal _ _ W') as [L1 L2]. destruct (nth_error_lt (c_scalar c') m') as [r' Hr']; [rewrite L1; unfold spws in Hm'; rewrite <- (map_length (wkey step)); exact (nth_error_Some_lt _ _ _ Hm')|].
    destruct (nth_error_lt r' q') as [y Hy]; [rewrite (L2 r' (nth_error_In _ _ Hr')); exact (nth_error_Some_lt _ _ _ Hq')|].
    assert (SC : scalar_of step c' s p y) by (exists m', q', r'; repeat split; assumption).
    destruct (SF s p y SC) as (m2 & q2 & r2 & K1 & K2 & K3 & K4).
    assert (m2 = m) by exact (NoDup_nth_inj _ _ _ _ (wfc_s _ _ WF) K1 H1). assert (q2 = q) by exact (NoDup_nth_inj _ _ _ _ (wfc_p _ _ WF) K2 H2). subst m2 q2.
    assert (r2 = r) by congruence. subst r2. assert (y = x) by congruence. subst y. exact SC. }
  split; [rewrite HF1; exact (pt_static _ _ _ _ _ H00)|exact HB].
Qed.
End Split.
