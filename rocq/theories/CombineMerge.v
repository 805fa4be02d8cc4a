(** Any tree of pairwise merges of objects with disjoint blpair-times gives the same object as
    one call with the whole list. *)
From Coq Require Import Permutation Sorted.
From Verif Require Import Prelude ListLemmas UvpModel CommonProofs CombineModel CombineProofs CombineMain CombineSound CombineObject CombineTree.

Lemma list_eq_nth {X} (a b : list X) : length a = length b ->
  (forall i x y, nth_error a i = Some x -> nth_error b i = Some y -> x = y) -> a = b.
Proof.
  revert b; induction a as [|x a IH]; intros [|y b] L H; try discriminate; [reflexivity|].
  f_equal; [apply (H 0); reflexivity|]. apply IH; [cbn in L; lia|]. intros i; apply (H (S i)).
Qed.
Lemma Zleb_order : order Z.leb.
Proof. split; intros *; rewrite !Z.leb_le; lia. Qed.
Lemma sorted_hd_min {A} (leb : A -> A -> bool) l d x : order leb -> StronglySorted (fun a b => leb a b = true) l ->
  In x l -> leb (hd d l) x = true.
Proof.
  intros O S H. destruct l as [|y l]; [destruct H|]. cbn. destruct H as [->|H].
  - destruct (ord_total leb O x x); assumption.
  - apply StronglySorted_inv in S. destruct S as [_ F]. rewrite Forall_forall in F. apply F, H.
Qed.
Lemma least_exists {A} (leb : A -> A -> bool) l : order leb -> l <> [] -> exists x, In x l /\ forall y, In y l -> leb x y = true.
Proof.
  intros O N. assert (S := isort_sorted leb (ord_total _ O) (ord_trans _ O) l).
  assert (Pm := isort_perm leb l). destruct (isort leb l) as [|z k] eqn:E.
  - apply Permutation_nil in Pm. congruence.
  - exists z. split; [apply (Permutation_in _ Pm); left; reflexivity|]. intros y Hy.
    apply (sorted_hd_min leb (z :: k) z y O S). apply (Permutation_in _ (Permutation_sym Pm) Hy).
Qed.

(** * baseline vectors: for every baseline the entry of the first object that has it *)
Section Bls.
Context {Vec : Type}.
Definition vec_first (bl : Z) (d : list (Z * Vec)) : option (Z * Vec) := find (fun e => Z.eqb (fst e) bl) d.
Definition canon (d : list (Z * Vec)) : list (Z * Vec) :=
  flat_map (fun bl => match vec_first bl d with Some e => [e] | None => [] end) (sorted_set Z.eq_dec Z.leb (map fst d)).
Lemma vec_first_in bl d : vec_first bl d <> None <-> In bl (map fst d).
Proof.
  unfold vec_first. induction d as [|[b v] d IH]; cbn; [tauto|]. destruct (Z.eqb_spec b bl) as [->|N]; [split; intros; [left; reflexivity | discriminate]|].
  rewrite IH. split; [tauto | intros [E|E]; [congruence | exact E]].
Qed.
Lemma vec_first_fst bl d e : vec_first bl d = Some e -> fst e = bl.
Proof. intro H. apply find_some in H. destruct H as [_ H]. apply Z.eqb_eq, H. Qed.
Lemma vec_first_app bl d1 d2 : vec_first bl (d1 ++ d2) = match vec_first bl d1 with Some e => Some e | None => vec_first bl d2 end.
Proof. unfold vec_first. induction d1 as [|x d1 IH]; [reflexivity|]. cbn. destruct (Z.eqb (fst x) bl); [reflexivity | exact IH]. Qed.
Lemma canon_ext d d' : (forall bl, vec_first bl d = vec_first bl d') -> canon d = canon d'.
Proof.
  intro H. unfold canon. replace (sorted_set Z.eq_dec Z.leb (map fst d')) with (sorted_set Z.eq_dec Z.leb (map fst d)).
  - apply flat_map_ext. intro bl. rewrite H. reflexivity.
  - apply sorted_set_unique; [exact Zleb_order|]. intro x. rewrite <- !vec_first_in, H. tauto.
Qed.
Lemma vec_first_canon bl d : vec_first bl (canon d) = vec_first bl d.
Proof.
  unfold canon.
  assert (G : forall ks, vec_first bl (flat_map (fun b => match vec_first b d with Some e => [e] | None => [] end) ks) =
     if in_dec Z.eq_dec bl ks then vec_first bl d else None).
  { induction ks as [|k ks IH]; [reflexivity|]. cbn [flat_map]. rewrite vec_first_app, IH.
    destruct (in_dec Z.eq_dec bl (k :: ks)) as [I|I]; destruct (in_dec Z.eq_dec bl ks) as [J|J].
    - destruct (vec_first k d) as [e|] eqn:Ek; [|reflexivity]. cbn. destruct (Z.eqb_spec (fst e) bl) as [E|E]; [|reflexivity].
      rewrite <- E, (vec_first_fst _ _ _ Ek), Ek. reflexivity.
    - destruct I as [->|I]; [|contradiction]. destruct (vec_first bl d) as [e|] eqn:Ek; [|reflexivity]. cbn. rewrite (vec_first_fst _ _ _ Ek), Z.eqb_refl. reflexivity.
    - exfalso; apply I; right; exact J.
    - destruct (vec_first k d) as [e|] eqn:Ek; [|reflexivity]. cbn. destruct (Z.eqb_spec (fst e) bl) as [E|E]; [|reflexivity].
      exfalso. apply I. left. rewrite <- E. symmetry. apply (vec_first_fst _ _ _ Ek). }
  rewrite G. destruct (in_dec Z.eq_dec bl _) as [I|I]; [reflexivity|].
  rewrite sorted_set_In in I. symmetry. destruct (vec_first bl d) eqn:E; [|reflexivity]. exfalso. apply I, vec_first_in. congruence.
Qed.
Lemma canon_idem d : canon (canon d) = canon d.
Proof. apply canon_ext. intro. apply vec_first_canon. Qed.
Lemma index_vec bl (d : list (Z * Vec)) h : index_of Z.eq_dec bl (map fst d) = Some h -> nth_error d h = vec_first bl d.
Proof.
  unfold vec_first. revert h; induction d as [|[b v] d IH]; intros h H; cbn in *; [discriminate|].
  destruct (Z.eq_dec bl b) as [->|N]; [injection H as <-; rewrite Z.eqb_refl; reflexivity|].
  destruct (Z.eqb_spec b bl); [congruence|]. destruct (index_of Z.eq_dec bl (map fst d)); [|discriminate]. injection H as <-. cbn. apply IH; reflexivity.
Qed.
End Bls.

Section Merge.
Context {V M Sc Vec : Type}.
Variable isclose : Sc -> Sc -> bool.
Variable round8 : Z -> Z.
Variable step : list Z -> Z.
Notation obj := (cobj V M Sc Vec).
Notation cmb := (combine_objs isclose round8 step).

Lemma new_bls_canon (us : list obj) l : new_bls us = Ok l -> l = canon (concat (map c_bls us)).
Proof.
  unfold new_bls, canon. rewrite concat_map, map_map.
  generalize (sorted_set Z.eq_dec Z.leb (concat (map (fun u => map fst (c_bls u)) us))) as ks.
  intro ks. revert l. induction ks as [|k ks IH]; intros l H; [cbn in H; injection H as <-; reflexivity|].
  cbn [map_res] in H. destruct (owner_of _ us) as [u|] eqn:Eo; [|discriminate]. cbn [bind] in H.
  destruct (index_res Z.eq_dec k (map fst (c_bls u))) as [h|] eqn:Eh; [|discriminate]. cbn [bind] in H.
  destruct (nth_res (c_bls u) h) as [e|] eqn:En; [|discriminate]. cbn [bind] in H.
  destruct (map_res _ ks) as [r|] eqn:Er; [|discriminate]. cbn [bind] in H. injection H as <-.
  cbn [flat_map]. rewrite <- (IH r eq_refl).
  assert (E : vec_first k (concat (map c_bls us)) = Some e).
  { unfold index_res in Eh. destruct (index_of Z.eq_dec k (map fst (c_bls u))) as [h'|] eqn:Ei; [|discriminate]. injection Eh as ->.
    apply index_vec in Ei. apply nth_res_ok in En. rewrite En in Ei. symmetry in Ei.
    unfold owner_of in Eo. destruct (find _ us) as [u'|] eqn:Ef; [|discriminate]. injection Eo as ->.
    clear -Ef Ei. induction us as [|w us IH]; [discriminate|]. cbn in Ef. cbn [map concat]. rewrite vec_first_app.
    destruct (mem Z.eq_dec k (map fst (c_bls w))) eqn:Em.
    - injection Ef as ->. rewrite Ei. reflexivity.
    - apply mem_false in Em. destruct (vec_first k (c_bls w)) eqn:Ew; [exfalso; apply Em, vec_first_in; congruence|]. apply IH; assumption. }
  rewrite E. reflexivity.
Qed.

(** objects that differ only in their blpair-times; same windows and polarizations in increasing
    order, same settings, matching scalars *)
Record mergeable (us : list obj) : Prop := {
  mg_wf : forall u, In u us -> wfc step u /\ nonempty u;
  mg_sorted : forall u, In u us -> windows_sorted step u;
  mg_same : forall u v, In u us -> In v us ->
    spws step u = spws step v /\ c_pols u = c_pols v /\ c_static u = c_static v /\ c_rparams u = c_rparams v;
  mg_pols : forall u, In u us -> StronglySorted Z.lt (c_pols u) /\ (forall p, In p (c_pols u) -> (0 < p)%Z);
  mg_rp : forall u, In u us -> NoDup (map fst (c_rparams u));
  mg_scal : forall u v, In u us -> In v us -> scalars_close isclose (c_scalar u) (c_scalar v) = true;
  mg_nodup : NoDup us;
  mg_disj : forall u v b, In u us -> In v us -> In b (c_blpts u) -> In b (c_blpts v) -> u = v }.

(** what the merge of [us] must contain *)
Record inv (us : list obj) (r : obj) : Prop := {
  iv_wf : wfc step r /\ nonempty r;
  iv_same : forall u, In u us -> spws step r = spws step u /\ c_pols r = c_pols u /\ c_static r = c_static u /\ c_rparams r = c_rparams u;
  iv_b : forall b, In b (c_blpts r) <-> exists u, In u us /\ In b (c_blpts u);
  iv_holds : forall s b p v, holds step r s b p v -> exists u, In u us /\ holds step u s b p v;
  iv_row : forall b x, row_of r b x -> exists u, In u us /\ row_of u b x;
  iv_win : forall u0, hd_error us = Some u0 -> c_windows r = c_windows u0;
  iv_scal : exists u b, In u us /\ c_scalar r = c_scalar u /\ In b (c_blpts u) /\ forall b', In b' (c_blpts r) -> blpt_leb b b' = true;
  iv_bls : forall bl, vec_first bl (c_bls r) = vec_first bl (concat (map c_bls us)) }.
Definition normal (r : obj) : Prop :=
  StronglySorted (fun x y => blpt_leb x y = true) (c_blpts r) /\ c_bls r = canon (c_bls r).

Lemma pols_fix P : StronglySorted Z.lt P -> (forall p, In p P -> (0 < p)%Z) -> NoDup P /\ sorted_set Z.eq_dec abs_leb P = P.
Proof.
  intros S Pos.
  assert (N : NoDup P).
  { clear Pos. induction S as [|x l S IH F]; constructor; [|exact IH]. rewrite Forall_forall in F. intro H. specialize (F x H). lia. }
  split; [exact N|]. unfold sorted_set. rewrite nodup_fixed_point by exact N.
  clear N. induction S as [|x l S IH F]; [reflexivity|]. change (isort abs_leb (x :: l)) with (insert abs_leb x (isort abs_leb l)).
  rewrite IH by (intros; apply Pos; right; assumption). destruct l as [|y l]; [reflexivity|]. cbn [insert].
  rewrite Forall_forall in F. pose proof (F y (or_introl eq_refl)). pose proof (Pos x (or_introl eq_refl)).
  unfold abs_leb. destruct (Z.leb_spec (Z.abs x) (Z.abs y)); [reflexivity | lia].
Qed.

Lemma rp_fold d : forall acc, NoDup (map fst d) -> (forall e, In e d -> In e acc) -> NoDup (map fst acc) ->
  fold_left rp_put d (Ok acc) = Ok acc.
Proof.
  induction d as [|[k v] d IH]; intros acc N I Na; [reflexivity|]. cbn [fold_left].
  assert (E : rp_put (Ok acc) (k, v) = Ok acc).
  { unfold rp_put. cbn [bind fst snd]. destruct (find (fun e => Z.eqb (fst e) k) acc) as [e|] eqn:Ef.
    - apply find_some in Ef. destruct Ef as [H1 H2]. apply Z.eqb_eq in H2.
      assert (e = (k, v)); [|subst e; cbn; rewrite Z.eqb_refl; reflexivity].
      assert (H3 : In (k, v) acc) by (apply I; left; reflexivity). destruct e as [k' v']. cbn in H2. subst k'. f_equal.
      clear -Na H1 H3. induction acc as [|[a w] acc IH]; [destruct H1|]. cbn in Na. apply NoDup_cons_iff in Na. destruct Na as [Nh Nt].
      destruct H1 as [H1|H1], H3 as [H3|H3]; [congruence | | | auto].
      + exfalso. apply Nh. injection H1 as -> ->. apply (in_map fst) in H3. exact H3.
      + exfalso. apply Nh. injection H3 as -> ->. apply (in_map fst) in H1. exact H1.
    - exfalso. apply (find_none _ _ Ef (k, v)) in I; [|left; reflexivity]. cbn in I. rewrite Z.eqb_refl in I. discriminate. }
  rewrite E. apply IH; [cbn in N; apply NoDup_cons_iff in N; tauto | intros; apply I; right; assumption | exact Na].
Qed.
Lemma rp_fold0 d : forall acc, NoDup (map fst (acc ++ d)) -> fold_left rp_put d (Ok acc) = Ok (acc ++ d).
Proof.
  induction d as [|[k v] d IH]; intros acc N; [rewrite app_nil_r; reflexivity|]. cbn [fold_left].
  assert (E : rp_put (Ok acc) (k, v) = Ok (acc ++ [(k, v)])).
  { unfold rp_put. cbn [bind fst snd]. destruct (find (fun e => Z.eqb (fst e) k) acc) as [e|] eqn:Ef; [|reflexivity].
    apply find_some in Ef. destruct Ef as [H1 H2]. apply Z.eqb_eq in H2. exfalso. rewrite map_app in N. cbn in N. apply NoDup_remove_2 in N.
    apply N, in_or_app. left. rewrite <- H2. apply in_map, H1. }
  rewrite E, IH; rewrite <- app_assoc; [reflexivity | exact N].
Qed.
Lemma merge_rparams_same ds R : ds <> [] -> (forall d, In d ds -> d = R) -> NoDup (map fst R) -> merge_rparams ds = Ok R.
Proof.
  intros Hne HE N. unfold merge_rparams.
  set (empty := fun d : list (Z * Z) => match d with [] => true | _ => false end).
  assert (EB : existsb empty ds && negb (forallb empty ds) = false).
  { destruct R as [|e R'] eqn:ER.
    - assert (forallb empty ds = true) by (apply forallb_forall; intros d Hd; rewrite (HE d Hd); reflexivity). rewrite H. cbn. apply andb_false_r.
    - assert (existsb empty ds = false); [|rewrite H; reflexivity]. destruct (existsb empty ds) eqn:Ex; [|reflexivity].
      apply existsb_exists in Ex. destruct Ex as [d [Hd Hx]]. rewrite (HE d Hd) in Hx. discriminate. }
  rewrite EB. destruct ds as [|d ds]; [congruence|]. cbn [concat]. rewrite fold_left_app. rewrite (HE d (or_introl eq_refl)).
  rewrite (rp_fold0 R []) by exact N. cbn [app].
  assert (HE' : forall d, In d ds -> d = R) by (intros; apply HE; right; assumption). clear EB HE Hne d empty.
  induction ds as [|d ds IH]; [reflexivity|]. cbn [concat]. rewrite fold_left_app, (HE' d (or_introl eq_refl)).
  rewrite rp_fold by auto. apply IH. intros; apply HE'; right; assumption.
Qed.

(** one call on the whole list *)
Lemma merge_flat us : mergeable us -> 2 <= length us -> exists r, cmb us = Ok r /\ inv us r /\ normal r.
Proof.
  intros HM HL.
  assert (HO : overlap isclose step us = Ok AxBlpts).
  { apply overlap_spec. split; [exact HL|]. split; [intros u v Hu Hv; apply (mg_same _ HM u v Hu Hv)|]. split.
    - intros a u b v c E. assert (Hu : In u us) by (rewrite E; apply in_or_app; right; left; reflexivity).
      assert (Hv : In v us) by (rewrite E; apply in_or_app; right; right; apply in_or_app; right; left; reflexivity).
      destruct (mg_same _ HM u v Hu Hv) as [E1 [E2 _]]. cbn. split; [intro; rewrite E1; tauto|]. split; [|intro; rewrite E2; tauto].
      split; [|left; apply (mg_wf _ HM u Hu)]. intros x H1 H2. assert (u = v) by exact (mg_disj _ HM u v x Hu Hv H1 H2). subst v.
      pose proof (mg_nodup _ HM) as N. rewrite E in N. apply NoDup_remove_2 in N. apply N, in_or_app. right. apply in_or_app. right. left. reflexivity.
    - intros _. destruct us as [|u0 rest]; [cbn in HL; lia|]. intros u Hu. apply (mg_scal _ HM); [left; reflexivity | right; exact Hu]. }
  assert (HW : forall u, In u us -> wfc step u /\ nonempty u) by apply (mg_wf _ HM).
  assert (HA : aligned round8 step AxBlpts us).
  { intros u0 H0. split; [congruence|]. intros _. apply (mg_sorted _ HM). destruct us; [discriminate|]. injection H0 as ->. left; reflexivity. }
  destruct us as [|u0 rest]; [cbn in HL; lia|]. set (us := u0 :: rest) in *. assert (U0 : In u0 us) by (left; reflexivity).
  assert (HR : merge_rparams (map c_rparams us) = Ok (c_rparams u0)).
  { apply merge_rparams_same; [discriminate | | apply (mg_rp _ HM u0 U0)]. intros d Hd. apply in_map_iff in Hd. destruct Hd as [u [<- Hu]].
    apply (mg_same _ HM u u0 Hu U0). }
  destruct (combine_spec isclose round8 step us AxBlpts _ HO HW HA HR) as
    (r & E & W & Ne & ES & EB & EP & Hh & Hr & _ & _ & Hst & Hrp & Hsc & Hbl).
  exists r. split; [exact E|].
  assert (ES' : spws step r = spws step u0).
  { rewrite ES. apply sorted_set_fix; [exact lex_order | apply (HW u0 U0) | apply (mg_sorted _ HM u0 U0) |].
    intro x. rewrite in_concat. split.
    - intros [l [Hl Hx]]. apply in_map_iff in Hl. destruct Hl as [u [<- Hu]]. rewrite <- (proj1 (mg_same _ HM u u0 Hu U0)). exact Hx.
    - intro Hx. exists (spws step u0). split; [apply in_map; exact U0 | exact Hx]. }
  assert (EP' : c_pols r = c_pols u0).
  { destruct (mg_pols _ HM u0 U0) as [S Pos]. rewrite EP. rewrite <- (proj2 (pols_fix _ S Pos)) at 1.
    assert (Ag : forall x, In x (concat (map c_pols us)) <-> In x (c_pols u0)).
    { intro x. rewrite in_concat. split.
      - intros [l [Hl Hx]]. apply in_map_iff in Hl. destruct Hl as [u [<- Hu]]. rewrite <- (proj1 (proj2 (mg_same _ HM u u0 Hu U0))). exact Hx.
      - intro Hx. exists (c_pols u0). split; [apply in_map; exact U0 | exact Hx]. }
    apply abs_sorted_unique; [intros x Hx; apply Pos, Ag, Hx | exact Ag]. }
  destruct (Hst u0 eq_refl) as [Est Ewin]. specialize (Ewin ltac:(discriminate)).
  assert (SB : StronglySorted (fun x y => blpt_leb x y = true) (c_blpts r)) by (rewrite EB; apply sorted_set_sorted, blpt_order).
  split.
  - split.
    + split; assumption.
    + intros u Hu. destruct (mg_same _ HM u0 u U0 Hu) as [A1 [A2 [A3 A4]]]. repeat split; congruence.
    + intro b. rewrite EB, sorted_set_In, in_concat. split.
      * intros [l [Hl Hx]]. apply in_map_iff in Hl. destruct Hl as [u [<- Hu]]. eauto.
      * intros [u [Hu Hx]]. exists (c_blpts u). split; [apply in_map, Hu | exact Hx].
    + intros s b p v H. apply Hh, H.
    + intros b x H. destruct (Hr b x H) as [u [Hu [_ H1]]]. eauto.
    + intros v Hv. injection Hv as <-. exact Ewin.
    + destruct (Hsc eq_refl) as [u [Hu [Hb Hs]]]. exists u, (hd (0, 0, 0)%Z (c_blpts r)). split; [exact Hu|]. split; [|split; [exact Hb|]].
      * destruct (mg_same _ HM u0 u U0 Hu) as [A1 [A2 _]]. destruct (HW u Hu) as [Wu _].
        pose proof (wfc_scal _ _ W) as [L1 R1]. pose proof (wfc_scal _ _ Wu) as [L2 R2].
        assert (LS : length (c_windows r) = length (c_windows u)).
        { pose proof (f_equal (@length _) (eq_trans ES' A1)) as L. unfold spws in L. rewrite !map_length in L. exact L. }
        apply list_eq_nth; [congruence|]. intros i x y Hx Hy. apply list_eq_nth.
        { rewrite (R1 x), (R2 y) by (eapply nth_error_In; eassumption). congruence. }
        intros j a c Ha Hc.
        assert (Hi : i < length (spws step u)).
        { unfold spws. rewrite map_length, <- L2. apply nth_error_Some_lt in Hy. exact Hy. }
        assert (Hj : j < length (c_pols u)). { rewrite <- (R2 y) by (eapply nth_error_In; eassumption). apply nth_error_Some_lt in Hc. exact Hc. }
        destruct (nth_error_lt _ _ Hi) as [s Es]. destruct (nth_error_lt _ _ Hj) as [p Ep].
        destruct (Hs s p a) as (m & q & z & B1 & B2 & B3 & B4).
        { exists i, j, x. rewrite ES', A1, EP', A2. repeat split; assumption. }
        assert (m = i) by (apply (NoDup_nth_inj _ _ _ _ (wfc_s _ _ Wu) B1 Es)). assert (q = j) by (apply (NoDup_nth_inj _ _ _ _ (wfc_p _ _ Wu) B2 Ep)).
        subst m q. congruence.
      * intros b' Hb'. apply (sorted_hd_min blpt_leb); [exact blpt_order | exact SB | exact Hb'].
    + intro bl. apply new_bls_canon in Hbl. rewrite Hbl. apply vec_first_canon.
  - split; [exact SB|]. apply new_bls_canon in Hbl. rewrite Hbl, canon_idem. reflexivity.
Qed.

(** two normal objects with the contents of the same list are equal *)
Lemma inv_unique us r1 r2 : mergeable us -> us <> [] -> inv us r1 -> inv us r2 -> normal r1 -> normal r2 -> r1 = r2.
Proof.
  intros HM Hne I1 I2 [S1 C1] [S2 C2]. destruct us as [|u0 rest]; [congruence|]. set (us := u0 :: rest) in *.
  assert (U0 : In u0 us) by (left; reflexivity).
  destruct (iv_same _ _ I1 u0 U0) as [A1 [A2 [A3 A4]]]. destruct (iv_same _ _ I2 u0 U0) as [B1 [B2 [B3 B4]]].
  assert (EW : c_windows r1 = c_windows r2) by (rewrite (iv_win _ _ I1 u0 eq_refl), (iv_win _ _ I2 u0 eq_refl); reflexivity).
  destruct (iv_wf _ _ I1) as [W1 _]. destruct (iv_wf _ _ I2) as [W2 _].
  assert (EB : c_blpts r1 = c_blpts r2).
  { apply (sorted_unique blpt_leb (ord_anti _ blpt_order)); [exact S1 | exact S2 |].
    apply NoDup_Permutation; [apply W1 | apply W2 |]. intro b. rewrite (iv_b _ _ I1), (iv_b _ _ I2). tauto. }
  assert (EP : c_pols r1 = c_pols r2) by congruence.
  assert (ER : c_rows r1 = c_rows r2).
  { apply list_eq_nth; [rewrite (wfc_rows _ _ W1), (wfc_rows _ _ W2); congruence|]. intros i x y Hx Hy.
    assert (Hi : i < length (c_blpts r1)) by (rewrite <- (wfc_rows _ _ W1); apply nth_error_Some_lt in Hx; exact Hx).
    destruct (nth_error_lt _ _ Hi) as [b Eb].
    destruct (iv_row _ _ I1 b x) as [u [Hu [n [N1 N2]]]]; [exists i; split; assumption|].
    destruct (iv_row _ _ I2 b y) as [v [Hv [n' [N1' N2']]]]; [exists i; rewrite <- EB; split; assumption|].
    assert (u = v) by (apply (mg_disj _ HM u v b Hu Hv); eapply nth_error_In; eassumption). subst v.
    assert (n = n') by exact (NoDup_nth_inj _ _ _ _ (wfc_b _ _ (proj1 (mg_wf _ HM u Hu))) N1 N1'). congruence. }
  assert (EC : c_cells r1 = c_cells r2).
  { destruct (wfc_cells _ _ W1) as [L1 R1]. destruct (wfc_cells _ _ W2) as [L2 R2].
    apply list_eq_nth; [rewrite L1, L2; congruence|]. intros i x y Hx Hy.
    destruct (R1 x (nth_error_In _ _ Hx)) as [Lx Rx]. destruct (R2 y (nth_error_In _ _ Hy)) as [Ly Ry].
    apply list_eq_nth; [congruence|]. intros j c d Hc Hd. pose proof (Rx c (nth_error_In _ _ Hc)) as Lc. pose proof (Ry d (nth_error_In _ _ Hd)) as Ld.
    apply list_eq_nth; [congruence|]. intros k v w Hv Hw.
    assert (Hi : i < length (spws step r1)) by (unfold spws; rewrite map_length, <- L1; apply nth_error_Some_lt in Hx; exact Hx).
    assert (Hj : j < length (c_blpts r1)) by (rewrite <- Lx; apply nth_error_Some_lt in Hc; exact Hc).
    assert (Hk : k < length (c_pols r1)) by (rewrite <- Lc; apply nth_error_Some_lt in Hv; exact Hv).
    destruct (nth_error_lt _ _ Hi) as [s Es]. destruct (nth_error_lt _ _ Hj) as [b Eb]. destruct (nth_error_lt _ _ Hk) as [p Ep].
    destruct (iv_holds _ _ I1 s b p v) as [u [Hu Hh]]; [exists i, j, k, x, c; repeat split; assumption|].
    destruct (iv_holds _ _ I2 s b p w) as [u' [Hu' Hh']].
    { exists i, j, k, y, d. rewrite <- EB, <- EP. unfold spws in *. rewrite <- EW. repeat split; assumption. }
    destruct (holds_in step u s b p v Hh) as [_ [Ib _]]. destruct (holds_in step u' s b p w Hh') as [_ [Ib' _]].
    assert (u = u') by exact (mg_disj _ HM u u' b Hu Hu' Ib Ib'). subst u'. destruct (mg_wf _ HM u Hu) as [Wu _].
    destruct Hh as (m & n & q & rr & cc & H1 & H2 & H3 & H4 & H5 & H6). destruct Hh' as (m' & n' & q' & rr' & cc' & H1' & H2' & H3' & H4' & H5' & H6').
    assert (m = m') by exact (NoDup_nth_inj _ _ _ _ (wfc_s _ _ Wu) H1 H1').
    assert (n = n') by exact (NoDup_nth_inj _ _ _ _ (wfc_b _ _ Wu) H2 H2').
    assert (q = q') by exact (NoDup_nth_inj _ _ _ _ (wfc_p _ _ Wu) H3 H3'). congruence. }
  assert (ESc : c_scalar r1 = c_scalar r2).
  { destruct (iv_scal _ _ I1) as (u & b & Hu & E & Hb & Hm). destruct (iv_scal _ _ I2) as (u' & b' & Hu' & E' & Hb' & Hm').
    assert (b = b').
    { apply (ord_anti _ blpt_order); [apply Hm, (iv_b _ _ I1); eauto | apply Hm', (iv_b _ _ I2); eauto]. }
    subst b'. assert (u = u') by exact (mg_disj _ HM u u' b Hu Hu' Hb Hb'). congruence. }
  assert (EBl : c_bls r1 = c_bls r2).
  { rewrite C1, C2. apply canon_ext. intro bl. rewrite (iv_bls _ _ I1), (iv_bls _ _ I2). reflexivity. }
  destruct r1, r2; cbn in *; congruence.
Qed.

Lemma inv_leaf u : wfc step u /\ nonempty u -> inv [u] u.
Proof.
  intro W. split; try (intros; exists u; split; [left; reflexivity | assumption]).
  - exact W.
  - intros v [<-|[]]. repeat split.
  - intro b. split; [intro H; exists u; split; [left; reflexivity | exact H] | intros [v [[<-|[]] H]]; exact H].
  - intros v H. injection H as <-. reflexivity.
  - destruct (least_exists blpt_leb (c_blpts u) blpt_order) as [b [Hb Hm]]; [apply W|]. exists u, b. split; [left; reflexivity|]. auto.
  - intro bl. cbn. rewrite app_nil_r. reflexivity.
Qed.
Lemma inv_trans us1 us2 l r x : us1 <> [] -> us2 <> [] -> inv us1 l -> inv us2 r -> inv [l; r] x -> inv (us1 ++ us2) x.
Proof.
  intros N1 N2 I1 I2 I.
  assert (Hl : In l [l; r]) by (left; reflexivity). assert (Hr : In r [l; r]) by (right; left; reflexivity).
  destruct (iv_same _ _ I l Hl) as [A1 [A2 [A3 A4]]]. destruct (iv_same _ _ I r Hr) as [B1 [B2 [B3 B4]]].
  split.
  - apply I.
  - intros u Hu. apply in_app_or in Hu. destruct Hu as [Hu|Hu].
    + destruct (iv_same _ _ I1 u Hu) as [C1 [C2 [C3 C4]]]. repeat split; congruence.
    + destruct (iv_same _ _ I2 u Hu) as [C1 [C2 [C3 C4]]]. repeat split; congruence.
  - intro b. rewrite (iv_b _ _ I). split.
    + intros [w [Hw Hb]]. destruct Hw as [<-|[<-|[]]]; [apply (iv_b _ _ I1) in Hb | apply (iv_b _ _ I2) in Hb];
        destruct Hb as [u [Hu Hb]]; exists u; (split; [apply in_or_app; tauto | exact Hb]).
    + intros [u [Hu Hb]]. apply in_app_or in Hu. destruct Hu as [Hu|Hu].
      * exists l. split; [exact Hl|]. apply (iv_b _ _ I1). eauto.
      * exists r. split; [exact Hr|]. apply (iv_b _ _ I2). eauto.
  - intros s b p v H. apply (iv_holds _ _ I) in H. destruct H as [w [Hw Hb]].
    destruct Hw as [<-|[<-|[]]]; [apply (iv_holds _ _ I1) in Hb | apply (iv_holds _ _ I2) in Hb];
        destruct Hb as [u [Hu Hb]]; exists u; (split; [apply in_or_app; tauto | exact Hb]).
  - intros b v H. apply (iv_row _ _ I) in H. destruct H as [w [Hw Hb]].
    destruct Hw as [<-|[<-|[]]]; [apply (iv_row _ _ I1) in Hb | apply (iv_row _ _ I2) in Hb];
        destruct Hb as [u [Hu Hb]]; exists u; (split; [apply in_or_app; tauto | exact Hb]).
  - intros u0 H0. rewrite (iv_win _ _ I l eq_refl). apply (iv_win _ _ I1). destruct us1; [congruence | exact H0].
  - destruct (iv_scal _ _ I) as (w & b & Hw & E & Hb & Hm).
    assert (G : forall us, inv us w -> (forall u, In u us -> In u (us1 ++ us2)) ->
       exists u b, In u (us1 ++ us2) /\ c_scalar x = c_scalar u /\ In b (c_blpts u) /\ forall b', In b' (c_blpts x) -> blpt_leb b b' = true).
    { intros us Iw Hin. destruct (iv_scal _ _ Iw) as (u & b2 & Hu & E2 & Hb2 & Hm2).
      exists u, b2. split; [apply Hin, Hu|]. split; [congruence|]. split; [exact Hb2|].
      intros b' Hb'. apply (ord_trans _ blpt_order b2 b b'); [apply Hm2, Hb | apply Hm, Hb']. }
    destruct Hw as [<-|[<-|[]]]; [apply (G us1 I1) | apply (G us2 I2)]; intros; apply in_or_app; tauto.
  - intro bl. rewrite (iv_bls _ _ I). rewrite map_app, concat_app, vec_first_app. cbn [map concat]. rewrite app_nil_r, vec_first_app.
    rewrite (iv_bls _ _ I1), (iv_bls _ _ I2). reflexivity.
Qed.

Lemma mergeable_sub us us' : mergeable us -> NoDup us' -> (forall u, In u us' -> In u us) -> mergeable us'.
Proof.
  intros HM N H. split; intros; try exact N.
  - apply (mg_wf _ HM); auto.
  - apply (mg_sorted _ HM); auto.
  - apply (mg_same _ HM); auto.
  - apply (mg_pols _ HM); auto.
  - apply (mg_rp _ HM); auto.
  - apply (mg_scal _ HM); auto.
  - eapply (mg_disj _ HM); eauto.
Qed.
Lemma nodup_app_l {X} (a b : list X) : NoDup (a ++ b) -> NoDup a.
Proof. induction a as [|x a IH]; cbn; intro N; [constructor|]. apply NoDup_cons_iff in N. destruct N as [H N]. constructor; [intro G; apply H, in_or_app; tauto | auto]. Qed.
Lemma nodup_app_r {X} (a b : list X) : NoDup (a ++ b) -> NoDup b.
Proof. induction a as [|x a IH]; cbn; intro N; [exact N|]. apply NoDup_cons_iff in N. apply IH, N. Qed.
Lemma nodup_app_disj {X} (a b : list X) x : NoDup (a ++ b) -> In x a -> In x b -> False.
Proof.
  induction a as [|y a IH]; cbn; intros N H1 H2; [destruct H1|]. apply NoDup_cons_iff in N. destruct N as [H N].
  destruct H1 as [->|H1]; [apply H, in_or_app; tauto | eauto].
Qed.
Lemma leaves_ne {X} (t : tree X) : leaves t <> [].
Proof. induction t as [a|l IHl r IHr]; cbn; [discriminate|]. intro E. apply app_eq_nil in E. tauto. Qed.

Lemma mergeable_two us1 us2 l r : mergeable (us1 ++ us2) -> us1 <> [] -> us2 <> [] -> inv us1 l -> inv us2 r -> mergeable [l; r].
Proof.
  intros HM N1 N2 I1 I2.
  assert (Src : forall w, In w [l; r] -> exists us, us <> [] /\ (forall u, In u us -> In u (us1 ++ us2)) /\ inv us w).
  { intros w [<-|[<-|[]]]; [exists us1 | exists us2]; (split; [assumption|]; split; [|assumption]); intros; apply in_or_app; tauto. }
  assert (One : forall w, In w [l; r] -> exists u, In u (us1 ++ us2) /\ spws step w = spws step u /\ c_pols w = c_pols u /\ c_static w = c_static u /\ c_rparams w = c_rparams u).
  { intros w Hw. destruct (Src w Hw) as [us [Ne [Hin Iw]]]. destruct us as [|u us]; [congruence|]. exists u. split; [apply Hin; left; reflexivity|].
    apply (iv_same _ _ Iw). left; reflexivity. }
  assert (Dj : forall b, In b (c_blpts l) -> In b (c_blpts r) -> False).
  { intros b H1 H2. apply (iv_b _ _ I1) in H1. apply (iv_b _ _ I2) in H2. destruct H1 as [u [Hu H1]]. destruct H2 as [v [Hv H2]].
    assert (u = v) by (apply (mg_disj _ HM u v b); [apply in_or_app; tauto | apply in_or_app; tauto | exact H1 | exact H2]). subst v.
    exact (nodup_app_disj _ _ u (mg_nodup _ HM) Hu Hv). }
  split.
  - intros w [<-|[<-|[]]]; [apply (iv_wf _ _ I1) | apply (iv_wf _ _ I2)].
  - intros w Hw. destruct (One w Hw) as [u [Hu [E _]]]. unfold windows_sorted. rewrite E. apply (mg_sorted _ HM u Hu).
  - intros w v Hw Hv. destruct (One w Hw) as [u [Hu [E1 [E2 [E3 E4]]]]]. destruct (One v Hv) as [u' [Hu' [F1 [F2 [F3 F4]]]]].
    destruct (mg_same _ HM u u' Hu Hu') as [G1 [G2 [G3 G4]]]. repeat split; congruence.
  - intros w Hw. destruct (One w Hw) as [u [Hu [_ [E _]]]]. rewrite E. apply (mg_pols _ HM u Hu).
  - intros w Hw. destruct (One w Hw) as [u [Hu [_ [_ [_ E]]]]]. rewrite E. apply (mg_rp _ HM u Hu).
  - intros w v Hw Hv.
    assert (SS : forall w, In w [l; r] -> exists u, In u (us1 ++ us2) /\ c_scalar w = c_scalar u).
    { intros z Hz. destruct (Src z Hz) as [us [_ [Hin Iz]]]. destruct (iv_scal _ _ Iz) as (u & b & Hu & E & _). exists u. split; [apply Hin, Hu | exact E]. }
    destruct (SS w Hw) as [u [Hu ->]]. destruct (SS v Hv) as [u' [Hu' ->]]. apply (mg_scal _ HM); assumption.
  - constructor; [|constructor; [intros [] | constructor]]. intros [E|[]]. subst r. destruct (iv_wf _ _ I1) as [_ [_ [Nb _]]].
    destruct (c_blpts l) as [|b k] eqn:Eb; [congruence|]. apply (Dj b); left; reflexivity.
  - intros w v b Hw Hv Hb Hb'. destruct Hw as [<-|[<-|[]]], Hv as [<-|[<-|[]]]; try reflexivity; exfalso; eauto.
Qed.

Lemma merge_tree (t : tree obj) : mergeable (leaves t) ->
  exists r, eval (combine2 isclose round8 step) t = Ok r /\ inv (leaves t) r /\ (nodes t <> 0 -> normal r).
Proof.
  induction t as [a|tl IHl tr IHr]; intro HM.
  - exists a. split; [reflexivity|]. split; [apply inv_leaf, (mg_wf _ HM); left; reflexivity | intro C; exfalso; apply C; reflexivity].
  - cbn [leaves] in HM.
    destruct IHl as [l [El [Il _]]]. { apply (mergeable_sub _ _ HM); [eapply nodup_app_l, (mg_nodup _ HM) | intros; apply in_or_app; tauto]. }
    destruct IHr as [r [Er [Ir _]]]. { apply (mergeable_sub _ _ HM); [eapply nodup_app_r, (mg_nodup _ HM) | intros; apply in_or_app; tauto]. }
    destruct (merge_flat [l; r]) as [x [Ex [Ix Nx]]].
    { exact (mergeable_two _ _ l r HM (leaves_ne tl) (leaves_ne tr) Il Ir). } { cbn; lia. }
    exists x. cbn [eval leaves]. rewrite El, Er. cbn [bind]. split; [exact Ex|]. split; [|intros _; exact Nx].
    exact (inv_trans _ _ l r x (leaves_ne tl) (leaves_ne tr) Il Ir Ix).
Qed.

(** every tree of merges gives the object of the single call *)
Theorem tree_is_flat (t : tree obj) : mergeable (leaves t) ->
  exists r, eval (combine2 isclose round8 step) t = Ok r /\ cmb (leaves t) = Ok r.
Proof.
  intro HM. destruct t as [a|tl tr] eqn:Et.
  - exists a. split; reflexivity.
  - rewrite <- Et in *. destruct (merge_tree t HM) as [r [Er [Ir Nr]]]. exists r. split; [exact Er|].
    assert (N : nodes t <> 0) by (rewrite Et; cbn; lia). specialize (Nr N).
    destruct (merge_flat (leaves t) HM) as [r' [Er' [Ir' Nr']]]; [pose proof (nodes_leaves t); lia|].
    rewrite Er'. f_equal. exact (inv_unique _ r' r HM (leaves_ne t) Ir' Ir Nr' Nr).
Qed.
Theorem recursive_is_flat us : us <> [] -> mergeable us ->
  exists r, recursive_combine (combine2 isclose round8 step) us = Ok r /\ cmb us = Ok r.
Proof.
  intros Hne HM. destruct (recursive_tree (combine2 isclose round8 step) us Hne) as [t [L [_ E]]]. rewrite E. rewrite <- L in *. apply tree_is_flat, HM.
Qed.
Theorem batches_are_flat size us : us <> [] -> size <> Some 0 -> mergeable us ->
  exists r, merge_files (combine2 isclose round8 step) size us = Ok (Some r) /\ cmb us = Ok r.
Proof.
  intros Hne Hs HM. destruct (merge_files_tree (combine2 isclose round8 step) size us Hne Hs) as [t [L E]]. rewrite E. rewrite <- L in *.
  destruct (tree_is_flat t HM) as [r [E1 E2]]. exists r. rewrite E1. split; [reflexivity | exact E2].
Qed.
End Merge.
