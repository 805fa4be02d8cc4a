From Coq Require Import QArith Qabs Sorted Permutation.
From Verif Require Import PyDict.
From Verif Require Import Prelude ListLemmas UvpModel UvpSpec UvpProofs SelectProofs SelectMain.
Open Scope nat_scope.

Section S.
Context {X : Type}.
Notation uvp := (uvp X).

Lemma or_mask1 arr v i : nth_error (or_maskZ arr [v]) i = Some true <-> nth_error arr i = Some v.
Proof.
  rewrite or_maskZ_nth. destruct (nth_error arr i) as [x|]; cbn; [|split; discriminate].
  rewrite orb_false_r. split; intros H.
  - injection H as H. apply Z.eqb_eq in H. congruence.
  - injection H as ->. rewrite Z.eqb_refl. reflexivity.
Qed.

Lemma where1_NoDup arr v k : NoDup arr -> nth_error arr k = Some v -> where_ (or_maskZ arr [v]) = [k].
Proof.
  intros N H. apply sorted_ext.
  - apply where_sorted.
  - repeat constructor.
  - intros x. rewrite where_spec, or_mask1. cbn. split.
    + intros E. left. rewrite NoDup_nth_error in N. apply N; [apply nth_error_Some|]; congruence.
    + intros [<-|[]]. exact H.
Qed.

Lemma map_res_nth {A} (l : list (list A)) k r :
  map_res (fun r => match nth_error r k with Some x => Ok x | None => Err IndexError end) l = Ok r <->
  Forall2 (fun row x => nth_error row k = Some x) l r.
Proof.
  rewrite map_res_spec. split; intros H.
  - eapply Forall2_impl_in; [|exact H]. intros x y _. cbn. destruct (nth_error x k); congruence.
  - eapply Forall2_impl_in; [|exact H]. intros x y _. cbn. destruct (nth_error x k); congruence.
Qed.

(** what a key lookup in the dictionary [d] should return *)
Definition lookup_spec (u : uvp) (d : list (nat * arr X)) (s : nat) (b p : Z) (rows : list (list X)) : Prop :=
  exists k a idx, nth_error (u_polpair_array u) k = Some p /\ dget Nat.eq_dec d s = Some a /\
    StronglySorted lt idx /\ (forall i, In i idx <-> nth_error (u_blpair_array u) i = Some b) /\
    Forall2 (fun i x => exists r, nth_error a i = Some r /\ nth_error r k = Some x) idx rows.

Definition known_key (u : uvp) (s : nat) (b p : Z) : Prop :=
  In s (u_spw_freq_array u) /\ In s (u_spw_dly_array u) /\ In b (u_blpair_array u) /\ In p (u_polpair_array u).

Lemma Forall2_compose_nth {A} (a : list (list A)) k idx rows out :
  picks idx a rows -> Forall2 (fun row x => nth_error row k = Some x) rows out ->
  Forall2 (fun i x => exists r, nth_error a i = Some r /\ nth_error r k = Some x) idx out.
Proof.
  intros H; revert out; induction H as [|i r idx rows Hi H IH]; intros out F; inversion F; subst; constructor; eauto.
Qed.

Lemma key_to_indices_ok (u : uvp) s b p k : NoDup (u_polpair_array u) -> known_key u s b p ->
  nth_error (u_polpair_array u) k = Some p ->
  key_to_indices u s b p = Ok (s, where_ (or_maskZ (u_blpair_array u) [b]), k).
Proof.
  intros N [H1 [H2 [H3 H4]]] Hk. unfold key_to_indices, polpair_to_indices, blpair_to_indices.
  apply memN_In in H1, H2. apply memZ_In in H3, H4. rewrite H1, H2, H3, H4. cbn [require andb bind].
  rewrite (where1_NoDup _ _ _ N Hk). reflexivity.
Qed.

Theorem get_array_correct (u : uvp) (f : uvp -> list (nat * arr X)) s b p :
  wf u -> NoDup (u_polpair_array u) -> In (f u) (dicts u) -> known_key u s b p ->
  exists rows, get_array f u s b p = Ok rows /\ lookup_spec u (f u) s b p rows.
Proof.
  intros W N Hf K. destruct (In_nth_error _ _ (proj2 (proj2 (proj2 K)))) as [k Hk].
  unfold get_array. rewrite (key_to_indices_ok u s b p k N K Hk). cbn [bind].
  destruct (wf_dicts u W _ Hf s) as [a [Ea [La Lr]]]; [apply (wf_freq_in u W), K|].
  unfold lookup_arr, aget. rewrite Ea. cbn [bind]. unfold take_rows_pol.
  set (idx := where_ (or_maskZ (u_blpair_array u) [b])).
  destruct (gather_total a idx) as [rows Hr].
  { eapply Forall_impl; [|apply where_range]. cbn. intros i. unfold or_maskZ. rewrite map_length, La. auto. }
  rewrite Hr. cbn [bind]. apply gather_spec in Hr.
  destruct (map_res_total (fun r => match nth_error r k with Some x => Ok x | None => Err IndexError end) rows) as [out Ho].
  { apply Forall_forall. intros r Hin. apply (picks_In _ _ _ _ Hr) in Hin. destruct Hin as [i [_ Ei]].
    assert (L : length r = length (u_polpair_array u)) by (apply Lr; eapply nth_error_In; exact Ei).
    destruct (nth_error r k) as [x|] eqn:E; [eauto|]. apply nth_error_None in E.
    assert (k < length (u_polpair_array u)) by (apply nth_error_Some; congruence). lia. }
  rewrite Ho. exists out. split; [reflexivity|]. exists k, a, idx.
  split; [exact Hk|]. split; [exact Ea|]. split; [apply where_sorted|]. split.
  - intros i. unfold idx. rewrite where_spec. apply or_mask1.
  - apply map_res_nth in Ho. eapply Forall2_compose_nth; eassumption.
Qed.

Theorem get_array_unknown (u : uvp) (f : uvp -> list (nat * arr X)) s b p :
  ~ known_key u s b p -> get_array f u s b p = Err AssertionError.
Proof.
  intros K. unfold get_array, key_to_indices.
  destruct (memN s (u_spw_freq_array u)) eqn:E1; [|reflexivity].
  destruct (memN s (u_spw_dly_array u)) eqn:E2; [|reflexivity].
  destruct (memZ b (u_blpair_array u)) eqn:E3; [|reflexivity].
  destruct (memZ p (u_polpair_array u)) eqn:E4; [|reflexivity].
  exfalso. apply K. split; [apply memN_In; exact E1|]. split; [apply memN_In; exact E2|].
  split; apply memZ_In; assumption.
Qed.

(** two lookups described by [lookup_spec] are equal *)
Lemma lookup_spec_fun (u : uvp) d s b p r1 r2 : NoDup (u_polpair_array u) ->
  lookup_spec u d s b p r1 -> lookup_spec u d s b p r2 -> r1 = r2.
Proof.
  intros N [k1 [a1 [i1 [K1 [A1 [S1 [I1 F1]]]]]]] [k2 [a2 [i2 [K2 [A2 [S2 [I2 F2]]]]]]].
  assert (k1 = k2).
  { rewrite NoDup_nth_error in N. apply N; [apply nth_error_Some|]; congruence. }
  assert (i1 = i2) by (apply sorted_ext; auto; intros x; rewrite I1, I2; tauto).
  subst k2 i2. rewrite A1 in A2. injection A2 as <-. clear -F1 F2.
  revert r2 F2; induction F1 as [|i x idx r Hx F IH]; intros r2 F2; inversion F2 as [|? y ? r2' Hy F2']; subst; [reflexivity|].
  destruct Hx as [q [Q1 Q2]], Hy as [q' [Q1' Q2']]. rewrite Q1 in Q1'. injection Q1' as <-.
  rewrite Q2 in Q2'. injection Q2' as <-. f_equal. apply IH; exact F2'.
Qed.

(** * get_all_keys *)
Lemma ordered_unique_spec seen l : (forall x, In x (ordered_unique seen l) <-> In x l /\ ~ In x seen) /\
  NoDup (ordered_unique seen l).
Proof.
  revert seen; induction l as [|a l IH]; intros seen; cbn [ordered_unique].
  - split; [cbn; tauto | constructor].
  - destruct (memZ a seen) eqn:E.
    + destruct (IH seen) as [I N]. split; [|exact N]. intros x. rewrite I. cbn.
      apply memZ_In in E. split; [tauto|]. intros [[<-|H] H']; tauto.
    + destruct (IH (a :: seen)) as [I N]. assert (Na : ~ In a seen) by (intros C; apply memZ_In in C; congruence).
      split.
      * intros x. cbn [In]. rewrite I. cbn [In]. split.
        -- intros [<-|[H1 H2]]; tauto.
        -- intros [[<-|H1] H2]; [tauto|]. destruct (Z.eq_dec a x); [tauto | right; tauto].
      * constructor; [|exact N]. rewrite I. cbn. tauto.
Qed.

Lemma NoDup_app {A} (l1 l2 : list A) : NoDup l1 -> NoDup l2 -> (forall x, In x l1 -> In x l2 -> False) -> NoDup (l1 ++ l2).
Proof.
  intros N1 N2 D. induction N1 as [|x l1 Hx N1 IH]; cbn; [exact N2|]. constructor.
  - rewrite in_app_iff. intros [C|C]; [contradiction|]. apply (D x); [left; reflexivity | exact C].
  - apply IH. intros y H1 H2. apply (D y); [right; exact H1 | exact H2].
Qed.

Lemma NoDup_flat_map {A B} (f : A -> list B) l : NoDup l -> (forall a, In a l -> NoDup (f a)) ->
  (forall a b x, In a l -> In b l -> In x (f a) -> In x (f b) -> a = b) -> NoDup (flat_map f l).
Proof.
  intros N. induction N as [|a l Ha N IH]; intros H1 H2; cbn; [constructor|].
  apply NoDup_app.
  - apply H1; left; reflexivity.
  - apply IH; intros; [apply H1; right; assumption | eapply H2; [right|right| |]; eassumption].
  - intros x Hx Hx'. apply in_flat_map in Hx'. destruct Hx' as [b [Hb Hxb]].
    assert (a = b) by (eapply H2; [left; reflexivity | right; exact Hb | exact Hx | exact Hxb]). subst b. contradiction.
Qed.

Theorem get_all_keys_correct (u : uvp) : NoDup (u_polpair_array u) ->
  NoDup (get_all_keys u) /\
  forall s b p, In (s, b, p) (get_all_keys u) <-> s < u_Nspws u /\ In b (u_blpair_array u) /\ In p (u_polpair_array u).
Proof.
  intros N. unfold get_all_keys. destruct (ordered_unique_spec [] (u_blpair_array u)) as [I ND]. split.
  - apply NoDup_flat_map.
    + apply seq_NoDup.
    + intros s _. apply NoDup_flat_map; [exact N| |].
      * intros p _. apply NoDup_map_in; [|exact ND]. intros x y _ _ E. congruence.
      * intros p q x _ _ Hp Hq. apply in_map_iff in Hp, Hq. destruct Hp as [b [<- _]], Hq as [b' [E _]]. congruence.
    + intros s s' x _ _ H H'. apply in_flat_map in H, H'. destruct H as [p [_ H]], H' as [p' [_ H']].
      apply in_map_iff in H, H'. destruct H as [b [<- _]], H' as [b' [E _]]. congruence.
  - intros s b p. rewrite in_flat_map. split.
    + intros [s' [Hs H]]. apply in_flat_map in H. destruct H as [p' [Hp H]]. apply in_map_iff in H.
      destruct H as [b' [E Hb]]. injection E as -> -> ->. apply in_seq in Hs. apply I in Hb. cbn in Hb. cbn in Hs.
      repeat split; [lia | tauto | tauto].
    + intros [Hs [Hb Hp]]. exists s. split; [apply in_seq; lia|]. apply in_flat_map. exists p. split; [exact Hp|].
      apply in_map_iff. exists b. split; [reflexivity|]. apply I. cbn; tauto.
Qed.

(** * a lookup after a selection gives the selected rows of the lookup before *)
Lemma dict_selected_lookup (u u' : uvp) a R P d d' w b p rows' :
  wf u -> NoDup (u_polpair_array u) -> select_spec u a u' R P ->
  dict_selected (spw_kept u a) R P d d' -> In w (spw_kept u a) ->
  lookup_spec u' d' (rank (spw_kept u a) w) b p rows' ->
  exists k ar idx, nth_error (u_polpair_array u) k = Some p /\ dget Nat.eq_dec d w = Some ar /\
    StronglySorted lt idx /\
    (forall i, In i idx <-> nth_error (u_blpair_array u) i = Some b /\ row_wanted u a i) /\
    Forall2 (fun i x => exists r, nth_error ar i = Some r /\ nth_error r k = Some x) idx rows'.
Proof.
  intros W N S [D _] Hw [k' [a' [idx' [Ek [Ea [Si [Ii F]]]]]]].
  destruct (D w Hw) as [ar [ar' [E1 [E2 [rws [G1 G2]]]]]].
  rewrite E2 in Ea. injection Ea as ->.
  apply gather_spec in G1.
  pose proof (sp_pols _ _ _ _ _ S) as HP. pose proof (rp_bp _ _ _ (sp_rows _ _ _ _ _ S)) as HR.
  (* the column *)
  assert (Lk : k' < length P).
  { rewrite <- (picks_length _ _ _ HP). apply nth_error_Some. congruence. }
  destruct (nth_error P k') as [k|] eqn:Ekk; [|apply nth_error_None in Ekk; lia].
  exists k, ar, (map (fun j => nth j R 0) idx').
  assert (Hj : forall j, In j idx' -> j < length R).
  { intros j Hj. rewrite <- (picks_length _ _ _ HR). apply nth_error_Some. rewrite (proj1 (Ii j) Hj). discriminate. }
  assert (Hnth : forall j, j < length R -> nth_error R j = Some (nth j R 0)).
  { intros j Hj'. apply nth_error_nth'. exact Hj'. }
  split; [rewrite <- (picks_nth _ _ _ _ _ HP Ekk); exact Ek|]. split; [exact E1|]. split.
  { (* sorted *)
    assert (Mono : forall i j, i < j -> j < length R -> nth i R 0 < nth j R 0).
    { intros i j Hij HjR. pose proof (sp_R_sorted _ _ _ _ _ S) as SR. clear -SR Hij HjR.
      revert i j Hij HjR. induction SR as [|x R SR IH FR]; intros i j Hij HjR; [cbn in HjR; lia|].
      destruct i as [|i], j as [|j]; try lia.
      - cbn. rewrite Forall_forall in FR. apply FR. apply nth_In. cbn in HjR. lia.
      - cbn. apply IH; cbn in HjR; lia. }
    clear -Si Mono Hj. induction Si as [|j idx' Si IH F]; cbn; constructor.
    - apply IH. intros; apply Hj; right; assumption.
    - apply Forall_forall. intros x Hx. apply in_map_iff in Hx. destruct Hx as [j' [<- Hj']].
      apply Mono; [rewrite Forall_forall in F; apply F; exact Hj' | apply Hj; right; exact Hj']. }
  split.
  { intros i. rewrite in_map_iff. split.
    - intros [j [<- Hjj]]. pose proof (Hnth j (Hj j Hjj)) as Ej. split.
      + rewrite <- (picks_nth _ _ _ _ _ HR Ej). apply Ii; exact Hjj.
      + apply (sp_R _ _ _ _ _ S). eapply nth_error_In; exact Ej.
    - intros [Hb Hwi]. assert (Hi : In i R).
      { apply (sp_R _ _ _ _ _ S). split; [apply nth_error_Some; congruence | exact Hwi]. }
      apply In_nth_error in Hi. destruct Hi as [j Ej]. exists j. split.
      + apply nth_error_nth with (d := 0) in Ej. exact Ej.
      + apply Ii. rewrite (picks_nth _ _ _ _ _ HR Ej). exact Hb. }
  { clear Si Ii. induction F as [|j x idx' rows' [r [Hr Hx]] F IH]; cbn; constructor.
    - pose proof (Hnth j (Hj j (or_introl eq_refl))) as Ej.
      assert (Q : exists r0, nth_error rws j = Some r0 /\ gather r0 P = Ok r).
      { clear -G2 Hr. revert j Hr. induction G2 as [|q q' l l' Hq G2 IH]; intros j Hr; [destruct j; discriminate|].
        destruct j; cbn in *; [injection Hr as ->; eauto | apply IH; exact Hr]. }
      destruct Q as [r0 [Q1 Q2]]. exists r0. split.
      + rewrite <- (picks_nth _ _ _ _ _ G1 Ej). exact Q1.
      + apply gather_spec in Q2. rewrite <- (picks_nth _ _ _ _ _ Q2 Ekk). exact Hx.
    - apply IH. intros; apply Hj; right; assumption. }
Qed.
End S.
