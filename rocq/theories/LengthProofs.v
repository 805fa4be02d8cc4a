From Coq Require Import QArith Qabs Sorted Permutation Lqa.
From Verif Require Import PyDict.
From Verif Require Import Prelude ListLemmas UvpModel UvpSpec UvpProofs SelectProofs SelectMain KeyProofs FoldModel FoldProofs.
Open Scope nat_scope.

Lemma filter_none {A} (f : A -> bool) l : (forall x, In x l -> f x = false) -> filter f l = [].
Proof.
  induction l as [|x l IH]; intros H; cbn; [reflexivity|]. rewrite (H x (or_introl eq_refl)).
  apply IH. intros; apply H; right; assumption.
Qed.

Section S.
Context {X : Type}.
Notation uvp := (uvp X).

Lemma window_dlys_len (u : uvp) s : wf u ->
  length (window_dlys u s) = length (filter (Nat.eqb s) (u_spw_dly_array u)).
Proof.
  intros W. unfold window_dlys. rewrite map_length. pose proof (wf_dly u W) as L. revert L.
  generalize (u_spw_dly_array u) (u_dly_array u). induction l as [|x l IH]; intros [|y q] L; cbn in *; auto; try discriminate.
  destruct (Nat.eqb s x); cbn; rewrite IH; lia.
Qed.

Lemma get_dlys_spec (u : uvp) s : wf u -> In s (u_spw_dly_array u) ->
  get_dlys u s = Ok (if u_folded u then filter dly_positive (window_dlys u s) else window_dlys u s).
Proof.
  intros W H. unfold get_dlys, spw_to_dly_indices. cbn [forallb].
  rewrite (proj2 (memN_In _ _) H). cbn [andb require bind].
  assert (E1 : or_maskN (u_spw_dly_array u) [s] =
               map (fun p => Nat.eqb s (fst p)) (combine (u_spw_dly_array u) (u_dly_array u))).
  { rewrite (map_combine_fst (Nat.eqb s)) by (symmetry; apply (wf_dly u W)).
    unfold or_maskN. apply map_ext. intros x. unfold memN. cbn [existsb]. rewrite orb_false_r. apply Nat.eqb_sym. }
  rewrite E1. pose proof (eq_sym (wf_dly u W)) as L. destruct (u_folded u).
  - rewrite map2_combine.
    assert (E2 : map (fun p : bool * Q => fst p && dly_positive (snd p))
               (combine (map (fun p => Nat.eqb s (fst p)) (combine (u_spw_dly_array u) (u_dly_array u))) (u_dly_array u)) =
             map (fun p => Nat.eqb s (fst p) && dly_positive (snd p)) (combine (u_spw_dly_array u) (u_dly_array u))).
    { clear E1. revert L. generalize (u_spw_dly_array u) (u_dly_array u).
      induction l as [|x l IH]; intros [|y q] L; cbn in *; auto; try discriminate. f_equal. apply IH. lia. }
    rewrite E2, gather_mask by (rewrite map_length, combine_length; lia). f_equal.
    rewrite mask_snd by exact L. unfold window_dlys. clear.
    induction (combine (u_spw_dly_array u) (u_dly_array u)) as [|[x y] l IH]; cbn; [reflexivity|].
    destruct (Nat.eqb s x); cbn; [destruct (dly_positive y); cbn; rewrite IH; reflexivity | exact IH].
  - rewrite gather_mask by (rewrite map_length, combine_length; lia). f_equal.
    rewrite mask_snd by exact L. reflexivity.
Qed.

Lemma positive_count (l : list Q) (step : Q) : (1 # 10000000000 <= step)%Q ->
  (forall j d, nth_error l j = Some d ->
      (d == (inject_Z (Z.of_nat j) - inject_Z (Z.of_nat (length l / 2))) * step)%Q) ->
  length (filter dly_positive l) = length l - length l / 2 - 1.
Proof.
  intros Hs G. set (z := length l / 2) in *.
  rewrite <- (firstn_skipn (z + 1) l), filter_app, app_length.
  rewrite (filter_none dly_positive (firstn (z + 1) l)).
  - rewrite filter_all.
    + rewrite skipn_length, firstn_skipn. cbn. lia.
    + intros d Hd. apply In_nth_error in Hd. destruct Hd as [j Hj]. rewrite nth_error_skipn in Hj.
      specialize (G _ _ Hj). unfold dly_positive. apply Qle_bool_iff. rewrite G. clear G.
      replace (z + 1 + j) with (z + (1 + j)) by lia. rewrite Nat2Z.inj_add, inject_Z_plus.
      assert (P : (1 <= inject_Z (Z.of_nat (1 + j)))%Q) by (unfold Qle; cbn; lia).
      nra.
  - intros d Hd. apply In_nth_error in Hd. destruct Hd as [j Hj].
    assert (Lj : j < z + 1).
    { assert (j < length (firstn (z + 1) l)) by (apply nth_error_Some; congruence). rewrite firstn_length in H. lia. }
    assert (Hj' : nth_error l j = Some d).
    { rewrite <- (firstn_skipn (z + 1) l). rewrite nth_error_app1 by (apply nth_error_Some; congruence). exact Hj. }
    specialize (G _ _ Hj'). unfold dly_positive. destruct (Qle_bool (1 # 10000000000) d) eqn:E; [|reflexivity].
    apply Qle_bool_iff in E. rewrite G in E. exfalso.
    assert (P : (inject_Z (Z.of_nat j) <= inject_Z (Z.of_nat z))%Q) by (rewrite <- Zle_Qle; lia).
    nra.
Qed.

(** * lookups of data *)
Lemma get_data_widths (u : uvp) s b p rows : wf u -> widths u -> NoDup (u_polpair_array u) ->
  get_data u s b p = Ok rows ->
  In s (u_spw_dly_array u) /\
  forall x, In x rows -> length x =
    if u_folded u then match length (window_dlys u s) - length (window_dlys u s) / 2 - 1 with
                       | O => length (window_dlys u s) | k => k end
    else length (window_dlys u s).
Proof.
  intros W Wd N H. unfold get_data in H. apply bind_ok in H. destruct H as [rows0 [H0 H]].
  assert (K : known_key u s b p).
  { destruct (memN s (u_spw_freq_array u)) eqn:E1; [destruct (memN s (u_spw_dly_array u)) eqn:E2|].
    - unfold get_array, key_to_indices in H0. rewrite E1, E2 in H0. cbn [andb require] in H0.
      destruct (memZ b (u_blpair_array u)) eqn:E3; [|discriminate].
      destruct (memZ p (u_polpair_array u)) eqn:E4; [|discriminate].
      split; [apply memN_In; exact E1|]. split; [apply memN_In; exact E2|]. split; apply memZ_In; assumption.
    - unfold get_array, key_to_indices in H0. rewrite E1, E2 in H0. discriminate.
    - unfold get_array, key_to_indices in H0. rewrite E1 in H0. discriminate. }
  destruct (get_array_correct u u_data s b p W N) as [rows1 [E1 L1]]; [unfold dicts; cbn; auto | exact K |].
  rewrite H0 in E1. injection E1 as <-.
  assert (Len : forall x, In x rows0 -> length x = length (window_dlys u s)).
  { destruct L1 as [k [a [idx [Ek [Ea [_ [_ F]]]]]]]. intros x Hx.
    assert (FF : Forall (fun x => exists r, In r a /\ In x r) rows0).
    { eapply Forall2_Forall_r; [exact F|]. intros i y _ [r [R1 R2]]. exists r.
      split; eapply nth_error_In; eassumption. }
    rewrite Forall_forall in FF. destruct (FF x Hx) as [r [R1 R2]].
    eapply Wd; [|exact Ea|exact R1|exact R2]. apply (wf_freq_in u W), K. }
  split; [apply K|].
  destruct (u_folded u).
  - match type of H with Ok ?l = Ok _ => assert (Hr : rows = l) by congruence end. subst rows.
    intros x Hx. apply in_map_iff in Hx. destruct Hx as [y [<- Hy]].
    rewrite <- (window_dlys_len u s W). set (n := length (window_dlys u s)).
    unfold from_neg. destruct (n - n / 2 - 1) as [|k] eqn:E; [apply Len; exact Hy|].
    rewrite skipn_length, (Len y Hy). fold n. lia.
  - injection H as <-. exact Len.
Qed.

Theorem lengths_agree (u : uvp) s b p rows : wf u -> widths u -> NoDup (u_polpair_array u) ->
  (u_folded u = true -> fft_delays u /\ forall s, In s (u_spw_array u) -> 3 <= length (window_dlys u s)) ->
  get_data u s b p = Ok rows ->
  exists ds, get_dlys u s = Ok ds /\ forall x, In x rows -> length x = length ds.
Proof.
  intros W Wd N Hf H. destruct (get_data_widths u s b p rows W Wd N H) as [Hs L].
  rewrite (get_dlys_spec u s W Hs). eexists; split; [reflexivity|]. intros x Hx. rewrite (L x Hx).
  destruct (u_folded u); [|reflexivity]. destruct (Hf eq_refl) as [G T].
  pose proof (wf_dly_in u W s Hs) as Hin. destruct (G s Hin) as [step [S1 S2]].
  rewrite (positive_count _ step S1 S2). specialize (T s Hin).
  destruct (length (window_dlys u s) - length (window_dlys u s) / 2 - 1) as [|k] eqn:E; [|reflexivity].
  exfalso. pose proof (halves (length (window_dlys u s))). lia.
Qed.

(** * selection *)
Lemma window_dlys_select (u u' : uvp) a R P w : wf u -> select_spec u a u' R P ->
  u_folded u = false \/ a_spws a = None -> In w (spw_kept u a) ->
  window_dlys u' (rank (spw_kept u a) w) = window_dlys u w.
Proof.
  intros W S Hc Hw. unfold window_dlys. rewrite (sp_dly _ _ _ _ _ S).
  set (kept := spw_kept u a) in *.
  assert (Ew : spw_wanted a w = true) by (apply filter_In in Hw; tauto).
  assert (I : forall p, In p (combine (u_spw_dly_array u) (u_dly_array u)) -> In (fst p) (u_spw_array u)).
  { intros [x y] H. apply in_combine_l in H. apply (wf_dly_in u W). exact H. }
  revert I. induction (combine (u_spw_dly_array u) (u_dly_array u)) as [|[x y] l IH]; intros I; cbn; [reflexivity|].
  assert (Ec : negb (u_folded u) || dly_positive y || match a_spws a with Some _ => false | None => true end = true).
  { destruct Hc as [-> | ->]; [reflexivity | apply orb_true_r]. }
  rewrite Ec, andb_true_r. specialize (IH (fun p H => I p (or_intror H))).
  destruct (spw_wanted a x) eqn:Ex.
  - assert (Hx : In x kept) by (apply filter_In; split; [apply (I (x, y)); left; reflexivity | exact Ex]).
    cbn. destruct (Nat.eqb_spec w x) as [->|Nx].
    + rewrite Nat.eqb_refl. cbn. f_equal. exact IH.
    + destruct (Nat.eqb_spec (rank kept w) (rank kept x)) as [E|E]; [|exact IH].
      exfalso. apply Nx. apply (rank_inj kept); assumption.
  - destruct (Nat.eqb_spec w x) as [->|Nx]; [congruence|]. exact IH.
Qed.

Theorem select_widths (u u' : uvp) a : wf u -> widths u -> u_folded u = false \/ a_spws a = None ->
  select u a = Ok u' -> widths u'.
Proof.
  intros W Wd Hc H. destruct (select_correct u a u' W H) as [R [P S]].
  intros s ar r c Hs E Hr Hcc. rewrite (sp_arr _ _ _ _ _ S) in Hs. apply in_map_iff in Hs.
  destruct Hs as [w [<- Hw]]. rewrite (window_dlys_select u u' a R P w W S Hc Hw).
  pose proof (sp_dicts _ _ _ _ _ S) as D. unfold dicts in D. inversion D as [|? ? ? ? D0 _]; subst.
  destruct D0 as [D0 _]. destruct (D0 w Hw) as [ar0 [ar1 [E0 [E1 [rows [G1 G2]]]]]].
  rewrite E in E1. injection E1 as <-.
  assert (F : Forall (fun r' => exists r0, In r0 ar0 /\ forall c, In c r' -> In c r0) ar).
  { eapply Forall2_Forall_r; [exact G2|]. intros r0 r1 H0 H1. apply gather_spec in G1, H1. exists r0. split.
    - apply (picks_In _ _ _ _ G1) in H0. destruct H0 as [i [_ Ei]]. eapply nth_error_In; exact Ei.
    - intros q Hq. apply (picks_In _ _ _ _ H1) in Hq. destruct Hq as [i [_ Ei]]. eapply nth_error_In; exact Ei. }
  rewrite Forall_forall in F. destruct (F r Hr) as [r0 [I1 I2]].
  eapply Wd; [|exact E0|exact I1|exact (I2 c Hcc)]. apply filter_In in Hw. tauto.
Qed.

Lemma select_fft (u u' : uvp) a : wf u -> fft_delays u -> u_folded u = false \/ a_spws a = None ->
  select u a = Ok u' -> fft_delays u'.
Proof.
  intros W G Hc H. destruct (select_correct u a u' W H) as [R [P S]].
  intros s Hs. rewrite (sp_arr _ _ _ _ _ S) in Hs. apply in_map_iff in Hs.
  destruct Hs as [w [<- Hw]]. rewrite (window_dlys_select u u' a R P w W S Hc Hw).
  apply G. apply filter_In in Hw. tauto.
Qed.

Lemma select_min_len n (u u' : uvp) a : wf u -> u_folded u = false \/ a_spws a = None ->
  (forall s, In s (u_spw_array u) -> n <= length (window_dlys u s)) ->
  select u a = Ok u' -> forall s, In s (u_spw_array u') -> n <= length (window_dlys u' s).
Proof.
  intros W Hc G H s Hs. destruct (select_correct u a u' W H) as [R [P S]].
  rewrite (sp_arr _ _ _ _ _ S) in Hs. apply in_map_iff in Hs.
  destruct Hs as [w [<- Hw]]. rewrite (window_dlys_select u u' a R P w W S Hc Hw).
  apply G. apply filter_In in Hw. tauto.
Qed.

Lemma select_folded (u u' : uvp) a : wf u -> select u a = Ok u' -> u_folded u' = u_folded u.
Proof. intros W H. destruct (select_correct u a u' W H) as [R [P S]]. apply (sp_folded _ _ _ _ _ S). Qed.

Lemma select_pols_NoDup (u u' : uvp) a : wf u -> NoDup (u_polpair_array u) -> select u a = Ok u' -> NoDup (u_polpair_array u').
Proof.
  intros W N H. destruct (select_correct u a u' W H) as [R [P S]].
  eapply NoDup_picks; [exact N | apply sorted_NoDup; apply (sp_P_sorted _ _ _ _ _ S) | apply (sp_pols _ _ _ _ _ S)].
Qed.

(** * folding *)
Variables (mean invquad : X -> X -> X) (zero nan : X) (double : X -> X).
Notation fold_uvp := (fold_uvp mean invquad zero nan double).

Record fold_spec (u u' : uvp) : Prop := {
  fo_was : u_folded u = false;
  fo_now : u_folded u' = true;
  fo_meta : u_Nspws u' = u_Nspws u /\ u_spw_array u' = u_spw_array u /\
            u_spw_dly_array u' = u_spw_dly_array u /\ u_dly_array u' = u_dly_array u /\
            u_blpair_array u' = u_blpair_array u /\ u_polpair_array u' = u_polpair_array u /\
            u_wgt u' = u_wgt u /\ u_integration u' = u_integration u;
  fo_data : forall s, s < u_Nspws u -> exists a, dget Nat.eq_dec (u_data u) s = Some a /\
              dget Nat.eq_dec (u_data u') s =
                Some (map (map (fold_spectrum mean (match u_stats u with Some _ => nan | None => zero end))) a);
  fo_nsample : forall s, s < u_Nspws u -> exists a, dget Nat.eq_dec (u_nsample u) s = Some a /\
              dget Nat.eq_dec (u_nsample u') s = Some (map (map (map double)) a);
  fo_stats : match u_stats u, u_stats u' with
             | None, None => True
             | Some st, Some st' => forall s, s < u_Nspws u -> exists a, dget Nat.eq_dec st s = Some a /\
                 dget Nat.eq_dec st' s = Some (map (map (fold_stat invquad)) a)
             | _, _ => False
             end }.

Lemma fold_correct (u u' : uvp) : fold_uvp u = Ok u' -> fold_spec u u' /\
  (wf u -> wf u').
Proof.
  intros H. unfold FoldModel.fold_uvp in H. apply require_ok in H. destruct H as [Hf H].
  apply bind_ok in H. destruct H as [da [Hda H]]. apply bind_ok in H. destruct H as [ns [Hns H]].
  apply bind_ok in H. destruct H as [st [Hst H]]. injection H as <-.
  destruct (update_all_spec _ _ _ _ (seq_NoDup _ _) Hda) as [A1 A2].
  destruct (update_all_spec _ _ _ _ (seq_NoDup _ _) Hns) as [B1 B2].
  assert (C : match u_stats u, st with
             | None, None => True
             | Some q, Some q' => (forall s, In s (seq 0 (u_Nspws u)) -> exists a, dget Nat.eq_dec q s = Some a /\
                 dget Nat.eq_dec q' s = Some (map (map (fold_stat invquad)) a)) /\
                 (forall s, ~ In s (seq 0 (u_Nspws u)) -> dget Nat.eq_dec q' s = dget Nat.eq_dec q s)
             | _, _ => False end).
  { destruct (u_stats u) as [q|].
    - apply bind_ok in Hst. destruct Hst as [q' [Hq Hst]]. injection Hst as <-.
      destruct (update_all_spec _ _ _ _ (seq_NoDup _ _) Hq); auto.
    - injection Hst as <-. exact I. }
  split.
  - constructor; cbn.
    + destruct (u_folded u); [discriminate | reflexivity].
    + reflexivity.
    + repeat split.
    + intros s Hs. apply A1. apply in_seq. lia.
    + intros s Hs. apply B1. apply in_seq. lia.
    + destruct (u_stats u), st; try contradiction; auto. intros s Hs. apply C. apply in_seq. lia.
  - intros W. assert (Upd : forall g (d d' : list (nat * arr X)),
       (forall a, length (g a) = length a) ->
       (forall a n, (forall r, In r a -> length r = n) -> forall r, In r (g a) -> length r = n) ->
       (forall s, In s (seq 0 (u_Nspws u)) -> exists a, dget Nat.eq_dec d s = Some a /\ dget Nat.eq_dec d' s = Some (g a)) ->
       shaped u d -> shaped u d').
    { intros g d d' G1 G2 Hd Sh s Hs. destruct (Sh s Hs) as [a [E [L1 L2]]].
      assert (Hin : In s (seq 0 (u_Nspws u))) by (eapply Permutation_in; [apply (wf_spw u W) | exact Hs]).
      destruct (Hd s Hin) as [a' [E' E'']]. rewrite E in E'. injection E' as <-.
      exists (g a). split; [exact E''|]. split; [rewrite G1; exact L1|]. apply G2. exact L2. }
    assert (MM : forall (h : list X -> list X) (a : arr X) n, (forall r, In r a -> length r = n) -> forall r, In r (map (map h) a) -> length r = n).
    { intros h a n Ha r Hr. apply in_map_iff in Hr. destruct Hr as [r0 [<- Hr]]. rewrite map_length. apply Ha; exact Hr. }
    pose proof W as W'. destruct W'.
    constructor; cbn; auto.
    unfold dicts; cbn. intros d Hd.
    assert (Sh : forall d0, shaped u d0 -> shaped
       (mkuvp true (u_Nspws u) (u_spw_array u) (u_spw_freq_array u) (u_spw_dly_array u) (u_freq_array u) (u_dly_array u) (u_scalar_array u)
        (u_blpair_array u) (u_time_1_array u) (u_time_2_array u) (u_time_avg_array u)
        (u_lst_1_array u) (u_lst_2_array u) (u_lst_avg_array u) (u_bl_array u)
        (u_bl_vecs u) (u_polpair_array u) da (u_wgt u) (u_integration u) ns (u_cov u)
        (u_window u) st (u_label_1_array u) (u_label_2_array u) (u_OmegaP u)) d0) by (intros d0 S0; exact S0).
    apply Sh. clear Sh.
    assert (Hd0 : forall d0, In d0 (dicts u) -> shaped u d0) by exact wf_dicts.
    unfold dicts in Hd0. cbn in Hd0.
    destruct Hd as [<-|[<-|[<-|[<-|Hd]]]].
    + eapply Upd; [| |exact A1|apply Hd0; tauto]; [intros; apply map_length | apply MM].
    + apply Hd0; tauto.
    + apply Hd0; tauto.
    + eapply Upd; [| |exact B1|apply Hd0; tauto]; [intros; apply map_length | apply MM].
    + rewrite !in_app_iff in Hd. destruct Hd as [Hd|[Hd|Hd]].
      * apply Hd0. rewrite !in_app_iff. tauto.
      * apply Hd0. rewrite !in_app_iff. tauto.
      * destruct (u_stats u) as [q|], st as [q'|]; try contradiction. destruct Hd as [<-|[]].
        eapply Upd; [| |exact (proj1 C)|apply Hd0; rewrite !in_app_iff; cbn; tauto]; [intros; apply map_length | apply MM].
Qed.

Theorem fold_total (u : uvp) : wf u -> u_folded u = false -> exists u', fold_uvp u = Ok u'.
Proof.
  intros W F. unfold FoldModel.fold_uvp. rewrite F. cbn [negb require].
  assert (T : forall g d, In d (dicts u) -> exists d', update_all g (seq 0 (u_Nspws u)) d = Ok d').
  { intros g d Hd. apply update_all_total; [apply seq_NoDup|]. intros s Hs.
    destruct (wf_dicts u W d Hd s) as [a [E _]]; [|congruence].
    eapply Permutation_in; [symmetry; apply (wf_spw u W) | exact Hs]. }
  edestruct T as [x1 E1]; [|rewrite E1; cbn [bind]]; [unfold dicts; cbn; tauto|].
  edestruct T as [x2 E2]; [|rewrite E2; cbn [bind]]; [unfold dicts; cbn; tauto|].
  destruct (u_stats u) as [st|] eqn:Es; cbn [bind]; [|eauto].
  edestruct T as [x3 E3]; [|rewrite E3; cbn [bind]; eauto].
  unfold dicts. rewrite !in_app_iff, Es. cbn. tauto.
Qed.

Theorem fold_twice (u : uvp) : u_folded u = true -> fold_uvp u = Err AssertionError.
Proof. intros F. unfold FoldModel.fold_uvp. rewrite F. reflexivity. Qed.

Lemma fold_window_dlys (u u' : uvp) s : fold_spec u u' -> window_dlys u' s = window_dlys u s.
Proof.
  intros F. destruct (fo_meta _ _ F) as [_ [_ [E1 [E2 _]]]]. unfold window_dlys. rewrite E1, E2. reflexivity.
Qed.

Lemma fold_widths (u u' : uvp) : wf u -> widths u -> fold_spec u u' -> widths u'.
Proof.
  intros W Wd F s a r c Hs E Hr Hc. rewrite (fold_window_dlys u u' s F).
  destruct (fo_meta _ _ F) as [EN [Es _]]. rewrite Es in Hs.
  assert (Hlt : s < u_Nspws u).
  { assert (In s (seq 0 (u_Nspws u))) by (eapply Permutation_in; [apply (wf_spw u W) | exact Hs]). apply in_seq in H. lia. }
  destruct (fo_data _ _ F s Hlt) as [a0 [E0 E1]]. rewrite E in E1. injection E1 as ->.
  apply in_map_iff in Hr. destruct Hr as [r0 [<- Hr]]. apply in_map_iff in Hc. destruct Hc as [c0 [<- Hc]].
  rewrite fold_spectrum_length. eapply Wd; eassumption.
Qed.

(** * histories *)
Inductive op := OpSelect (a : select_args) | OpFold.
Fixpoint run (ops : list op) (u : uvp) : result uvp :=
  match ops with
  | [] => Ok u
  | OpSelect a :: ops' => bind (select u a) (run ops')
  | OpFold :: ops' => bind (fold_uvp u) (run ops')
  end.
Definition no_spws (o : op) : Prop := match o with OpSelect a => a_spws a = None | OpFold => True end.
(** window selections happen before folding *)
Fixpoint spws_before_fold (ops : list op) : Prop :=
  match ops with
  | [] => True
  | OpSelect _ :: ops' => spws_before_fold ops'
  | OpFold :: ops' => Forall no_spws ops'
  end.

Definition good (u : uvp) : Prop := wf u /\ widths u /\ fft_delays u /\ NoDup (u_polpair_array u) /\
  forall s, In s (u_spw_array u) -> 3 <= length (window_dlys u s).

Lemma select_good (u u' : uvp) a : good u -> u_folded u = false \/ a_spws a = None -> select u a = Ok u' -> good u'.
Proof.
  intros [W [Wd [G [N T]]]] Hc H. split; [eapply select_wf; eassumption|].
  split; [eapply select_widths; eassumption|]. split; [eapply select_fft; eassumption|].
  split; [eapply select_pols_NoDup; eassumption|]. exact (select_min_len 3 u u' a W Hc T H).
Qed.
Lemma fold_good (u u' : uvp) : good u -> fold_uvp u = Ok u' -> good u'.
Proof.
  intros [W [Wd [G [N T]]]] H. destruct (fold_correct u u' H) as [F Fw].
  destruct (fo_meta _ _ F) as [EN [Es [_ [_ [_ [Ep _]]]]]].
  split; [apply Fw; exact W|]. split; [eapply fold_widths; eassumption|]. split.
  - intros s Hs. rewrite Es in Hs. rewrite (fold_window_dlys u u' s F). apply G; exact Hs.
  - split; [rewrite Ep; exact N|]. intros s Hs. rewrite Es in Hs. rewrite (fold_window_dlys u u' s F). apply T; exact Hs.
Qed.

Lemma run_good_folded ops (u u' : uvp) : good u -> Forall no_spws ops -> run ops u = Ok u' -> good u'.
Proof.
  revert u; induction ops as [|o ops IH]; intros u G F H; cbn in H; [injection H as <-; exact G|].
  inversion F; subst. destruct o as [a|]; apply bind_ok in H; destruct H as [u1 [H1 H]].
  - eapply (IH u1); [|assumption|exact H]. apply (select_good u u1 a G); [right; assumption | exact H1].
  - eapply (IH u1); [|assumption|exact H]. eapply fold_good; [exact G | exact H1].
Qed.

Theorem run_good ops (u u' : uvp) : good u -> u_folded u = false -> spws_before_fold ops -> run ops u = Ok u' -> good u'.
Proof.
  revert u; induction ops as [|o ops IH]; intros u G F B H; cbn in H; [injection H as <-; exact G|].
  destruct o as [a|]; apply bind_ok in H; destruct H as [u1 [H1 H]]; cbn in B.
  - eapply IH; [| |exact B|exact H].
    + eapply select_good; [exact G | left; exact F | exact H1].
    + rewrite <- F. eapply select_folded; [apply G | exact H1].
  - eapply run_good_folded; [|exact B|exact H]. eapply fold_good; [exact G | exact H1].
Qed.

Theorem run_lengths ops (u u' : uvp) s b p rows : good u -> u_folded u = false -> spws_before_fold ops ->
  run ops u = Ok u' -> get_data u' s b p = Ok rows ->
  exists ds, get_dlys u' s = Ok ds /\ forall x, In x rows -> length x = length ds.
Proof.
  intros G F B H Hd. destruct (run_good ops u u' G F B H) as [W [Wd [Gd [N T]]]].
  eapply lengths_agree; eauto.
Qed.
End S.
