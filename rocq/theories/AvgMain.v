(** Object-level correctness of [average_spectra]. *)
From Coq Require Import Reals Lra QArith Permutation Sorted.
From Verif Require Import PyDict.
From Verif Require Import Prelude ListLemmas UvpModel UvpSpec UvpProofs KeyProofs LengthProofs AvgModel AvgProofs.
Open Scope nat_scope.

(** * lookups *)
Definition ntimes {X} (u : uvp X) (b : Z) : nat := count_occ Z.eq_dec (u_blpair_array u) b.

Lemma where_from_len k m : length (where_from k m) = length (filter (fun b => b) m).
Proof. revert k; induction m as [|[] m IH]; intro k; cbn; rewrite ?IH; reflexivity. Qed.
Lemma where_mask_len l b : length (where_ (or_maskZ l [b])) = count_occ Z.eq_dec l b.
Proof.
  unfold where_. rewrite where_from_len. induction l as [|x l IH]; [reflexivity|].
  cbn [or_maskZ map filter count_occ]. unfold memZ at 1. cbn [existsb]. rewrite orb_false_r.
  destruct (Z.eqb_spec x b) as [->|N].
  - destruct (Z.eq_dec b b); [cbn; f_equal; exact IH | congruence].
  - destruct (Z.eq_dec x b); [congruence | exact IH].
Qed.

Lemma get_array_known {X} (u : uvp X) f s b p rows : get_array f u s b p = Ok rows -> known_key u s b p.
Proof.
  intro H. unfold get_array, key_to_indices in H.
  destruct (memN s (u_spw_freq_array u)) eqn:E1; [|discriminate].
  destruct (memN s (u_spw_dly_array u)) eqn:E2; [|discriminate].
  destruct (memZ b (u_blpair_array u)) eqn:E3; [|discriminate].
  destruct (memZ p (u_polpair_array u)) eqn:E4; [|discriminate].
  split; [apply memN_In; exact E1|]. split; [apply memN_In; exact E2|]. split; apply memZ_In; assumption.
Qed.

Lemma get_array_rows {X} (u : uvp X) f s b p rows : get_array f u s b p = Ok rows ->
  length rows = ntimes u b /\
  exists a, dget Nat.eq_dec (f u) s = Some a /\ forall x, In x rows -> exists r, In r a /\ In x r.
Proof.
  intro H. unfold get_array in H. apply bind_ok in H. destruct H as [[[s' idx] k] [Hk H]].
  unfold key_to_indices in Hk. apply require_ok in Hk. destruct Hk as [_ Hk].
  apply require_ok in Hk. destruct Hk as [_ Hk]. apply require_ok in Hk. destruct Hk as [_ Hk].
  apply bind_ok in Hk. destruct Hk as [pi [_ Hk]]. destruct pi as [|k' [|? ?]]; try discriminate.
  apply bind_ok in Hk. destruct Hk as [idx' [Hi Hk]]. injection Hk as <- <- <-.
  unfold blpair_to_indices in Hi. apply require_ok in Hi. destruct Hi as [_ Hi]. injection Hi as <-.
  apply bind_ok in H. destruct H as [a [Ha H]]. unfold lookup_arr, aget in Ha.
  destruct (dget Nat.eq_dec (f u) s) as [a'|] eqn:E; [|discriminate]. injection Ha as ->.
  unfold take_rows_pol in H. apply bind_ok in H. destruct H as [rs [Hg H]].
  apply gather_spec in Hg. pose proof (picks_length _ _ _ Hg) as Lg.
  apply map_res_nth in H. pose proof (Forall2_len _ _ _ H) as Lr. split.
  - rewrite <- Lr, Lg. apply where_mask_len.
  - exists a. split; [reflexivity|]. intros x Hx.
    assert (FF : Forall (fun x => exists r, In r a /\ In x r) rows).
    { eapply Forall2_Forall_r; [exact H|]. intros row y Hrow Hy. exists row. split.
      - apply (picks_In _ _ _ _ Hg) in Hrow. destruct Hrow as [i [_ Ei]]. eapply nth_error_In; exact Ei.
      - eapply nth_error_In; exact Hy. }
    rewrite Forall_forall in FF. exact (FF x Hx).
Qed.

(** * well-shaped inputs *)
(** integrations and sample counts are one number per (row, polarization) *)
Definition narrow (u : uvp R) : Prop :=
  forall f s a r c, f = @u_integration R \/ f = @u_nsample R -> dget Nat.eq_dec (f u) s = Some a -> In r a -> In c r ->
    length c = 1.
(** the statistic has as many bins as the data *)
Definition stat_widths (u : uvp R) : Prop :=
  forall st s a r c, u_stats u = Some st -> In s (u_spw_array u) -> dget Nat.eq_dec st s = Some a -> In r a -> In c r ->
    length c = length (window_dlys u s).

Definition width (u : uvp R) (s : nat) : nat :=
  if u_folded u then match length (window_dlys u s) - length (window_dlys u s) / 2 - 1 with
                     | O => length (window_dlys u s) | k => k end
  else length (window_dlys u s).

Lemma width_eq (u : uvp R) s : wf u ->
  (if u_folded u
   then match length (filter (Nat.eqb s) (u_spw_dly_array u)) - length (filter (Nat.eqb s) (u_spw_dly_array u)) / 2 - 1 with
        | O => length (window_dlys u s) | k => k end
   else length (window_dlys u s)) = width u s.
Proof. intro W. unfold width. rewrite <- (window_dlys_len u s W). reflexivity. Qed.

Lemma get_data_rows (u : uvp R) s b p rows : wf u -> widths u -> NoDup (u_polpair_array u) ->
  get_data u s b p = Ok rows -> length rows = ntimes u b /\ Forall (fun r => length r = width u s) rows.
Proof.
  intros W Wd N H. destruct (get_data_widths u s b p rows W Wd N H) as [_ Hw]. split.
  - unfold get_data in H. apply bind_ok in H. destruct H as [r0 [H0 H]].
    apply get_array_rows in H0. destruct H0 as [L _].
    destruct (u_folded u); [|injection H as <-; exact L].
    match type of H with Ok ?l = Ok _ => assert (Hr : rows = l) by congruence end.
    rewrite Hr, map_length. exact L.
  - apply Forall_forall. intros x Hx. rewrite (Hw x Hx). reflexivity.
Qed.

Lemma get_stats_rows (u : uvp R) s b p rows : wf u -> stat_widths u ->
  get_stats u s b p = Ok rows -> length rows = ntimes u b /\ Forall (fun r => length r = width u s) rows.
Proof.
  intros W Wd H. unfold get_stats in H. destruct (u_stats u) as [st|] eqn:Es; [|discriminate].
  apply bind_ok in H. destruct H as [r0 [H0 H]].
  pose proof (get_array_known _ _ _ _ _ _ H0) as K.
  apply get_array_rows in H0. destruct H0 as [L [a [Ea Ha]]].
  assert (Len : forall x, In x r0 -> length x = length (window_dlys u s)).
  { intros x Hx. destruct (Ha x Hx) as [r [Hr1 Hr2]]. eapply Wd; [reflexivity || exact Es | | exact Ea | exact Hr1 | exact Hr2].
    apply (wf_freq_in u W), K. }
  unfold width. destruct (u_folded u).
  - match type of H with Ok ?l = Ok _ => assert (Hr : rows = l) by congruence end. subst rows.
    split; [rewrite map_length; exact L|]. apply Forall_forall. intros x Hx. apply in_map_iff in Hx.
    destruct Hx as [y [<- Hy]]. rewrite <- (window_dlys_len u s W).
    set (n := length (window_dlys u s)). unfold from_neg.
    destruct (n - n / 2 - 1) as [|k] eqn:E; [apply Len; exact Hy|].
    rewrite skipn_length, (Len y Hy). fold n. lia.
  - injection H as <-. split; [exact L|]. apply Forall_forall. exact Len.
Qed.

Definition wlen (errw : bool) (N : nat) : nat := if errw then N else 1.

Lemma fetch_shape (u : uvp R) s p errw b blk : wf u -> widths u -> narrow u -> (errw = true -> stat_widths u) ->
  NoDup (u_polpair_array u) -> fetch u s p errw b = Ok blk ->
  shape (width u s) (wlen errw (width u s)) (ntimes u b) blk /\ known_key u s b p /\ 1 <= ntimes u b.
Proof.
  intros W Wd Na Sw N H. unfold fetch in H.
  apply bind_ok in H. destruct H as [ns [Hn H]]. apply bind_ok in H. destruct H as [da [Hd H]].
  apply bind_ok in H. destruct H as [ins [Hi H]].
  pose proof (get_array_known _ _ _ _ _ _ Hn) as K.
  destruct (get_data_rows u s b p da W Wd N Hd) as [Ld Fd].
  destruct (get_array_rows _ _ _ _ _ _ Hn) as [Ln [an [Ean Han]]].
  destruct (get_array_rows _ _ _ _ _ _ Hi) as [Li [ai [Eai Hai]]].
  assert (Fn : Forall (fun r => length r = 1) ns).
  { apply Forall_forall. intros x Hx. destruct (Han x Hx) as [r [R1 R2]].
    apply (Na (@u_nsample R) s an r x); auto. }
  assert (Fi : Forall (fun r => length r = 1) ins).
  { apply Forall_forall. intros x Hx. destruct (Hai x Hx) as [r [R1 R2]].
    apply (Na (@u_integration R) s ai r x); auto. }
  split; [|split; [exact K|]].
  2:{ unfold ntimes. destruct K as [_ [_ [Hb _]]]. apply (count_occ_In Z.eq_dec) in Hb. lia. }
  destruct errw; cbn [wlen].
  - apply bind_ok in H. destruct H as [st [Hst H]]. injection H as <-.
    destruct (get_stats_rows u s b p st W (Sw eq_refl) Hst) as [Ls Fs].
    constructor; cbn [b_data b_ints b_nsmp b_w]; auto.
    + rewrite map_length; exact Ls.
    + apply Forall_forall. intros x Hx. apply in_map_iff in Hx. destruct Hx as [y [<- Hy]].
      unfold err_weight. rewrite map_length. rewrite Forall_forall in Fs. apply Fs, Hy.
    + eapply Forall_impl; [|exact Fi]. cbn; auto.
  - injection H as <-. constructor; cbn [b_data b_ints b_nsmp b_w]; auto.
    + rewrite map2_length. lia.
    + eapply map2_Forall; [exact Fi | exact Fn|]. cbn. intros x y Hx Hy. unfold int_weight. rewrite map_length.
      unfold bmul. apply (bop_full 1); [exact Hx|]. left. rewrite map_length. exact Hy.
    + eapply Forall_impl; [|exact Fi]. cbn; auto.
Qed.

(** * specification of what one baseline-pair contributes to one output bin *)
Definition rows_or_nil {A} (r : result (list A)) : list A := match r with Ok l => l | Err _ => [] end.
Definition cell (rows : list (list R)) (t d : nat) : R := nth d (nth t rows []) 0%R.

(** the weight of integration [t]: integration time squared times number of samples, or the
    inverse square of the error bar *)
Definition spec_weight (u : uvp R) (errw : bool) (s : nat) (p b : Z) (t d : nat) : R :=
  if errw then (/ Rmax tiny (cell (rows_or_nil (get_stats u s b p)) t d ^ 2))%R
  else (cell (rows_or_nil (get_array u_integration u s b p)) t 0 ^ 2 *
        cell (rows_or_nil (get_array u_nsample u s b p)) t 0)%R.

Inductive quantity := Power | Integration.
Definition spec_value (q : quantity) (u : uvp R) (s : nat) (p b : Z) (t d : nat) : R :=
  match q with
  | Power => cell (rows_or_nil (get_data u s b p)) t d
  | Integration => cell (rows_or_nil (get_array u_integration u s b p)) t 0
  end.

Definition spec_terms (q : quantity) (u : uvp R) (ta errw : bool) (s : nat) (p : Z) (r d : nat) (b : Z) : list (R * R) :=
  map (fun t => (spec_value q u s p b t d, spec_weight u errw s p b t d))
      (if ta then seq 0 (ntimes u b) else [r]).

Definition nsamples_nonneg (u : uvp R) : Prop :=
  forall s b p rows t, get_array u_nsample u s b p = Ok rows -> (0 <= cell rows t 0)%R.

Definition field_of (q : quantity) : block -> list (list R) := match q with Power => b_data | Integration => b_ints end.

Lemma nth_map2 {A B C} (f : A -> B -> C) a b i da db dc : i < length a -> i < length b ->
  nth i (map2 f a b) dc = f (nth i a da) (nth i b db).
Proof. revert b i; induction a as [|x a IH]; intros [|y b] [|i]; cbn; intros; try lia; auto. apply IH; lia. Qed.

Lemma map2_as_seq {A B C} (f : A -> B -> C) a b n da db : length a = n -> length b = n ->
  map2 f a b = map (fun t => f (nth t a da) (nth t b db)) (seq 0 n).
Proof.
  revert b n; induction a as [|x a IH]; intros [|y b] n La Lb; cbn in La, Lb; subst n; try discriminate; [reflexivity|].
  cbn [length seq map map2 nth]. f_equal. rewrite <- seq_shift, map_map. apply IH; lia.
Qed.

Lemma pair_spec (u : uvp R) s p errw b blk q t d : wf u -> widths u -> narrow u -> (errw = true -> stat_widths u) ->
  NoDup (u_polpair_array u) -> nsamples_nonneg u -> fetch u s p errw b = Ok blk -> t < ntimes u b -> d < width u s ->
  bc (nth t (field_of q blk) []) d = spec_value q u s p b t d /\
  bc (nth t (b_w blk) []) d = spec_weight u errw s p b t d.
Proof.
  intros W Wd Na Sw N Nn H Ht Hd. destruct (fetch_shape u s p errw b blk W Wd Na Sw N H) as [S [K _]].
  unfold fetch in H.
  apply bind_ok in H. destruct H as [ns [Hn H]]. apply bind_ok in H. destruct H as [da [Hda H]].
  apply bind_ok in H. destruct H as [ins [Hi H]].
  assert (Hblk : b_data blk = da /\ b_ints blk = ins /\ b_nsmp blk = ns).
  { destruct errw; [apply bind_ok in H; destruct H as [st [_ H]]|]; injection H as <-; auto. }
  destruct Hblk as [E1 [E2 E3]].
  assert (L1 : length (nth t ins []) = 1).
  { pose proof (sh_ints _ _ _ _ S) as F.
    destruct (get_array_rows _ _ _ _ _ _ Hi) as [Li [ai [Eai Hai]]].
    destruct (Hai (nth t ins [])) as [r [R1 R2]]; [apply nth_In; lia|].
    apply (Na (@u_integration R) s ai r _); auto. }
  assert (L2 : length (nth t ns []) = 1).
  { destruct (get_array_rows _ _ _ _ _ _ Hn) as [Li [ai [Eai Hai]]].
    destruct (Hai (nth t ns [])) as [r [R1 R2]]; [apply nth_In; lia|].
    apply (Na (@u_nsample R) s ai r _); auto. }
  split.
  - destruct q; cbn [field_of spec_value]; unfold cell.
    + rewrite E1, Hda. cbn [rows_or_nil]. apply (bc_nth (width u s)); [|exact Hd].
      apply (nth_Forall (fun r => length r = width u s)); [rewrite <- E1; apply S|].
      rewrite <- E1, (sh_T _ _ _ _ S). exact Ht.
    + rewrite E2, Hi. cbn [rows_or_nil]. apply bc_single. exact L1.
  - unfold spec_weight. destruct errw.
    + apply bind_ok in H. destruct H as [st [Hst H]]. injection H as <-. cbn [b_w].
      rewrite Hst. cbn [rows_or_nil]. unfold cell.
      destruct (get_stats_rows u s b p st W (Sw eq_refl) Hst) as [Ls Fs].
      rewrite (nth_indep _ [] (err_weight [])) by (rewrite map_length; lia). rewrite map_nth.
      unfold err_weight. rewrite (bc_map (width u s)); [|right; apply (nth_Forall (fun r => length r = width u s)); [exact Fs|lia]|exact Hd].
      rewrite (bc_nth (width u s)); [|apply (nth_Forall (fun r => length r = width u s)); [exact Fs|lia]|exact Hd].
      reflexivity.
    + injection H as <-. cbn [b_w]. rewrite Hi, Hn. cbn [rows_or_nil]. unfold cell.
      assert (Ll : t < length ins /\ t < length ns).
      { destruct (get_array_rows _ _ _ _ _ _ Hi) as [Li _], (get_array_rows _ _ _ _ _ _ Hn) as [Ln _]. lia. }
      rewrite (nth_map2 int_weight ins ns t [] [] []) by apply Ll.
      assert (LB : length (bmul (nth t ins []) (map sqrt (nth t ns []))) = 1)
        by (unfold bmul; apply (bop_full 1); [exact L1 | left; rewrite map_length; exact L2]).
      unfold int_weight. rewrite bc_single by (rewrite map_length; exact LB).
      rewrite (nth_indep _ 0%R ((fun x => x ^ 2)%R 0%R)) by (rewrite map_length, LB; lia).
      rewrite (map_nth (fun x => (x ^ 2)%R)). rewrite <- (bc_nth 1) by (try exact LB; lia).
      unfold bmul. rewrite (bc_bop 1); [|left; exact L1|left; rewrite map_length; exact L2|lia].
      rewrite (bc_map 1); [|left; exact L2|lia]. rewrite !bc_single by assumption.
      pose proof (Nn s b p ns t Hn) as P. unfold cell in P.
      rewrite Rpow_mult_distr. f_equal. cbn. rewrite Rmult_1_r. apply sqrt_sqrt. exact P.
Qed.

Lemma terms_spec (u : uvp R) s p ta errw b blk q r d : wf u -> widths u -> narrow u -> (errw = true -> stat_widths u) ->
  NoDup (u_polpair_array u) -> nsamples_nonneg u -> fetch u s p errw b = Ok blk ->
  r < out_rows ta (ntimes u b) -> d < width u s ->
  terms ta (field_of q) blk r d = spec_terms q u ta errw s p r d b.
Proof.
  intros W Wd Na Sw N Nn H Hr Hd. destruct (fetch_shape u s p errw b blk W Wd Na Sw N H) as [S [K K1]].
  unfold terms, spec_terms. destruct ta; cbn [out_rows] in Hr.
  - rewrite (map2_as_seq _ _ _ (ntimes u b) [] []); [|destruct q; apply S | apply S].
    apply map_ext_in. intros t Ht. apply in_seq in Ht.
    destruct (pair_spec u s p errw b blk q t d W Wd Na Sw N Nn H) as [-> ->]; auto; lia.
  - cbn [map]. destruct (pair_spec u s p errw b blk q r d W Wd Na Sw N Nn H) as [-> ->]; auto.
Qed.

(** * one group *)
Definition group_contributions (q : quantity) (u : uvp R) (ta errw : bool) (s : nat) (p : Z) (r d : nat)
    (members : list (Z * R)) : list (R * R) :=
  flat_map (fun bw => concat (repeat (spec_terms q u ta errw s p r d (fst bw)) (copies_of (snd bw)))) members.
Definition spec_nsample (u : uvp R) (ta : bool) (s : nat) (p : Z) (r : nat) (b : Z) : R :=
  Rsum (map (fun t => cell (rows_or_nil (get_array u_nsample u s b p)) t 0) (if ta then seq 0 (ntimes u b) else [r])).
Definition group_nsample (u : uvp R) (ta : bool) (s : nat) (p : Z) (r : nat) (members : list (Z * R)) : R :=
  Rsum (map (fun bw => INR (copies_of (snd bw)) * spec_nsample u ta s p r (fst bw))%R members).

Lemma Forall2_combine {A B} (P : A -> B -> Prop) l r : Forall2 P l r -> Forall (fun ab => P (fst ab) (snd ab)) (combine l r).
Proof. induction 1; cbn; constructor; auto. Qed.

Lemma Rsum_repeat x n : Rsum (repeat x n) = (INR n * x)%R.
Proof. induction n as [|n IH]; [cbn; ring|]. rewrite S_INR. cbn [repeat Rsum]. rewrite IH. ring. Qed.

Lemma expand_flat {A B} (f : A -> list B) (l : list (A * R)) :
  concat (map f (expand l)) = flat_map (fun bw => concat (repeat (f (fst bw)) (copies_of (snd bw)))) l.
Proof.
  unfold expand. induction l as [|[b w] l IH]; [reflexivity|]. cbn [flat_map fst snd].
  rewrite map_app, concat_app, map_repeat', IH. reflexivity.
Qed.
Lemma expand_sum {A} (f : A -> R) (l : list (A * R)) :
  Rsum (map f (expand l)) = Rsum (map (fun bw => INR (copies_of (snd bw)) * f (fst bw))%R l).
Proof.
  unfold expand. induction l as [|[b w] l IH]; [reflexivity|]. cbn [flat_map map Rsum fst snd].
  rewrite map_app, Rsum_app, map_repeat', Rsum_repeat, IH. reflexivity.
Qed.

Lemma flat_map_F2 {A B C} (P : A -> B -> Prop) (f : A * R -> list C) (g : B * R -> list C) l l' (ws : list R) :
  Forall2 P l l' -> (forall a b w, In (a, w) (combine l ws) -> P a b -> f (a, w) = g (b, w)) ->
  flat_map f (combine l ws) = flat_map g (combine l' ws).
Proof.
  intro H. revert ws. induction H as [|a b l l' Hab H IH]; intros [|w ws] E; cbn; auto.
  f_equal; [apply E; [left; reflexivity | exact Hab] | apply IH]. intros; apply E; [right|]; assumption.
Qed.
Lemma map_F2 {A B C} (P : A -> B -> Prop) (f : A * R -> C) (g : B * R -> C) l l' (ws : list R) :
  Forall2 P l l' -> (forall a b w, In (a, w) (combine l ws) -> P a b -> f (a, w) = g (b, w)) ->
  map f (combine l ws) = map g (combine l' ws).
Proof.
  intro H. revert ws. induction H as [|a b l l' Hab H IH]; intros [|w ws] E; cbn; auto.
  f_equal; [apply E; [left; reflexivity | exact Hab] | apply IH]. intros; apply E; [right|]; assumption.
Qed.
Lemma combine_map_fst {A B C} (f : A -> B) (l : list A) (r : list C) :
  combine (map f l) r = map (fun ab => (f (fst ab), snd ab)) (combine l r).
Proof. revert r; induction l as [|x l IH]; intros [|y r]; cbn; auto. f_equal. apply IH. Qed.

Section Object.
Variables (u : uvp R) (ta norm errw : bool).
Hypothesis W : wf u.
Hypothesis Wd : widths u.
Hypothesis Na : narrow u.
Hypothesis Sw : errw = true -> stat_widths u.
Hypothesis Np : NoDup (u_polpair_array u).
Hypothesis Nn : nsamples_nonneg u.

Definition same_times (g : list Z) : Prop := ta = true \/ forall b, In b g -> ntimes u b = ntimes u (hd 0%Z g).
Definition grows (g : list Z) : nat := out_rows ta (ntimes u (hd 0%Z g)).

Theorem average_group_spec s p g ws blk :
  same_times g ->
  average_group u ta norm errw s p g ws = Ok blk ->
  shape (width u s) (wlen errw (width u s)) (grows g) blk /\
  exists nw, norm_weights norm ws = Ok nw /\
  (forall q r d, r < grows g -> d < width u s ->
     (forall b, In b g -> weighted (spec_terms q u ta errw s p r d b)) ->
     (tiny <= wsum (group_contributions q u ta errw s p r d (combine g nw)))%R ->
     bc (nth r (field_of q blk) []) d = wmean (group_contributions q u ta errw s p r d (combine g nw))) /\
  (forall r, r < grows g -> bc (nth r (b_nsmp blk) []) 0 = group_nsample u ta s p r (combine g nw)).
Proof.
  intros ST H. unfold average_group in H. apply bind_ok in H. destruct H as [nw [Hw H]].
  apply bind_ok in H. destruct H as [blocks [Hb H]]. apply map_res_spec in Hb.
  assert (EQ : expand (combine (if ta then map time_average blocks else blocks) nw) =
               map (prepared ta) (expand (combine blocks nw))).
  { unfold prepared. destruct ta; [rewrite combine_map_fst, (expand_map time_average); reflexivity | symmetry; apply map_id]. }
  rewrite EQ in H. set (cs := expand (combine blocks nw)) in *.
  assert (HF : Forall (fun c => exists b, In b g /\ fetch u s p errw b = Ok c) cs).
  { apply Forall_forall. intros c Hc. apply expand_In in Hc. apply in_map_iff in Hc. destruct Hc as [[c' w] [<- Hc]].
    apply in_combine_l in Hc. cbn [fst].
    assert (FF : Forall (fun c => exists b, In b g /\ fetch u s p errw b = Ok c) blocks).
    { eapply Forall2_Forall_r; [exact Hb|]. intros b c Hbg Hbc. exists b. auto. }
    rewrite Forall_forall in FF. apply FF, Hc. }
  assert (HT : forall b, In b g -> out_rows ta (ntimes u b) = grows g).
  { intros b Hbg. unfold grows, out_rows. destruct ST as [-> | ST]; [reflexivity|]. rewrite (ST b Hbg). reflexivity. }
  assert (Hne : cs <> []) by (intro E; rewrite E in H; cbn in H; discriminate H).
  destruct (group_average_spec ta (width u s) (wlen errw (width u s)) (grows g) cs Hne) as [b [Eb [Sb [H1 H2]]]].
  { eapply Forall_impl; [|exact HF]. cbn. intros c [b [Hbg Hf]].
    destruct (fetch_shape u s p errw b c W Wd Na Sw Np Hf) as [S [_ S1]]. exists (ntimes u b). auto. }
  rewrite H in Eb. injection Eb as <-. split; [exact Sb|]. exists nw. split; [exact Hw|].
  assert (HR : forall q, exists M, rowfun (width u s) (wlen errw (width u s)) (field_of q) M).
  { intros [|]; eexists; [left | right]; split; reflexivity. }
  assert (GT : forall q r d, r < grows g -> d < width u s ->
     group_terms ta (field_of q) cs r d = group_contributions q u ta errw s p r d (combine g nw)).
  { intros q r d Hr Hd. unfold group_terms, cs. rewrite expand_flat. unfold group_contributions. symmetry.
    apply (flat_map_F2 (fun b c => fetch u s p errw b = Ok c)).
    - exact Hb.
    - intros b0 c w Hin Hf. cbn [fst snd]. f_equal. f_equal. symmetry.
      apply terms_spec; try assumption. rewrite HT; [exact Hr|]. apply in_combine_l in Hin. exact Hin. }
  split.
  - intros q r d Hr Hd HW HT'. destruct (HR q) as [M HM]. rewrite <- (GT q r d Hr Hd) in *.
    apply (H1 (field_of q) M); auto.
    intros c Hc. rewrite Forall_forall in HF. destruct (HF c Hc) as [b [Hbg Hf]].
    rewrite (terms_spec u s p ta errw b c q r d); try assumption; [apply HW, Hbg | rewrite HT; assumption].
  - intros r Hr. rewrite (H2 r Hr). unfold cs, group_nsample. rewrite expand_sum. f_equal. symmetry.
    apply (map_F2 (fun b c => fetch u s p errw b = Ok c)).
    + exact Hb.
    + intros b0 c w Hin Hf. cbn [fst snd]. f_equal.
      assert (Hbg : In b0 g) by (apply in_combine_l in Hin; exact Hin).
      destruct (fetch_shape u s p errw b0 c W Wd Na Sw Np Hf) as [S [_ S1]].
      unfold fetch in Hf.
      apply bind_ok in Hf. destruct Hf as [ns [Hn Hf]]. apply bind_ok in Hf. destruct Hf as [da [Hda Hf]].
      apply bind_ok in Hf. destruct Hf as [ins [Hi Hf]].
      assert (Ens : b_nsmp c = ns).
      { destruct errw; [apply bind_ok in Hf; destruct Hf as [st [_ Hf]]|]; injection Hf as <-; reflexivity. }
      unfold spec_nsample, nsmp_total. rewrite Hn. cbn [rows_or_nil]. rewrite Ens.
      pose proof (sh_Tn _ _ _ _ S) as Ln. rewrite Ens in Ln.
      pose proof (sh_nsmp _ _ _ _ S) as Fn. rewrite Ens in Fn. destruct ta.
      * f_equal. rewrite <- Ln. clear -Fn. induction Fn as [|x l Hx F IH]; [reflexivity|].
        cbn [length seq map]. f_equal; [symmetry; apply bc_single; exact Hx|].
        rewrite <- seq_shift, map_map. rewrite <- IH. apply map_ext. reflexivity.
      * cbn [map Rsum]. rewrite Rplus_0_r. unfold cell. symmetry. apply bc_single.
        apply (nth_Forall (fun x => length x = 1)); [exact Fn|]. rewrite Ln.
        pose proof (HT b0 Hbg) as E. cbn in E. rewrite E. exact Hr.
Qed.
End Object.
