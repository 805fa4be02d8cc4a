(** The averaged object: which spectrum a key of the result addresses. *)
From Coq Require Import Reals Lra QArith Permutation Sorted.
From Verif Require Import PyDict.
From Verif Require Import Prelude ListLemmas UvpModel UvpSpec UvpProofs KeyProofs LengthProofs
  AvgModel AvgProofs AvgMain.
Open Scope nat_scope.

Lemma mask_app {A} m1 m2 (l1 l2 : list A) : length m1 = length l1 -> mask (m1 ++ m2) (l1 ++ l2) = mask m1 l1 ++ mask m2 l2.
Proof. revert l1; induction m1 as [|[] m1 IH]; intros [|x l1] H; cbn in *; try discriminate; auto; rewrite IH by lia; reflexivity. Qed.
Lemma mask_true {A} n (l : list A) : length l = n -> mask (repeat true n) l = l.
Proof. revert n; induction l as [|x l IH]; intros [|n] H; cbn in *; try discriminate; auto. f_equal. apply IH. lia. Qed.
Lemma mask_false {A} n (l : list A) : mask (repeat false n) l = [].
Proof. revert l; induction n as [|n IH]; intros [|x l]; cbn; auto. Qed.
Lemma or_mask_repeat h n b : or_maskZ (repeat h n) [b] = repeat (Z.eqb h b) n.
Proof. unfold or_maskZ. induction n as [|n IH]; cbn; [reflexivity|]. rewrite orb_false_r. f_equal. exact IH. Qed.

(** the rows of the group whose first baseline-pair is [b] *)
Lemma mask_groups {A G} (h : G -> Z) (n : G -> nat) (gs : list G) (blocks : list (list A)) j g bl :
  Forall2 (fun g bl => length bl = n g) gs blocks -> NoDup (map h gs) ->
  nth_error gs j = Some g -> nth_error blocks j = Some bl ->
  mask (or_maskZ (concat (map (fun g => repeat (h g) (n g)) gs)) [h g]) (concat blocks) = bl.
Proof.
  intro F. revert j. induction F as [|g0 bl0 gs blocks Hl F IH]; intros j N Hj Hb; [destruct j; discriminate|].
  cbn [map concat]. unfold or_maskZ. rewrite map_app.
  change (map (fun x => memZ x [h g]) (repeat (h g0) (n g0))) with (or_maskZ (repeat (h g0) (n g0)) [h g]).
  change (map (fun x => memZ x [h g]) (concat (map (fun g1 => repeat (h g1) (n g1)) gs)))
    with (or_maskZ (concat (map (fun g1 => repeat (h g1) (n g1)) gs)) [h g]).
  rewrite mask_app by (unfold or_maskZ; rewrite map_length, repeat_length, Hl; reflexivity).
  rewrite or_mask_repeat. inversion N as [|? ? Nx Nr]; subst.
  destruct j as [|j]; cbn in Hj, Hb.
  - injection Hj as ->. injection Hb as ->. rewrite Z.eqb_refl, mask_true by exact Hl.
    assert (E : or_maskZ (concat (map (fun g1 => repeat (h g1) (n g1)) gs)) [h g] =
                repeat false (length (concat (map (fun g1 => repeat (h g1) (n g1)) gs)))).
    { assert (Hnot : ~ In (h g) (concat (map (fun g1 => repeat (h g1) (n g1)) gs))).
      { intro Hin. apply in_concat in Hin. destruct Hin as [x [Hx Hin]]. apply in_map_iff in Hx.
        destruct Hx as [g1 [<- Hg1]]. apply repeat_spec in Hin. apply Nx. rewrite Hin. apply in_map, Hg1. }
      revert Hnot. generalize (concat (map (fun g1 => repeat (h g1) (n g1)) gs)). clear.
      induction l as [|x l IH]; intro Hn; [reflexivity|]. cbn. rewrite orb_false_r.
      destruct (Z.eqb_spec x (h g)) as [->|_]; [exfalso; apply Hn; left; reflexivity|].
      f_equal. apply IH. intro; apply Hn; right; assumption. }
    rewrite E, mask_false, app_nil_r. reflexivity.
  - destruct (Z.eqb_spec (h g0) (h g)) as [E|_].
    + exfalso. apply Nx. rewrite E. apply in_map. eapply nth_error_In; exact Hj.
    + rewrite mask_false. cbn [app]. apply (IH j); assumption.
Qed.

Lemma gather_mask {A} (keys : list Z) (l : list A) b : length keys = length l ->
  gather l (where_ (or_maskZ keys [b])) = Ok (mask (or_maskZ keys [b]) l).
Proof. intro H. apply gather_spec. apply mask_picks. unfold or_maskZ. rewrite map_length. exact H. Qed.

(** reading one polarization of a re-assembled array *)
Lemma moveaxis_len pp n : (forall pd, In pd pp -> length pd = n) -> pp <> [] -> length (moveaxis pp) = n.
Proof.
  intros H Hne. unfold moveaxis. rewrite map_length, seq_length. destruct pp as [|pd pp]; [congruence|]. apply H. left; reflexivity.
Qed.

Lemma take_moveaxis pp n k pd idx : (forall pd, In pd pp -> length pd = n) -> nth_error pp k = Some pd ->
  Forall (fun i => i < n) idx -> take_rows_pol (moveaxis pp) idx k = gather pd idx.
Proof.
  intros H Hk F. unfold take_rows_pol.
  assert (Hpd : length pd = n) by (apply H; eapply nth_error_In; exact Hk).
  assert (Hn : length (hd [] pp) = n).
  { destruct pp as [|x pp]; [destruct k; discriminate|]. apply H. left; reflexivity. }
  induction F as [|i idx Hi F IH]; [reflexivity|]. cbn [gather].
  assert (E1 : nth_error (moveaxis pp) i = Some (map (fun pd => nth i pd []) pp)).
  { unfold moveaxis. rewrite Hn, nth_error_map. rewrite (nth_error_nth' _ 0) by (rewrite seq_length; exact Hi).
    rewrite seq_nth by exact Hi. reflexivity. }
  assert (E2 : nth_error pd i = Some (nth i pd [])) by (apply nth_error_nth'; lia).
  rewrite E1, E2.
  destruct (gather (moveaxis pp) idx) as [rows|e] eqn:Eg; cbn [bind] in *.
  - cbn [map_res]. rewrite nth_error_map, Hk. cbn [option_map bind]. rewrite IH. reflexivity.
  - rewrite <- IH. reflexivity.
Qed.

Lemma dget_to_dict_gen l k s : dget Nat.eq_dec (combine (seq k (length l)) l) (k + s) = nth_error (l : list (arr R)) s.
Proof.
  revert k s; induction l as [|a l IH]; intros k s; [destruct s; reflexivity|]. cbn [length seq combine dget].
  destruct (Nat.eq_dec (k + s) k) as [E|E].
  - assert (s = 0) by lia. subst. reflexivity.
  - destruct s as [|s]; [lia|]. replace (k + S s) with (S k + s) by lia. apply IH.
Qed.
Lemma dget_to_dict l s : dget Nat.eq_dec (to_dict l) s = nth_error l s.
Proof. exact (dget_to_dict_gen l 0 s). Qed.

Lemma Forall2_nth {A B} (P : A -> B -> Prop) l r i a : Forall2 P l r -> nth_error l i = Some a ->
  exists b, nth_error r i = Some b /\ P a b.
Proof. intro F; revert i; induction F; intros [|i] Hi; cbn in *; try discriminate; [injection Hi as ->; eauto | eauto]. Qed.
Lemma Forall2_map_l' {A B C} (f : A -> C) (P : C -> B -> Prop) l r : Forall2 (fun a b => P (f a) b) l r -> Forall2 P (map f l) r.
Proof. induction 1; cbn; constructor; auto. Qed.

Section Object.
Variables (u : uvp R) (ta norm errw : bool) (exact_w : bool) (order : list Z -> list Z) (circ : list Q -> Q).
Variables (groups : list (list Z)) (weights : option (list (list R))) (u' : uvp R) (gs : list (list Z * list R)).
Hypothesis W : wf u.
Hypothesis Wd : widths u.
Hypothesis Na : narrow u.
Hypothesis Sw : errw = true -> stat_widths u.
Hypothesis Np : NoDup (u_polpair_array u).
Hypothesis Nn : nsamples_nonneg u.
Hypothesis Hgs : effective_groups u exact_w order groups weights = Ok gs.
Hypothesis Hav : average_spectra u exact_w order circ ta norm errw groups weights = Ok u'.
Hypothesis Hst : forall g, In g gs -> same_times u ta (fst g).

Let hd0 (g : list Z * list R) : Z := hd 0%Z (fst g).
Let nrow (g : list Z * list R) : nat := grows u ta (fst g).

Lemma avg_unfold : exists spws,
  map_res (average_spw u ta norm errw gs) (seq 0 (u_Nspws u)) = Ok spws /\
  blpair_rows u ta gs = Ok (u_blpair_array u') /\
  u_folded u' = u_folded u /\ u_spw_freq_array u' = u_spw_freq_array u /\ u_spw_dly_array u' = u_spw_dly_array u /\
  u_polpair_array u' = u_polpair_array u /\ u_dly_array u' = u_dly_array u /\ u_Nspws u' = u_Nspws u /\
  u_data u' = to_dict (map (fun x => fst (fst x)) spws) /\
  u_integration u' = to_dict (map (fun x => snd (fst x)) spws) /\
  u_nsample u' = to_dict (map snd spws).
Proof using Hgs Hav.
  clear -Hgs Hav. unfold average_spectra in Hav. rewrite Hgs in Hav. cbn [bind] in Hav.
  apply bind_ok in Hav. destruct Hav as [spws [Hs H]]. exists spws. split; [exact Hs|].
  apply bind_ok in H. destruct H as [bl [Hbl H]].
  do 6 (apply bind_ok in H; destruct H as [? [_ H]]). injection H as <-.
  repeat split. exact Hbl.
Qed.

Lemma blpair_rows_eq : u_blpair_array u' = concat (map (fun g => repeat (hd0 g) (nrow g)) gs) /\
  forall g, In g gs -> In (hd0 g) (u_blpair_array u).
Proof using Hgs Hav.
  destruct avg_unfold as [spws [_ [H _]]]. unfold blpair_rows in H. apply bind_ok in H. destruct H as [l [Hl H]].
  injection H as H. rewrite <- H. clear H. apply map_res_spec in Hl.
  assert (G : l = map (fun g => repeat (hd0 g) (nrow g)) gs /\ forall g, In g gs -> In (hd0 g) (u_blpair_array u)).
  { clear -Hl. induction Hl as [|g r gs l Hg Hl [IH1 IH2]]; [split; [reflexivity | intros ? []]|].
    apply bind_ok in Hg. destruct Hg as [idx [Hi Hg]]. injection Hg as <-.
    unfold blpair_to_indices in Hi. apply require_ok in Hi. destruct Hi as [Hm Hi]. injection Hi as <-.
    split.
    - cbn [map]. f_equal; [|exact IH1]. unfold nrow, grows, out_rows, hd0.
      destruct ta; [reflexivity|]. f_equal. apply where_mask_len.
    - intros x [<-|Hx]; [apply memZ_In; exact Hm | apply IH2, Hx]. }
  destruct G as [-> G]. split; [reflexivity | exact G].
Qed.

(** one polarization of one window: the blocks of the groups *)
Lemma spw_unfold s k p : s < u_Nspws u -> nth_error (u_polpair_array u) k = Some p ->
  exists A I S bs, dget Nat.eq_dec (u_data u') s = Some A /\ dget Nat.eq_dec (u_integration u') s = Some I /\
    dget Nat.eq_dec (u_nsample u') s = Some S /\
    Forall2 (fun g b => average_group u ta norm errw s p (fst g) (snd g) = Ok b) gs bs /\
    (forall idx, Forall (fun i => i < length (u_blpair_array u')) idx ->
      take_rows_pol A idx k = gather (concat (map b_data bs)) idx /\
      take_rows_pol I idx k = gather (concat (map (fun b => first_bin (b_ints b)) bs)) idx /\
      take_rows_pol S idx k = gather (concat (map (fun b => first_bin (b_nsmp b)) bs)) idx).
Proof using W Wd Na Sw Np Nn Hgs Hav Hst.
  intros Hs Hk. destruct avg_unfold as [spws [Hspw [_ [_ [_ [_ [_ [_ [_ [Ed [Ei En]]]]]]]]]]].
  destruct blpair_rows_eq as [Ebl _].
  apply map_res_spec in Hspw.
  assert (Es : nth_error (seq 0 (u_Nspws u)) s = Some s).
  { rewrite (nth_error_nth' _ 0) by (rewrite seq_length; exact Hs). rewrite seq_nth by exact Hs. reflexivity. }
  destruct (Forall2_nth _ _ _ s s Hspw Es) as [[[A I] S] [Hnth Hsp]].
  unfold average_spw in Hsp. apply bind_ok in Hsp. destruct Hsp as [pols [Hp Hsp]]. injection Hsp as <- <- <-.
  apply map_res_spec in Hp.
  (* every polarization has the same number of rows *)
  assert (Hlen : forall x, In x pols -> length (fst (fst x)) = length (u_blpair_array u') /\
            length (first_bin (snd (fst x))) = length (u_blpair_array u') /\ length (first_bin (snd x)) = length (u_blpair_array u')).
  { assert (FF : Forall (fun x => length (fst (fst x)) = length (u_blpair_array u') /\
            length (first_bin (snd (fst x))) = length (u_blpair_array u') /\ length (first_bin (snd x)) = length (u_blpair_array u')) pols).
    { eapply Forall2_Forall_r; [exact Hp|]. intros p' x _ Hx.
      apply bind_ok in Hx. destruct Hx as [bs [Hbs Hx]]. injection Hx as <-. cbn [fst snd].
      apply map_res_spec in Hbs. unfold first_bin. rewrite !map_length. rewrite Ebl. clear -Hbs W Wd Na Sw Np Nn Hst.
      induction Hbs as [|g b gs bs Hg Hbs IH]; [repeat split|].
      destruct IH as [I1 [I2 I3]]; [intros; apply Hst; right; assumption|].
      destruct (average_group_spec u ta norm errw W Wd Na Sw Np Nn s p' (fst g) (snd g) b (Hst g (or_introl eq_refl)) Hg) as [Sb _].
      cbn [map concat]. rewrite !app_length, I1, I2, I3, repeat_length.
      rewrite (sh_T _ _ _ _ Sb), (sh_Ti _ _ _ _ Sb), (sh_Tn _ _ _ _ Sb). unfold nrow. repeat split. }
    intros x Hx. rewrite Forall_forall in FF. apply FF, Hx. }
  destruct (Forall2_nth _ _ _ k p Hp Hk) as [[[D0 I0] S0] [Hnp Hpk]].
  apply bind_ok in Hpk. destruct Hpk as [bs [Hbs Hpk]]. injection Hpk as E1 E2 E3.
  apply map_res_spec in Hbs.
  exists (moveaxis (map (fun x => fst (fst x)) pols)), (moveaxis (map (fun x => first_bin (snd (fst x))) pols)),
    (moveaxis (map (fun x => first_bin (snd x)) pols)), bs.
  split; [rewrite Ed, dget_to_dict, nth_error_map, Hnth; reflexivity|].
  split; [rewrite Ei, dget_to_dict, nth_error_map, Hnth; reflexivity|].
  split; [rewrite En, dget_to_dict, nth_error_map, Hnth; reflexivity|].
  split; [exact Hbs|]. intros idx F.
  assert (FB : forall l, first_bin (concat (map l bs)) = concat (map (fun b => first_bin (l b)) bs)).
  { intro l. unfold first_bin. rewrite concat_map, map_map. reflexivity. }
  split; [|split].
  - apply take_moveaxis with (n := length (u_blpair_array u')); [| |exact F].
    + intros pd Hpd. apply in_map_iff in Hpd. destruct Hpd as [x [<- Hx]]. apply Hlen, Hx.
    + rewrite nth_error_map, Hnp. cbn. rewrite E1. reflexivity.
  - apply take_moveaxis with (n := length (u_blpair_array u')); [| |exact F].
    + intros pd Hpd. apply in_map_iff in Hpd. destruct Hpd as [x [<- Hx]]. apply Hlen, Hx.
    + rewrite nth_error_map, Hnp. cbn. rewrite <- E2, FB. reflexivity.
  - apply take_moveaxis with (n := length (u_blpair_array u')); [| |exact F].
    + intros pd Hpd. apply in_map_iff in Hpd. destruct Hpd as [x [<- Hx]]. apply Hlen, Hx.
    + rewrite nth_error_map, Hnp. cbn. rewrite <- E3, FB. reflexivity.
Qed.

Lemma from_neg_id {A} n (l : list A) : n = 0 \/ length l = n -> from_neg n l = l.
Proof. unfold from_neg. destruct n; [reflexivity|]. intros [H|H]; [lia|]. rewrite H, Nat.sub_diag. reflexivity. Qed.

(** * main theorem *)
Theorem averaged_lookup s p g ws :
  NoDup (map hd0 gs) ->
  In s (u_spw_freq_array u) -> In s (u_spw_dly_array u) -> In p (u_polpair_array u) -> In (g, ws) gs -> 1 <= length g ->
  exists blk, average_group u ta norm errw s p g ws = Ok blk /\
    get_data u' s (hd 0%Z g) p = Ok (b_data blk) /\
    get_array u_integration u' s (hd 0%Z g) p = Ok (first_bin (b_ints blk)) /\
    get_array u_nsample u' s (hd 0%Z g) p = Ok (first_bin (b_nsmp blk)).
Proof using W Wd Na Sw Np Nn Hgs Hav Hst.
  intros Nh Hs1 Hs2 Hp Hg Hlen.
  assert (HsN : s < u_Nspws u).
  { apply (wf_freq_in u W) in Hs1. apply (Permutation_in _ (wf_spw u W)) in Hs1. apply in_seq in Hs1. lia. }
  destruct (In_nth_error _ _ Hp) as [k Hk].
  destruct (spw_unfold s k p HsN Hk) as [A [I [S [bs [HA [HI [HS [Hbs Hidx]]]]]]]].
  destruct avg_unfold as [spws [_ [_ [Ef [Efr [Edl [Epo [Eda [EN _]]]]]]]]].
  destruct blpair_rows_eq as [Ebl Hin].
  destruct (In_nth_error _ _ Hg) as [j Hj].
  destruct (Forall2_nth _ _ _ j (g, ws) Hbs Hj) as [blk [Hblk Hag]]. cbn [fst snd] in Hag.
  assert (Shp : forall g0 b0, In g0 gs -> average_group u ta norm errw s p (fst g0) (snd g0) = Ok b0 ->
     shape (width u s) (wlen errw (width u s)) (nrow g0) b0).
  { intros g0 b0 H0 H1. apply (average_group_spec u ta norm errw W Wd Na Sw Np Nn s p (fst g0) (snd g0) b0 (Hst g0 H0) H1). }
  exists blk. split; [exact Hag|].
  assert (Hrow : 1 <= nrow (g, ws)).
  { unfold nrow, grows, out_rows. destruct ta; [lia|]. cbn [fst].
    unfold ntimes. pose proof (Hin _ Hg) as Hb. unfold hd0 in Hb. cbn in Hb. apply (count_occ_In Z.eq_dec) in Hb. lia. }
  assert (Kin : In (hd 0%Z g) (u_blpair_array u')).
  { rewrite Ebl. apply in_concat. exists (repeat (hd0 (g, ws)) (nrow (g, ws))). split.
    - apply in_map_iff. exists (g, ws). auto.
    - unfold hd0 at 1. cbn [fst]. destruct (nrow (g, ws)); [lia|]. left; reflexivity. }
  assert (K : known_key u' s (hd 0%Z g) p).
  { split; [rewrite Efr; exact Hs1|]. split; [rewrite Edl; exact Hs2|]. split; [exact Kin|]. rewrite Epo. exact Hp. }
  assert (Key : key_to_indices u' s (hd 0%Z g) p = Ok (s, where_ (or_maskZ (u_blpair_array u') [hd 0%Z g]), k)).
  { apply key_to_indices_ok; [rewrite Epo; exact Np | exact K | rewrite Epo; exact Hk]. }
  set (idx := where_ (or_maskZ (u_blpair_array u') [hd 0%Z g])) in *.
  assert (Fidx : Forall (fun i => i < length (u_blpair_array u')) idx).
  { eapply Forall_impl; [|apply where_range]. cbn. intros i. unfold or_maskZ. rewrite map_length. auto. }
  destruct (Hidx idx Fidx) as [T1 [T2 T3]].
  assert (Sel : forall (l : block -> list (list R)),
     (forall g0 b0, In g0 gs -> average_group u ta norm errw s p (fst g0) (snd g0) = Ok b0 -> length (l b0) = nrow g0) ->
     gather (concat (map l bs)) idx = Ok (l blk)).
  { intros l Hl. unfold idx.
    assert (F2 : Forall2 (fun g0 bl => length bl = nrow g0) gs (map l bs)).
    { clear -Hbs Hl. revert Hl. induction Hbs as [|g0 b0 gs bs H0 Hbs IH]; intro Hl; cbn; constructor.
      - apply Hl; [left; reflexivity | exact H0].
      - apply IH. intros g1 b1 Hg1. apply Hl. right; exact Hg1. }
    rewrite gather_mask.
    - f_equal. rewrite Ebl. change (hd 0%Z g) with (hd0 (g, ws)).
      apply (mask_groups hd0 nrow gs (map l bs) j (g, ws)); auto.
      rewrite nth_error_map, Hblk. reflexivity.
    - rewrite Ebl. clear -F2. induction F2 as [|g0 bl gs bls H F IH]; [reflexivity|].
      cbn [map concat]. rewrite !app_length, repeat_length, IH, H. reflexivity. }
  assert (G : forall f D (l : block -> list (list R)), dget Nat.eq_dec (f u') s = Some D ->
     take_rows_pol D idx k = gather (concat (map l bs)) idx ->
     (forall g0 b0, In g0 gs -> average_group u ta norm errw s p (fst g0) (snd g0) = Ok b0 -> length (l b0) = nrow g0) ->
     get_array f u' s (hd 0%Z g) p = Ok (l blk)).
  { intros f D l HD HT Hl. unfold get_array. rewrite Key. cbn [bind]. unfold lookup_arr, aget. rewrite HD. cbn [bind].
    rewrite HT. apply Sel, Hl. }
  split; [|split].
  - unfold get_data. rewrite (G (@u_data R) A b_data HA T1).
    2:{ intros g0 b0 H0 H1. apply (Shp g0 b0 H0 H1). }
    cbn [bind]. rewrite Ef, Edl. destruct (u_folded u) eqn:Efold; [|reflexivity].
    assert (Em : map (from_neg (length (filter (Nat.eqb s) (u_spw_dly_array u)) - length (filter (Nat.eqb s) (u_spw_dly_array u)) / 2 - 1)) (b_data blk) = b_data blk).
    { rewrite <- (map_id (b_data blk)) at 2. apply map_ext_in. intros x Hx. apply from_neg_id.
      pose proof (sh_data _ _ _ _ (Shp (g, ws) blk Hg Hag)) as FD. rewrite Forall_forall in FD. specialize (FD x Hx).
      unfold width in FD. rewrite Efold in FD. rewrite <- (window_dlys_len u s W).
      destruct (length (window_dlys u s) - length (window_dlys u s) / 2 - 1); [left; reflexivity | right; exact FD]. }
    cbv zeta. rewrite Em. reflexivity.
  - apply (G (@u_integration R) I (fun b => first_bin (b_ints b)) HI T2).
    intros g0 b0 H0 H1. unfold first_bin. rewrite map_length. apply (Shp g0 b0 H0 H1).
  - apply (G (@u_nsample R) S (fun b => first_bin (b_nsmp b)) HS T3).
    intros g0 b0 H0 H1. unfold first_bin. rewrite map_length. apply (Shp g0 b0 H0 H1).
Qed.
End Object.
