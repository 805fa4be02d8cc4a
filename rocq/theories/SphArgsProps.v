(** The bins of spherical_average, from its arguments (C381-C383). *)
From Coq Require Import Reals Lra.
From Verif Require Import Prelude SphModel SphArgsModel.
Open Scope R_scope.

(** ** Specification *)
(** an argument that numpy reads as these finite numbers: a scalar as a list of one *)
Definition numbers (a : narg) (l : list R) : Prop :=
  match a with NScalar x => l = [x] | NArray0 (Some x) => l = [x] | NArray l' => l' = map Some l | _ => False end.
(** widths for [n] bins: one Python number stands for all of them *)
Definition widths_for (n : nat) (a : narg) (l : list R) : Prop := match a with NScalar x => l = repeat x n | _ => numbers a l end.
(** [x] in units of h *)
Definition in_h (little_h : bool) (h x : R) : R := if little_h then x else x / h.
(** no bin starts more than 1e-6 before the end of the previous one *)
Definition ordered (bins : list kbin) : Prop :=
  forall i b1 b2, nth_error bins i = Some b1 -> nth_error bins (S i) = Some b2 -> right_edge b1 - / 10 ^ 6 <= left_edge b2.
(** the bins with these centres and widths *)
Definition bins_of (lh : bool) (h : R) (ks ws : list R) : list kbin := map (fun kw => mkbin (in_h lh h (fst kw)) (in_h lh h (snd kw))) (combine ks ws).
(** as [read_bins] returns them *)
Definition finite (bins : list kbin) : list (option R * option R) := map (fun b => (Some (centre b), Some (width b))) bins.

(** ** Lemmas *)
Lemma numbers_read a l : numbers a l -> as_1d_float_array a = Ok (map Some l).
Proof. destruct a as [x|[x|]|l'| |]; cbn; intro H; try contradiction; subst; reflexivity. Qed.
Lemma widths_read (ks : list R) a ws : widths_for (List.length ks) a ws -> read_widths (map Some ks) a = Ok (map Some ws).
Proof.
  destruct a as [x|x|l'| |]; cbn; intro H; try contradiction.
  - subst. f_equal. induction ks; cbn; [reflexivity | now f_equal].
  - destruct x; [now subst | contradiction].
  - now subst.
Qed.
Lemma combine_scaled (lh : bool) (h : R) (ks ws : list R) :
  combine (map (fun x : option R => if lh then x else option_map (fun x => x / h) x) (map Some ks))
          (map (fun x : option R => if lh then x else option_map (fun x => x / h) x) (map Some ws)) = finite (bins_of lh h ks ws).
Proof.
  unfold bins_of, finite. revert ws. induction ks as [|k ks IH]; intros [|w ws]; cbn; try reflexivity. rewrite IH. unfold in_h. now destruct lh.
Qed.
Lemma in_order_spec bins : in_order (finite bins) = true <-> ordered bins.
Proof.
  unfold ordered. induction bins as [|b1 [|b2 bins] IH].
  - split; [intros _ [|i]; discriminate | reflexivity].
  - split; [|reflexivity]. intros _ [|[|i]] ? ?; cbn; congruence.
  - cbn [in_order finite map fst snd]. change ((Some (centre b2), Some (width b2)) :: map (fun b => (Some (centre b), Some (width b))) bins) with (finite (b2 :: bins)).
    rewrite andb_true_iff, IH. clear IH. unfold starts_after, bin_left, bin_right, nan2, left_edge, right_edge. split.
    + intros [A B] [|i] x y; cbn [nth_error].
      * intros [= <-] [= <-]. destruct (Rle_dec _ _) as [L|]; [exact L | discriminate].
      * intros Hx Hy. exact (B i x y Hx Hy).
    + intro H. split.
      * specialize (H 0%nat b1 b2 eq_refl eq_refl). destruct (Rle_dec _ _); [reflexivity | contradiction].
      * intros i x y Hx Hy. exact (H (S i) x y Hx Hy).
Qed.

(** ** C381: the bins of spherical_average *)
(** Given finite numbers, the bins are read if and only if there are as many widths as centres and no bin starts more than 1e-6 (in units of h) before the
    end of the previous one; they are then the ones given, divided by h if little_h is off, in the order given. Otherwise: AssertionError. *)
Theorem bins_read : forall wc hc lh h kbins widths ks ws, (wc = true -> hc = true) -> numbers kbins ks -> widths_for (List.length ks) widths ws ->
  (List.length ks = List.length ws /\ ordered (bins_of lh h ks ws) -> read_bins true true wc hc lh h kbins widths = Ok (finite (bins_of lh h ks ws))) /\
  (~ (List.length ks = List.length ws /\ ordered (bins_of lh h ks ws)) -> read_bins true true wc hc lh h kbins widths = Err AssertionError).
Proof.
  intros wc hc lh h kbins widths ks ws HC NK NW. unfold read_bins. cbn [require]. rewrite (numbers_read _ _ NK). cbn [bind].
  assert (E : (negb wc || hc)%bool = true) by (destruct wc; [now rewrite HC | reflexivity]). rewrite E. cbn [require].
  rewrite (widths_read _ _ _ NW). cbn [bind]. rewrite combine_scaled, !map_length. unfold require.
  destruct (Nat.eqb_spec (List.length ks) (List.length ws)) as [EL|NL].
  - destruct (in_order (finite (bins_of lh h ks ws))) eqn:O.
    + split; [reflexivity|]. intro N. exfalso. apply N. split; [exact EL | now apply in_order_spec].
    + split; [|reflexivity]. intros [_ O']. apply in_order_spec in O'. congruence.
  - split; [|reflexivity]. intros [E' _]. contradiction.
Qed.

(** A Python number for the widths is the width of every bin; a numpy integer, or an array of one, that of one bin only. *)
Theorem one_width_for_all : forall lh h kbins ks x, numbers kbins ks ->
  (ordered (bins_of lh h ks (repeat x (List.length ks))) -> exists bins, read_bins true true false false lh h kbins (NScalar x) = Ok bins /\
      List.length bins = List.length ks /\ forall b, In b bins -> snd b = Some (in_h lh h x)) /\
  (List.length ks <> 1%nat -> read_bins true true false false lh h kbins (NArray0 (Some x)) = Err AssertionError /\
                              read_bins true true false false lh h kbins (NArray [Some x]) = Err AssertionError).
Proof.
  intros lh h kbins ks x NK. split.
  - intro O. exists (finite (bins_of lh h ks (repeat x (List.length ks)))). split.
    + apply bins_read; [discriminate | exact NK | reflexivity |]. split; [now rewrite repeat_length | exact O].
    + unfold finite, bins_of. rewrite !map_length, combine_length, repeat_length. split; [lia|]. intros b H. rewrite map_map in H. apply in_map_iff in H.
      destruct H as ([k w] & <- & Hin). cbn. apply in_combine_r in Hin. apply repeat_spec in Hin. now subst.
  - intro N. split; (apply (fun a b c d => proj2 (bins_read false false lh h kbins _ ks [x] a b c) d); [discriminate | exact NK | reflexivity |]; cbn; intros [E _]; contradiction).
Qed.

(** What is refused before, in this order: what is no UVPSpec object, what is no mutable mapping, centres that are no numbers or no list of numbers, weights by
    covariances that are not there, and widths that are no numbers or no list of numbers. *)
Theorem bins_refused : forall wc hc lh h,
  (forall m k w, read_bins false m wc hc lh h k w = Err TypeError) /\
  (forall k w, read_bins true false wc hc lh h k w = Err TypeError) /\
  (forall w, read_bins true true wc hc lh h NBad w = Err TypeError) /\
  (forall w, read_bins true true wc hc lh h NDeep w = Err ValueError) /\
  (forall k l w, as_1d_float_array k = Ok l -> wc = true -> hc = false -> read_bins true true wc hc lh h k w = Err AssertionError) /\
  (forall k l, as_1d_float_array k = Ok l -> (wc = true -> hc = true) ->
     read_bins true true wc hc lh h k NBad = Err TypeError /\ read_bins true true wc hc lh h k NDeep = Err ValueError).
Proof.
  intros wc hc lh h. repeat split.
  - intros k l w Hk -> ->. unfold read_bins. cbn [require]. rewrite Hk. reflexivity.
  - rename H into Hk, H0 into HC. unfold read_bins. cbn [require]. rewrite Hk. cbn [bind]. destruct wc; [rewrite HC by reflexivity|]; reflexivity.
  - rename H into Hk, H0 into HC. unfold read_bins. cbn [require]. rewrite Hk. cbn [bind]. destruct wc; [rewrite HC by reflexivity|]; reflexivity.
Qed.

(** The units of the arguments do not matter: given in 1/Mpc with little_h off, they are the bins given in h/Mpc with it on, and a mode is in a bin of
    the arguments if and only if, divided by h, it is in the bin that is used. *)
Theorem bins_units : forall h ks ws, bins_of false h ks ws = bins_of true h (map (fun x => x / h) ks) (map (fun x => x / h) ws).
Proof. intros h ks. unfold bins_of, in_h. induction ks as [|k ks IH]; intros [|w ws]; cbn; try reflexivity. now rewrite IH. Qed.
Theorem scaled_bin : forall h c w k, 0 < h -> in_bin (mkbin (in_h false h c) (in_h false h w)) (k / h) = in_bin (mkbin c w) k.
Proof.
  intros h c w k Hh. assert (Hi : 0 < / h) by now apply Rinv_0_lt_compat.
  assert (L : left_edge (mkbin (in_h false h c) (in_h false h w)) = left_edge (mkbin c w) * / h) by (unfold left_edge, in_h; cbn; field; lra).
  assert (G : right_edge (mkbin (in_h false h c) (in_h false h w)) = right_edge (mkbin c w) * / h) by (unfold right_edge, in_h; cbn; field; lra).
  unfold in_bin. rewrite L, G. unfold Rdiv.
  destruct (Rlt_dec (left_edge (mkbin c w)) k) as [A|A], (Rlt_dec (left_edge (mkbin c w) * / h) (k * / h)) as [B|B]; try reflexivity.
  - destruct (Rle_dec k (right_edge (mkbin c w))) as [A'|A'], (Rle_dec (k * / h) (right_edge (mkbin c w) * / h)) as [B'|B']; try reflexivity.
    + exfalso. apply B'. apply Rmult_le_compat_r; lra.
    + exfalso. apply A'. apply (Rmult_le_reg_r (/ h)); assumption.
  - exfalso. apply B. apply Rmult_lt_compat_r; lra.
  - exfalso. apply A. apply (Rmult_lt_reg_r (/ h)); assumption.
Qed.

(** ** C382: no wavenumber is in two bins *)
(** What the check is worth: if no width is negative, a wavenumber that is in bins [i] and [j], i < j, is within (j-i) 1e-6 of the end of bin [i] and
    of the start of bin [j]. *)
Lemma ordered_far bins : ordered bins -> (forall b, In b bins -> 0 <= width b) -> forall n i b1 b2,
  nth_error bins i = Some b1 -> nth_error bins (S n + i) = Some b2 -> right_edge b1 - INR (S n) * / 10 ^ 6 <= left_edge b2.
Proof.
  intros O W. induction n as [|n IH]; intros i b1 b2 H1 H2.
  - cbn [INR]. rewrite Rmult_1_l. now apply (O i).
  - destruct (nth_error bins (S n + i)) as [b|] eqn:Hb.
    + specialize (IH i b1 b H1 Hb). specialize (O (S n + i)%nat b b2 Hb H2). specialize (W b (nth_error_In _ _ Hb)).
      rewrite S_INR. unfold left_edge, right_edge in *. lra.
    + exfalso. apply nth_error_None in Hb. assert (S (S n) + i < List.length bins)%nat by (apply nth_error_Some; congruence). lia.
Qed.
Theorem overlap_small : forall bins i j b1 b2 k, ordered bins -> (forall b, In b bins -> 0 <= width b) ->
  (i < j)%nat -> nth_error bins i = Some b1 -> nth_error bins j = Some b2 -> in_bin b1 k = true -> in_bin b2 k = true ->
  right_edge b1 - INR (j - i) * / 10 ^ 6 <= left_edge b2 /\ left_edge b2 < k <= right_edge b1.
Proof.
  intros bins i j b1 b2 k O W L H1 H2 K1 K2.
  pose proof (ordered_far bins O W (j - i - 1) i b1 b2 H1) as F. replace (S (j - i - 1) + i)%nat with j in F by lia. specialize (F H2).
  replace (S (j - i - 1)) with (j - i)%nat in F by lia. unfold in_bin in K1, K2.
  destruct (Rlt_dec (left_edge b1) k); [|discriminate]. destruct (Rle_dec k (right_edge b1)); [|discriminate].
  destruct (Rlt_dec (left_edge b2) k); [|discriminate]. lra.
Qed.
(** Bins whose edges do not overlap at all share no wavenumber. *)
Theorem no_overlap_partial : forall bins i j b1 b2 k,
  (forall i b1 b2, nth_error bins i = Some b1 -> nth_error bins (S i) = Some b2 -> right_edge b1 <= left_edge b2) -> (forall b, In b bins -> 0 <= width b) ->
  nth_error bins i = Some b1 -> nth_error bins j = Some b2 -> in_bin b1 k = true -> in_bin b2 k = true -> i = j.
Proof.
  intros bins i j b1 b2 k O W.
  assert (F : forall n i b1 b2, nth_error bins i = Some b1 -> nth_error bins (S n + i) = Some b2 -> right_edge b1 <= left_edge b2).
  { induction n as [|n IH]; intros i0 c1 c2 H1 H2; [now apply (O i0)|]. destruct (nth_error bins (S n + i0)) as [b|] eqn:Hb.
    - specialize (IH i0 c1 b H1 Hb). specialize (O (S n + i0)%nat b c2 Hb H2). specialize (W b (nth_error_In _ _ Hb)). unfold left_edge, right_edge in *. lra.
    - exfalso. apply nth_error_None in Hb. assert (S (S n) + i0 < List.length bins)%nat by (apply nth_error_Some; congruence). lia. }
  assert (G : forall i j b1 b2, (i < j)%nat -> nth_error bins i = Some b1 -> nth_error bins j = Some b2 -> in_bin b1 k = true -> in_bin b2 k = true -> False).
  { intros i0 j0 c1 c2 L H1 H2 K1 K2. specialize (F (j0 - i0 - 1)%nat i0 c1 c2 H1). replace (S (j0 - i0 - 1) + i0)%nat with j0 in F by lia. specialize (F H2).
    unfold in_bin in K1, K2. destruct (Rlt_dec (left_edge c1) k); [|discriminate]. destruct (Rle_dec k (right_edge c1)); [|discriminate].
    destruct (Rlt_dec (left_edge c2) k); [|discriminate]. lra. }
  intros H1 H2 K1 K2. destruct (lt_eq_lt_dec i j) as [[L|E]|L]; [|exact E|]; exfalso; eauto.
Qed.
(** But bins that share wavenumbers are accepted: within 1e-6, or, with a negative width between them, two equal bins. *)
Theorem overlap_accepted :
  (exists bins b1 b2 k, read_bins true true false false true (7/10) (NArray [Some 1; Some 2]) (NArray [Some 1; Some (1 + / 10 ^ 6)]) = Ok (finite bins) /\
     bins = [b1; b2] /\ in_bin b1 k = true /\ in_bin b2 k = true) /\
  (exists bins b b', read_bins true true false false true (7/10) (NArray [Some 5; Some 0; Some 5]) (NArray [Some 2; Some (-20); Some 2]) = Ok (finite bins) /\
     bins = [b; b'; b] /\ forall k, 4 < k <= 6 -> in_bin b k = true).
Proof.
  split.
  - exists (bins_of true (7/10) [1; 2] [1; 1 + / 10 ^ 6]), (mkbin 1 1), (mkbin 2 (1 + / 10 ^ 6)), (3/2). split.
    + apply bins_read; [discriminate | reflexivity | reflexivity |]. split; [reflexivity|]. intros [|[|i]] b1 b2; cbn; try congruence.
      intros [= <-] [= <-]. unfold left_edge, right_edge, in_h. cbn. lra.
    + split; [reflexivity|]. unfold in_bin, left_edge, right_edge. cbn [centre width].
      destruct (Rlt_dec _ _); [|exfalso; lra]. destruct (Rle_dec _ _); [|exfalso; lra]. destruct (Rlt_dec _ _); [|exfalso; lra]. destruct (Rle_dec _ _); [|exfalso; lra]. auto.
  - exists (bins_of true (7/10) [5; 0; 5] [2; -20; 2]), (mkbin 5 2), (mkbin 0 (-20)). split.
    + apply bins_read; [discriminate | reflexivity | reflexivity |]. split; [reflexivity|]. intros [|[|[|i]]] b1 b2; cbn; try congruence;
        intros [= <-] [= <-]; unfold left_edge, right_edge, in_h; cbn; lra.
    + split; [reflexivity|]. intros k K. unfold in_bin, left_edge, right_edge. cbn. destruct (Rlt_dec _ _); [|exfalso; lra]. destruct (Rle_dec _ _); [reflexivity|exfalso; lra].
Qed.

(** ** C383: centres and widths that are not numbers are refused *)
(** Among two or more bins a nan is refused, wherever it is. *)
Lemma in_order_nan bins : (2 <= List.length bins)%nat -> (exists b, In b bins /\ (fst b = None \/ snd b = None)) -> in_order bins = false.
Proof.
  assert (NL : forall b r, (fst b = None \/ snd b = None) -> starts_after (bin_left (fst b) (snd b)) r = false)
    by (intros b r [-> | ->]; cbn; [reflexivity | destruct (fst b); reflexivity]).
  assert (NR : forall b l, (fst b = None \/ snd b = None) -> starts_after l (bin_right (fst b) (snd b)) = false)
    by (intros b l [-> | ->]; cbn; [destruct l; reflexivity | destruct (fst b), l; reflexivity]).
  induction bins as [|b1 [|b2 bins] IH]; cbn [List.length]; intros L (b & Hin & Hb); [lia | lia |].
  cbn [in_order]. apply andb_false_iff. destruct Hin as [<-|Hin]; [left; now apply NR|]. destruct Hin as [<-|Hin]; [left; now apply NL|].
  right. apply IH; [destruct bins; [destruct Hin | cbn; lia] | exists b; split; [now right | exact Hb]].
Qed.
Theorem nan_refused_partial : forall lh h ks ws, (2 <= List.length ks)%nat -> (In None ks \/ In None ws) ->
  read_bins true true false false lh h (NArray ks) (NArray ws) = Err AssertionError.
Proof.
  intros lh h ks ws L N. unfold read_bins. cbn [require as_1d_float_array read_widths bind negb orb]. rewrite !map_length.
  set (sc := fun x : option R => if lh then x else option_map (fun x => x / h) x). assert (SN : sc None = None) by (unfold sc; now destruct lh).
  destruct (Nat.eqb_spec (List.length ks) (List.length ws)) as [E|E]; [cbn [require] | reflexivity].
  rewrite in_order_nan; [reflexivity | rewrite combine_length, !map_length; lia |].
  destruct N as [N|N]; apply In_nth_error in N; destruct N as (i & Hi).
  - destruct (nth_error ws i) as [w|] eqn:Hw.
    + exists (sc None, sc w). split; [|left; exact SN]. clear - Hi Hw. revert ws i Hi Hw. induction ks as [|k ks IH]; intros [|w' ws] [|i]; cbn; try discriminate.
      * intros [= ->] [= ->]. now left.
      * intros Hi Hw. right. eauto.
    + exfalso. apply nth_error_None in Hw. assert (i < List.length ks)%nat by (apply nth_error_Some; congruence). lia.
  - destruct (nth_error ks i) as [k|] eqn:Hk.
    + exists (sc k, sc None). split; [|right; exact SN]. clear - Hi Hk. revert ws i Hi Hk. induction ks as [|k' ks IH]; intros [|w' ws] [|i]; cbn; try discriminate.
      * intros [= ->] [= ->]. now left.
      * intros Hi Hw. right. eauto.
    + exfalso. apply nth_error_None in Hk. assert (i < List.length ws)%nat by (apply nth_error_Some; congruence). lia.
Qed.
(** A single one is not: kbins=None, or a width None, makes one bin, that has no edges. *)
Theorem nan_accepted : forall lh h x,
  read_bins true true false false lh h (NArray0 None) (NScalar x) = Ok [(None, Some (in_h lh h x))] /\
  read_bins true true false false lh h (NScalar x) (NArray0 None) = Ok [(Some (in_h lh h x), None)] /\
  bin_left None (Some (in_h lh h x)) = None /\ bin_right None (Some (in_h lh h x)) = None /\
  bin_left (Some (in_h lh h x)) None = None /\ bin_right (Some (in_h lh h x)) None = None.
Proof. intros lh h x. unfold read_bins, in_h. destruct lh; repeat split; reflexivity. Qed.

(** witness *)
Theorem bins_nonvacuous : read_bins true true true true false (1/2) (NArray [Some 1; Some 2]) (NScalar 1) = Ok (finite [mkbin 2 2; mkbin 4 2]) /\
  read_bins true true false false false (1/2) (NArray [Some 1; Some 2]) (NScalar 2) = Err AssertionError.
Proof.
  split.
  - assert (E : [mkbin 2 2; mkbin 4 2] = bins_of false (1/2) [1; 2] [1; 1]) by (unfold bins_of, in_h; cbn; repeat f_equal; lra). rewrite E.
    apply bins_read; [reflexivity | reflexivity | reflexivity |]. split; [reflexivity|]. intros [|[|i]] b1 b2; cbn; try congruence.
    intros [= <-] [= <-]. unfold left_edge, right_edge, in_h. cbn. lra.
  - apply (fun a b c d => proj2 (bins_read false false false (1/2) _ _ [1; 2] [2; 2] a b c) d); [discriminate | reflexivity | reflexivity |]. intros [_ O]. specialize (O 0%nat _ _ eq_refl eq_refl).
    unfold left_edge, right_edge, in_h in O. cbn in O. lra.
Qed.
