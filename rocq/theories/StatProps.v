(** C183-C188: statistics arrays and bootstrap error estimates. *)
From Coq Require Import String.
From Coq Require Import Reals Lra.
From Coq Require Import Sorted.
From Flocq Require Import Core.
From Verif Require Import PyDict.
From Verif Require Import Prelude CNum CovqModel CovqProps StatModel.
Open Scope R_scope.

Section S.
Context (nd : nat -> nat).
Notation set_stats := (set_stats nd).
Lemma index_in_nth rows : NoDup rows -> forall i t, nth_error rows i = Some t -> index_in t rows = Some i.
Proof.
  induction 1 as [| r rows N ND IH]; intros [| i] t H; cbn in *; try discriminate.
  - injection H as ->. rewrite Nat.eqb_refl. reflexivity.
  - destruct (Nat.eqb_spec t r) as [-> | _]; [exfalso; apply N; eapply nth_error_In, H |]. rewrite (IH _ _ H). reflexivity.
Qed.
Lemma index_in_None t rows : ~ In t rows -> index_in t rows = None.
Proof. induction rows as [| r rows IH]; intros N; cbn; [reflexivity |]. destruct (Nat.eqb_spec t r) as [-> | _]; [exfalso; apply N; left; reflexivity |]. rewrite IH; [reflexivity |]. intros Q. apply N. right. exact Q. Qed.
(** What is set is what is got back; nothing else changes; a new statistic is nan where it was not set; a wrong shape is an error *)
Theorem stats_set_get :
  forall S name spw rows pol shape cplx v S', NoDup rows -> set_stats S name spw rows pol shape cplx v = Ok S' ->
    (forall a, dget string_dec S name = Some a -> st_cplx a = false -> forall i d, im (v i d) = 0) -> (cplx = false -> forall i d, im (v i d) = 0) ->
    (exists g, get_stats S' name spw rows pol = Ok g /\ forall i d, (i < length rows)%nat -> (d < nd spw)%nat -> g i d = Some (v i d)) /\
    (forall n, n <> name -> dget string_dec S' n = dget string_dec S n) /\
    (exists a', dget string_dec S' name = Some a' /\ forall w t d p, (w <> spw \/ p <> pol \/ ~ In t rows) ->
       st_val a' w t d p = match dget string_dec S name with Some a => st_val a w t d p | None => None end).
Proof.
  intros S name spw rows pol shape cplx v S' ND H HR HC. unfold StatModel.set_stats, require in H. destruct (_ && _)%bool; [| discriminate]. injection H as <-. unfold get_stats.
  rewrite dget_dset. destruct (string_dec name name) as [_ |]; [| congruence]. split; [| split].
  - eexists. split; [reflexivity |]. intros i d Hi Hd. cbn beta. destruct (nth_error rows i) as [t |] eqn:E; [| apply nth_error_None in E; lia]. cbn [assign st_val].
    rewrite !Nat.eqb_refl. replace (Nat.ltb d (nd spw)) with true by (symmetry; apply Nat.ltb_lt, Hd). cbn [andb]. rewrite (index_in_nth _ ND _ _ E). f_equal. unfold cast.
    destruct (dget string_dec S name) as [a |] eqn:D.
    + destruct (st_cplx a) eqn:Ca; [reflexivity |]. specialize (HR a eq_refl Ca i d). destruct (v i d) as [x y]. cbn in *. unfold RtoC. congruence.
    + cbn [st_cplx]. destruct cplx; [reflexivity |]. specialize (HC eq_refl i d). destruct (v i d) as [x y]. cbn in *. unfold RtoC. congruence.
  - intros n N. rewrite dget_dset. destruct (string_dec n name); congruence.
  - eexists. split; [reflexivity |]. intros w t d p N. unfold assign. cbn [st_val]. set (a0 := match dget string_dec S name with Some a => a | None => mkstat cplx (fun _ _ _ _ => None) end).
    assert (E0 : st_val a0 w t d p = match dget string_dec S name with Some a => st_val a w t d p | None => None end) by (unfold a0; destruct (dget string_dec S name); reflexivity).
    destruct (Nat.eqb_spec w spw) as [-> |]; [| exact E0]. destruct (Nat.eqb_spec p pol) as [-> |]; [| exact E0]. destruct (Nat.ltb d (nd spw)); cbn [andb]; [| exact E0].
    rewrite index_in_None by (destruct N as [N | [N | N]]; [congruence | congruence | exact N]). exact E0.
Qed.
Theorem stats_shape :
  forall S name spw rows pol shape cplx v, shape <> (length rows, nd spw) <-> set_stats S name spw rows pol shape cplx v = Err ValueError.
Proof.
  intros S name spw rows pol [a b] cplx v. unfold StatModel.set_stats, require. cbn [fst snd]. destruct (Nat.eqb_spec a (length rows)) as [-> | N1], (Nat.eqb_spec b (nd spw)) as [-> | N2]; cbn [andb]; split; intros H; try congruence; try discriminate; auto; exfalso; auto.
Qed.
Section Sl.
Context (dly : nat -> nat -> R) (bllen : nat -> R).
Lemma slice_fold m b above val l : forall a w t d p,
  st_val (fold_left (slice_one dly bllen m b above val) l a) w t d p =
  if existsb (fun wb => Nat.eqb w (fst wb) && (if in_dec Nat.eq_dec t (snd wb) then true else false) && sel_dly above m b (mean (map bllen (snd wb))) (dly w d))%bool l then Some (RtoC val) else st_val a w t d p.
Proof.
  induction l as [| x l IH]; intros a w t d p; cbn [fold_left existsb]; [reflexivity |]. rewrite IH. cbn [slice_one st_val].
  destruct (existsb _ l); [rewrite orb_true_r; reflexivity |]. rewrite orb_false_r. reflexivity.
Qed.
(** the line through the (mean) length of the baseline-pair of row t *)
Theorem stats_slice :
  forall nspw blrows S name m b above val S' a rows w t d p, set_stats_slice dly bllen nspw blrows S name m b above val = Ok S' -> dget string_dec S name = Some a ->
    (w < nspw)%nat -> In rows blrows -> In t rows -> (forall rows', In rows' blrows -> In t rows' -> rows' = rows) ->
    let line := mean (map bllen rows) * m + b in let tau := Rabs (dly w d * 10 ^ 9) in
    exists a', dget string_dec S' name = Some a' /\
      ((if above then tau > line else tau < line) -> st_val a' w t d p = Some (RtoC val)) /\
      (~ (if above then tau > line else tau < line) -> st_val a' w t d p = st_val a w t d p).
Proof.
  intros nspw blrows S name m b above val S' a rows w t d p H D Hw Hr Ht Hu line tau. unfold set_stats_slice in H. rewrite D in H. injection H as <-. rewrite dget_dset. destruct (string_dec name name) as [_ |]; [| congruence].
  eexists. split; [reflexivity |]. rewrite slice_fold.
  assert (E : existsb (fun wb => Nat.eqb w (fst wb) && (if in_dec Nat.eq_dec t (snd wb) then true else false) && sel_dly above m b (mean (map bllen (snd wb))) (dly w d))%bool (list_prod (seq 0 nspw) blrows) = sel_dly above m b (mean (map bllen rows)) (dly w d)).
  { apply eq_true_iff_eq. rewrite existsb_exists. split.
    - intros ([w' rows'] & I & Q). apply in_prod_iff in I. cbn [fst snd] in Q. rewrite !andb_true_iff in Q. destruct Q as [[_ Q] Q']. destruct (in_dec Nat.eq_dec t rows') as [It |]; [| discriminate]. rewrite (Hu rows' (proj2 I) It) in Q'. exact Q'.
    - intros Q. exists (w, rows). split; [apply in_prod_iff; split; [apply in_seq; lia | exact Hr] |]. cbn [fst snd]. rewrite Nat.eqb_refl. destruct (in_dec Nat.eq_dec t rows); [exact Q | contradiction]. }
  rewrite E. unfold sel_dly. fold line tau. destruct above; [destruct (Rgt_dec tau line) | destruct (Rlt_dec tau line)]; split; intros Q; try reflexivity; try contradiction; exfalso; exact (Q r).
Qed.
End Sl.
End S.
(** a real array that was set first keeps its type: imaginary parts of a later complex one are lost *)
Theorem stats_set_get_refuted :
  ~ (forall S name spw rows pol shape cplx v S', NoDup rows -> set_stats (fun _ => 1%nat) S name spw rows pol shape cplx v = Ok S' ->
       exists g, get_stats S' name spw rows pol = Ok g /\ forall i d, (i < length rows)%nat -> (d < 1)%nat -> g i d = Some (v i d)).
Proof.
  intros H. specialize (H [("e"%string, mkstat false (fun _ _ _ _ => None))] "e"%string 0%nat [0%nat] 0%nat (1, 1)%nat true (fun _ _ => mkC 0 1)).
  assert (E : exists S', set_stats (fun _ => 1%nat) [("e"%string, mkstat false (fun _ _ _ _ => None))] "e"%string 0%nat [0%nat] 0%nat (1, 1)%nat true (fun _ _ => mkC 0 1) = Ok S' /\
     get_stats S' "e"%string 0%nat [0%nat] 0%nat = Ok (fun i d => match nth_error [0%nat] i with Some t => st_val (assign (fun _ => 1%nat) (mkstat false (fun _ _ _ _ => None)) 0 [0%nat] 0 (fun _ _ => mkC 0 1)) 0 t d 0 | None => None end)) by (eexists; split; reflexivity).
  destruct E as (S' & E & G). destruct (H S' ltac:(repeat constructor; intros []) E) as (g & G' & Q). rewrite G in G'. injection G' as <-.
  specialize (Q 0%nat 0%nat ltac:(cbn; lia) ltac:(lia)). cbn in Q. injection Q as Q. lra.
Qed.

(** ** standard deviation of the resamples *)
Lemma sumR_map_ext {A} (f g : A -> R) l : (forall x, In x l -> f x = g x) -> fold_right Rplus 0 (map f l) = fold_right Rplus 0 (map g l).
Proof. induction l as [| x l IH]; intros H; cbn; [reflexivity |]. rewrite (H x) by (left; reflexivity). rewrite IH by (intros; apply H; right; assumption). reflexivity. Qed.
Lemma sumR_affine {A} (f : A -> R) a b l : fold_right Rplus 0 (map (fun x => a * f x + b) l) = a * fold_right Rplus 0 (map f l) + INR (length l) * b.
Proof. induction l as [| x l IH]; [cbn; ring |]. cbn [map fold_right length]. rewrite IH, S_INR. ring. Qed.
Lemma mean_affine l a b : l <> [] -> mean (map (fun x => a * x + b) l) = a * mean l + b.
Proof.
  intros N. unfold mean. rewrite (sumR_affine (fun x => x)), map_id, map_length. assert (INR (length l) <> 0) by (apply not_0_INR; destruct l; [congruence | discriminate]). field. assumption.
Qed.
Lemma mean_nonneg l : (forall x, In x l -> 0 <= x) -> 0 <= mean l.
Proof.
  intros H. unfold mean. destruct l as [| x l]; [cbn; rewrite Rdiv_0_l || (unfold Rdiv; rewrite Rmult_0_l); lra |]. apply Rmult_le_pos; [| left; apply Rinv_0_lt_compat, lt_0_INR; cbn; lia].
  revert H. generalize (x :: l). intros m. induction m as [| y m IH]; intros H; cbn; [lra |]. pose proof (H y (or_introl eq_refl)). assert (0 <= fold_right Rplus 0 m) by (apply IH; intros; apply H; right; assumption). lra.
Qed.
Lemma sum_nonneg_0 l : (forall x, In x l -> 0 <= x) -> fold_right Rplus 0 l = 0 -> forall x, In x l -> x = 0.
Proof.
  induction l as [| y l IH]; intros H E x I; [destruct I |]. cbn in E. pose proof (H y (or_introl eq_refl)).
  assert (H' : forall z, In z l -> 0 <= z) by (intros; apply H; right; assumption).
  assert (0 <= fold_right Rplus 0 l) by (clear -H'; induction l as [| z l IH]; cbn; [lra |]; pose proof (H' z (or_introl eq_refl)); assert (0 <= fold_right Rplus 0 l) by (apply IH; intros; apply H'; right; assumption); lra).
  destruct I as [<- | I]; [lra | apply IH; auto; lra].
Qed.
Theorem std_zero : forall l, l <> [] -> (stdR l = 0 <-> forall x y, In x l -> In y l -> x = y).
Proof.
  intros l N. assert (NZ : INR (length l) <> 0) by (apply not_0_INR; destruct l; [congruence | discriminate]).
  assert (SQ : forall x, In x (map (fun x => (x - mean l) ^ 2) l) -> 0 <= x) by (intros z I; apply in_map_iff in I; destruct I as (x & <- & _); apply pow2_ge_0).
  unfold stdR. split.
  - intros H x y Hx Hy. apply sqrt_eq_0 in H; [| apply mean_nonneg, SQ]. unfold mean at 1 in H. rewrite map_length in H.
    assert (Z : fold_right Rplus 0 (map (fun x => (x - mean l) ^ 2) l) = 0). { apply (Rmult_eq_compat_r (INR (length l))) in H. unfold Rdiv in H. rewrite Rmult_assoc, Rinv_l in H by assumption. lra. }
    assert (G : forall z, In z l -> z = mean l). { intros z I. assert (Q : (z - mean l) ^ 2 = 0) by (apply (sum_nonneg_0 _ SQ Z); apply in_map_iff; exists z; auto). nra. }
    rewrite (G x Hx), (G y Hy). reflexivity.
  - intros H. destruct l as [| x0 l]; [congruence |]. set (m := x0 :: l) in *. assert (M : mean m = x0).
    { unfold mean. assert (E : fold_right Rplus 0 m = INR (length m) * x0). { rewrite <- (map_id m). rewrite (sumR_map_ext (fun x => x) (fun x => 0 * x + x0)) by (intros y I; rewrite (H y x0 I (or_introl eq_refl)); ring). rewrite (sumR_affine (fun x => x)), map_length. ring. }
      rewrite E. field. assumption. }
    assert (E : map (fun x => (x - mean m) ^ 2) m = map (fun x => 0 * x + 0) m). { apply map_ext_in. intros y I. rewrite M, (H y x0 I (or_introl eq_refl)). ring. }
    rewrite E, mean_affine by discriminate. replace (0 * mean m + 0) with 0 by ring. apply sqrt_0.
Qed.
(** the error scales with the data and does not see a common offset *)
Theorem std_affine : forall l a b, l <> [] -> stdR (map (fun x => a * x + b) l) = Rabs a * stdR l.
Proof.
  intros l a b N. unfold stdR. rewrite mean_affine by exact N. rewrite map_map.
  assert (E : map (fun x => (a * x + b - (a * mean l + b)) ^ 2) l = map (fun y => a ^ 2 * y + 0) (map (fun x => (x - mean l) ^ 2) l)) by (rewrite map_map; apply map_ext; intros; ring).
  rewrite E, mean_affine by (destruct l; [congruence | discriminate]). rewrite Rplus_0_r, sqrt_mult_alt by apply pow2_ge_0. rewrite <- Rsqr_pow2, sqrt_Rsqr_abs. reflexivity.
Qed.

(** ** percentiles *)
Lemma insertR_sorted x l : StronglySorted Rle l -> StronglySorted Rle (insertR x l).
Proof.
  induction 1 as [| y l S IH F]; cbn; [repeat constructor |]. destruct (Rle_dec x y) as [L | G]; [constructor; [constructor; assumption | constructor; [assumption |]; eapply Forall_impl; [| exact F]; intros z; cbn; lra] |].
  constructor; [assumption |]. apply Forall_forall. intros z I. apply insertR_In in I. rewrite Forall_forall in F. destruct I as [-> | I]; [lra | auto].
Qed.
Lemma sortR_sorted l : StronglySorted Rle (sortR l).
Proof. induction l as [| x l IH]; cbn; [constructor |]. apply insertR_sorted, IH. Qed.
Lemma sorted_nth s : StronglySorted Rle s -> forall i j, (i <= j < length s)%nat -> nth i s 0 <= nth j s 0.
Proof.
  induction 1 as [| x s S IH F]; intros i j H; cbn in H; [lia |]. destruct j as [| j]; [assert (i = 0%nat) by lia; subst; lra |]. destruct i as [| i].
  - cbn. rewrite Forall_forall in F. apply F, nth_In. lia.
  - cbn. apply IH. lia.
Qed.
Section Pct.
Context (s : list R) (SS : StronglySorted Rle s) (NE : s <> []).
Lemma len_pos : (0 < length s)%nat. Proof. destruct s; [congruence | cbn; lia]. Qed.
Lemma interp_seg t : 0 <= t <= INR (length s - 1) -> let i := Z.to_nat (Zfloor t) in (i < length s)%nat /\ nth i s 0 <= interp s t <= nth (Nat.min (i + 1) (length s - 1)) s 0 /\ 0 <= t - IZR (Zfloor t) < 1.
Proof.
  intros H i. pose proof len_pos as LP. pose proof (Zfloor_lb t) as LB. pose proof (Zfloor_ub t) as UB.
  assert (F0 : (0 <= Zfloor t)%Z) by (apply Zfloor_lub; cbn; lra). assert (F1 : (Zfloor t <= Z.of_nat (length s - 1))%Z) by (apply le_IZR; rewrite <- INR_IZR_INZ; lra).
  assert (Hi : (i < length s)%nat) by (unfold i; lia). split; [exact Hi |]. split; [| lra].
  unfold interp. fold i. pose proof (sorted_nth s SS i (Nat.min (i + 1) (length s - 1)) ltac:(lia)). split; nra.
Qed.
Lemma interp_mono t u : 0 <= t -> t <= u -> u <= INR (length s - 1) -> interp s t <= interp s u.
Proof.
  intros H0 H1 H2. pose proof len_pos as LP. destruct (interp_seg t ltac:(lra)) as (Ti & TB & T1). destruct (interp_seg u ltac:(lra)) as (Ui & UB & U1).
  assert (F : (Zfloor t <= Zfloor u)%Z) by (apply Zfloor_le; assumption). assert (F0 : (0 <= Zfloor t)%Z) by (apply Zfloor_lub; cbn; lra).
  destruct (Z.eq_dec (Zfloor t) (Zfloor u)) as [E | NEq].
  - unfold interp. rewrite <- E. set (i := Z.to_nat (Zfloor t)) in *. pose proof (sorted_nth s SS i (Nat.min (i + 1) (length s - 1)) ltac:(lia)).
    assert ((t - IZR (Zfloor t)) * (nth (Nat.min (i + 1) (length s - 1)) s 0 - nth i s 0) <= (u - IZR (Zfloor t)) * (nth (Nat.min (i + 1) (length s - 1)) s 0 - nth i s 0)) by (apply Rmult_le_compat_r; lra). lra.
  - apply Rle_trans with (nth (Z.to_nat (Zfloor u)) s 0); [| apply UB]. apply Rle_trans with (1 := proj2 TB). apply sorted_nth; [exact SS | lia].
Qed.
End Pct.
Lemma sortR_ne l : l <> [] -> sortR l <> [].
Proof. intros N E. apply (f_equal (@length R)) in E. rewrite sortR_length in E. destruct l; [congruence | discriminate]. Qed.
(** percentiles are ordered *)
Theorem percentile_mono : forall l q q', l <> [] -> 0 <= q -> q <= q' -> q' <= 100 -> percentile l q <= percentile l q'.
Proof.
  intros l q q' N H0 H1 H2. unfold percentile. assert (P : 0 <= INR (length l - 1)) by apply pos_INR. apply interp_mono; try nra; [apply sortR_sorted | apply sortR_ne, N |]. rewrite sortR_length. nra.
Qed.
(** percentile 0 is the smallest and percentile 100 the largest sample, 50 the median; all lie between *)
Lemma interp_nat s i : (i < length s)%nat -> interp s (INR i) = nth i s 0.
Proof. intros H. unfold interp. rewrite INR_IZR_INZ, Zfloor_IZR, Nat2Z.id. ring. Qed.
Theorem percentile_ends : forall l, l <> [] -> (In (percentile l 0) l /\ forall x, In x l -> percentile l 0 <= x) /\ (In (percentile l 100) l /\ forall x, In x l -> x <= percentile l 100).
Proof.
  intros l N. pose proof (sortR_ne l N) as NS. assert (L : (0 < length (sortR l))%nat) by (destruct (sortR l); [congruence | cbn; lia]).
  assert (E0 : percentile l 0 = nth 0 (sortR l) 0). { unfold percentile. replace (INR (length l - 1) * (0 / 100)) with (INR 0) by (cbn; field). apply interp_nat, L. }
  assert (E1 : percentile l 100 = nth (length (sortR l) - 1) (sortR l) 0). { unfold percentile. replace (INR (length l - 1) * (100 / 100)) with (INR (length (sortR l) - 1)) by (rewrite sortR_length; field). apply interp_nat. lia. }
  assert (G : forall x, In x l -> exists i, (i < length (sortR l))%nat /\ nth i (sortR l) 0 = x) by (intros x I; apply sortR_In in I; apply (In_nth _ _ 0) in I; exact I).
  rewrite E0, E1. split; split.
  - apply sortR_In, nth_In, L.
  - intros x I. destruct (G x I) as (i & Hi & <-). apply sorted_nth; [apply sortR_sorted | lia].
  - apply sortR_In, nth_In. lia.
  - intros x I. destruct (G x I) as (i & Hi & <-). apply sorted_nth; [apply sortR_sorted | lia].
Qed.
Theorem percentile_median : forall l, l <> [] -> percentile l 50 = medianR l.
Proof.
  intros l N. pose proof (sortR_ne l N) as NS. assert (L : (0 < length (sortR l))%nat) by (destruct (sortR l); [congruence | cbn; lia]).
  unfold percentile, medianR. rewrite <- (sortR_length l). set (n := length (sortR l)) in *. set (s := sortR l) in *.
  assert (E : INR (n - 1) * (50 / 100) = INR (n - 1) / 2) by field. rewrite E.
  destruct (Nat.Even_or_Odd (n - 1)) as [[k Hk] | [k Hk]].
  - rewrite Hk. replace (INR (2 * k) / 2) with (INR k) by (rewrite mult_INR; cbn; field). rewrite interp_nat by (unfold n in *; lia).
    replace (2 * k / 2)%nat with k by (rewrite Nat.mul_comm, Nat.div_mul; lia). replace (n / 2)%nat with k by (replace n with (1 + k * 2)%nat by lia; rewrite Nat.div_add by lia; reflexivity). lra.
  - rewrite Hk. replace (INR (2 * k + 1) / 2) with (INR k + / 2) by (rewrite plus_INR, mult_INR; cbn; field).
    assert (F : Zfloor (INR k + / 2) = Z.of_nat k) by (apply Zfloor_imp; rewrite plus_IZR, <- INR_IZR_INZ; lra).
    unfold interp. rewrite F, Nat2Z.id, <- INR_IZR_INZ. replace (Nat.min (k + 1) (length s - 1)) with (k + 1)%nat by (unfold n in *; lia).
    replace ((2 * k + 1) / 2)%nat with k by (replace (2 * k + 1)%nat with (1 + k * 2)%nat by lia; rewrite Nat.div_add by lia; reflexivity).
    replace (n / 2)%nat with (k + 1)%nat by (replace n with ((k + 1) * 2)%nat by lia; rewrite Nat.div_mul; lia). lra.
Qed.
(** intervals that differ by less than a hundredth of a percent get the same name: only the last is kept *)
Theorem cinterval_names_refuted :
  ~ (forall samples cis, samples <> [] -> NoDup cis -> (forall c, In c cis -> 0 < c < 100) -> forall c, In c cis -> dget Z.eq_dec (cint_stats samples cis []) (tag c) = Some (percentile samples c)).
Proof.
  intros H. set (c1 := 15 + / 1000). set (c2 := 15 + / 500). assert (T : tag c1 = 1500%Z /\ tag c2 = 1500%Z).
  { unfold tag, c1, c2. split; apply Znearest_imp; rewrite Rabs_pos_eq; lra. }
  destruct T as [T1 T2]. specialize (H [0; 1] [c1; c2]). assert (Q := H ltac:(discriminate) ltac:(repeat constructor; [intros [Q | []]; unfold c1, c2 in Q; lra | intros []]) ltac:(intros c [<- | [<- | []]]; unfold c1, c2; lra) c1 (or_introl eq_refl)).
  unfold cint_stats in Q. cbn [fold_left] in Q. rewrite dget_dset, T1, T2 in Q. destruct (Z.eq_dec 1500 1500); [| congruence]. injection Q as Q.
  assert (P : forall q, 0 < q < 100 -> percentile [0; 1] q = q / 100).
  { intros q Hq. unfold percentile, sortR. cbn [fold_right insertR length]. destruct (Rle_dec 0 1); [| lra]. cbn [Nat.sub INR]. rewrite Rmult_1_l. unfold interp.
    replace (Zfloor (q / 100)) with 0%Z by (symmetry; apply Zfloor_imp; cbn; lra). cbn. lra. }
  rewrite !P in Q by (unfold c1, c2; lra). unfold c1, c2 in Q. lra.
Qed.
Theorem cinterval_names : forall samples cis, NoDup (map tag cis) -> forall c, In c cis -> dget Z.eq_dec (cint_stats samples cis []) (tag c) = Some (percentile samples c).
Proof.
  intros samples cis ND c. unfold cint_stats. generalize (@nil (Z * R)). revert ND. induction cis as [| x cis IH]; intros ND S I; [destruct I |]. cbn [fold_left map] in *. inversion ND as [| ? ? NI ND']; subst.
  destruct I as [-> | I]; [| apply IH; assumption].
  assert (G : forall l S0, ~ In (tag c) (map tag l) -> dget Z.eq_dec (fold_left (fun S ci => dset Z.eq_dec S (tag ci) (percentile samples ci)) l S0) (tag c) = dget Z.eq_dec S0 (tag c)).
  { induction l as [| y l IHl]; intros S0 N; cbn [fold_left]; [reflexivity |]. rewrite IHl by (intros Q; apply N; right; exact Q). rewrite dget_dset. destruct (Z.eq_dec (tag c) (tag y)) as [E |]; [| reflexivity]. exfalso. apply N. left. auto. }
  rewrite G by exact NI. rewrite dget_dset. destruct (Z.eq_dec (tag c) (tag c)); congruence.
Qed.
Example stats_ex : exists S', set_stats (fun _ => 2%nat) [] "e" 0 [3; 5]%nat 1 (2, 2)%nat true (fun i d => mkC (INR i) (INR d)) = Ok S' /\ NoDup [3; 5]%nat.
Proof. eexists. split; [reflexivity |]. repeat constructor; cbn; intuition discriminate. Qed.
Example slice_ex : exists S', set_stats_slice (fun _ d => INR d) (fun _ => 14) 1 [[0; 2]; [1]]%nat [("e"%string, mkstat true (fun _ _ _ _ => None))] "e" 1 5 true 7 = Ok S'.
Proof. eexists. reflexivity. Qed.
Example cinterval_ex : NoDup (map tag [16; 84]).
Proof. assert (T : tag 16 = 1600%Z /\ tag 84 = 8400%Z) by (unfold tag; split; apply Znearest_imp; rewrite Rabs_pos_eq; lra). destruct T as [T1 T2]. cbn [map]. rewrite T1, T2. repeat constructor; cbn; intuition discriminate. Qed.
Print Assumptions stats_set_get. Print Assumptions stats_shape. Print Assumptions stats_slice. Print Assumptions stats_set_get_refuted. Print Assumptions std_zero. Print Assumptions std_affine.
Print Assumptions percentile_mono. Print Assumptions percentile_ends. Print Assumptions percentile_median. Print Assumptions cinterval_names_refuted. Print Assumptions cinterval_names.
