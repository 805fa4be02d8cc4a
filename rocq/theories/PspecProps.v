(** C30, C31, C59, C60: rows and metadata of [pspec], cache of normalisation matrices. *)
From Coq Require Import Reals Lra.
From Verif Require Import Prelude PyStr PyDict ListLemmas PdModel PdProofs PdProps PspecModel.
Open Scope nat_scope.

(** ** specification *)
(** the (baseline-pair, time index) rows, baseline-pair by baseline-pair *)
Definition expected_rows {Bl Time : Type} (times1 : Bl -> list Time) (bs : list (Bl * Bl)) : list ((Bl * Bl) * nat) :=
  flat_map (fun b => map (fun t => (b, t)) (seq 0 (length (times1 (fst b))))) bs.

Lemma nodup_app_intro {X} (a b : list X) : NoDup a -> NoDup b -> (forall x, In x a -> In x b -> False) -> NoDup (a ++ b).
Proof.
  intros Na Nb D. induction Na as [|x a Hn Na IH]; [exact Nb|]. cbn. constructor.
  - rewrite in_app_iff. intros [H|H]; [contradiction | exact (D x (or_introl eq_refl) H)].
  - apply IH. intros y Hy. apply D. right. exact Hy.
Qed.
Section Rows.
Context {Pol Bl Time Row : Type}.
Context (times1 times2 : Bl -> list Time) (valid : Pol -> bool) (est : nat -> Pol -> (Bl * Bl) -> nat -> Row).
Context (row_dec : forall x y : (Bl * Bl) * Time * Time, {x = y} + {x <> y}).
Notation do_blps := (@do_blps Pol Bl Time Row times1 times2 est).
Notation do_pols := (@do_pols Pol Bl Time Row times1 times2 valid est).
Notation do_spws := (@do_spws Pol Bl Time Row times1 times2 valid est).
Definition matching (bs : list (Bl * Bl)) : Prop := Forall (fun b => length (times1 (fst b)) = length (times2 (snd b))) bs.
Definition metadata (bs : list (Bl * Bl)) : acc Bl Time :=
  mkacc (flat_map (fun b => times1 (fst b)) bs) (flat_map (fun b => times2 (snd b)) bs) (flat_map (fun b => repeat b (length (times1 (fst b)))) bs).
Definition rows_of (i : nat) (p : Pol) (bs : list (Bl * Bl)) : list Row := map (fun bt => est i p (fst bt) (snd bt)) (expected_rows times1 bs).

Lemma do_blps_ok i j p bs : forall a, matching bs -> do_blps i j p a (map Single bs) =
  Ok (if Nat.ltb i 1 && Nat.ltb j 1 then mkacc (a_time1 a ++ a_time1 (metadata bs)) (a_time2 a ++ a_time2 (metadata bs)) (a_blp a ++ a_blp (metadata bs)) else a, rows_of i p bs).
Proof.
  induction bs as [|b bs IH]; intros a M; cbn [map PspecModel.do_blps].
  - destruct (_ && _); [|reflexivity]. cbn. rewrite !app_nil_r. destruct a; reflexivity.
  - inversion M as [|? ? M1 M2]; subst. cbn [PspecModel.do_blp]. rewrite M1, Nat.eqb_refl. cbn [require bind fst snd]. rewrite IH by exact M2. cbn [bind fst snd].
    destruct (Nat.ltb i 1 && Nat.ltb j 1) eqn:E.
    + unfold metadata, rows_of, expected_rows. cbn [a_time1 a_time2 a_blp flat_map]. rewrite M1, !app_assoc, map_app, map_map. reflexivity.
    + unfold rows_of, expected_rows. cbn [flat_map]. rewrite M1, map_app, map_map. reflexivity.
Qed.
Lemma do_pols_ok i bs ps : matching bs -> forall j a, do_pols i j (map Single bs) a ps =
  Ok (if Nat.ltb i 1 && Nat.ltb j 1 && match ps with p :: _ => valid p | [] => false end
      then mkacc (a_time1 a ++ a_time1 (metadata bs)) (a_time2 a ++ a_time2 (metadata bs)) (a_blp a ++ a_blp (metadata bs)) else a,
      map (fun p => (p, rows_of i p bs)) (filter valid ps)).
Proof.
  intro M. induction ps as [|p ps IH]; intros j a; cbn [PspecModel.do_pols filter map]; [rewrite !andb_false_r; reflexivity|].
  assert (L : forall b, Nat.ltb i 1 && Nat.ltb (S j) 1 && b = false).
  { intro b. destruct (Nat.ltb_spec (S j) 1); [lia|]. rewrite andb_false_r. reflexivity. }
  destruct (valid p); [|rewrite IH, L, andb_false_r; reflexivity].
  rewrite do_blps_ok by exact M. cbn [bind fst snd]. rewrite IH. cbn [bind fst snd map]. rewrite L, andb_true_r. reflexivity.
Qed.
Lemma do_spws_ok bs ps : matching bs -> filter valid ps <> [] -> forall n i a, do_spws i n (map Single bs) ps a =
  Ok (if Nat.ltb i 1 && Nat.ltb 0 n && match ps with p :: _ => valid p | [] => false end
      then mkacc (a_time1 a ++ a_time1 (metadata bs)) (a_time2 a ++ a_time2 (metadata bs)) (a_blp a ++ a_blp (metadata bs)) else a,
      map (fun i => map (fun p => (p, rows_of i p bs)) (filter valid ps)) (seq i n)).
Proof.
  intros M F. induction n as [|n IH]; intros i a; cbn [PspecModel.do_spws]; [cbn; rewrite !andb_false_r; reflexivity|].
  rewrite do_pols_ok by exact M. cbn [bind fst snd]. destruct (filter valid ps) as [|p0 ps0] eqn:E; [congruence|]. cbn [map require]. rewrite IH. cbn [bind fst snd seq map].
  assert (L : forall b c, Nat.ltb (S i) 1 && b && c = false) by (intros b c; destruct (Nat.ltb_spec (S i) 1); [lia | reflexivity]).
  rewrite L. replace (Nat.ltb 0 (S n)) with true by (symmetry; apply Nat.ltb_lt; lia). replace (Nat.ltb 0 1) with true by reflexivity. reflexivity.
Qed.
Lemma expected_length bs : length (expected_rows times1 bs) = length (flat_map (fun b => times1 (fst b)) bs).
Proof. induction bs as [|b bs IH]; [reflexivity|]. unfold expected_rows in *. cbn. rewrite !app_length, map_length, seq_length, IH. reflexivity. Qed.
Lemma expected_blp bs : map fst (expected_rows times1 bs) = flat_map (fun b => repeat b (length (times1 (fst b)))) bs.
Proof.
  induction bs as [|b bs IH]; [reflexivity|]. unfold expected_rows in *. cbn. rewrite map_app, map_map, IH. f_equal. cbn.
  generalize 0. induction (length (times1 (fst b))) as [|n IHn]; intro k; [reflexivity|]. cbn. f_equal. apply IHn.
Qed.
Lemma nth_map_seq_id {A} (l : list A) (d : A) : map (fun t => nth t l d) (seq 0 (length l)) = l.
Proof.
  induction l as [|x l IH]; [reflexivity|]. cbn [length seq map nth]. f_equal. rewrite <- seq_shift, map_map. exact IH.
Qed.
Lemma expected_times (times : (Bl * Bl) -> list Time) (d : Time) bs : (forall b, In b bs -> length (times b) = length (times1 (fst b))) ->
  map (fun bt => nth (snd bt) (times (fst bt)) d) (expected_rows times1 bs) = flat_map times bs.
Proof.
  induction bs as [|b bs IH]; intro H; [reflexivity|]. unfold expected_rows in *. cbn. rewrite map_app, map_map, IH by (intros; apply H; right; assumption). f_equal. cbn.
  rewrite <- (H b (or_introl eq_refl)). apply nth_map_seq_id.
Qed.
End Rows.

(** C30: when the first polarization pair asked for is in the data, for every list of baseline-pairs, window count and
    list of polarization pairs of which others may be invalid: every window and every valid polarization pair has
    exactly one row per (baseline-pair, time), baseline-pair by baseline-pair, and the per-row metadata are those of the row *)
Theorem C30_aligned : forall (Pol Bl Time Row : Type) times1 times2 valid est row_dec (d : Time) nspw (bs : list (Bl * Bl)) (p0 : Pol) ps,
  0 < nspw -> valid p0 = true -> (forall b, In b bs -> length (times1 (fst b)) = length (times2 (snd b))) ->
  exists o : pspec_out Pol Bl Time Row, pspec_rows times1 times2 valid est row_dec nspw (map Single bs) (p0 :: ps) = Ok o /\
  let R := expected_rows times1 bs in
  o_blp o = map fst R /\ o_time1 o = map (fun bt => nth (snd bt) (times1 (fst (fst bt))) d) R /\ o_time2 o = map (fun bt => nth (snd bt) (times2 (snd (fst bt))) d) R /\
  length (o_data o) = nspw /\
  forall i dat, nth_error (o_data o) i = Some dat -> map fst dat = filter valid (p0 :: ps) /\
    forall p rows, In (p, rows) dat -> rows = map (fun bt => est i p (fst bt) (snd bt)) R.
Proof.
  intros Pol Bl Time Row times1 times2 valid est row_dec d nspw bs p0 ps N V M. unfold pspec_rows.
  assert (M' : matching times1 times2 bs) by (apply Forall_forall; exact M).
  rewrite (do_spws_ok times1 times2 valid est bs (p0 :: ps) M') by (cbn; rewrite V; discriminate). cbn [bind fst snd]. eexists. split; [reflexivity|].
  cbn [o_blp o_time1 o_time2 o_data]. rewrite V. destruct (Nat.ltb_spec 0 nspw); [|lia]. cbn [Nat.ltb Nat.leb andb acc0 a_time1 a_time2 a_blp app metadata].
  split; [symmetry; apply expected_blp|]. split; [symmetry; apply (expected_times times1 (fun b => times1 (fst b))); reflexivity|].
  split; [symmetry; apply (expected_times times1 (fun b => times2 (snd b))); intros b Hb; symmetry; apply M, Hb|].
  split; [rewrite map_length, seq_length; reflexivity|]. intros i dat H1.
  apply nth_error_In in H1 as H2. rewrite nth_error_map in H1. destruct (nth_error (seq 0 nspw) i) as [i'|] eqn:E; [|discriminate].
  assert (i' = i). { assert (Hi : i < nspw) by (rewrite <- (seq_length nspw 0); apply nth_error_Some; congruence). rewrite (nth_error_nth' _ 0), seq_nth in E by (rewrite ?seq_length; exact Hi). injection E as <-. reflexivity. }
  subst i'. cbn in H1. cbn [option_map] in H1. injection H1 as <-. rewrite map_map. cbn [fst]. rewrite map_id. split; [reflexivity|].
  intros p rows Hr. apply in_map_iff in Hr as (p' & E' & _). injection E' as <- <-. reflexivity.
Qed.
Print Assumptions C30_aligned.
(** C30 is false of the code when the first one is not in the data but a later one is: rows without any metadata *)
Theorem C30_first_invalid_refuted : forall (Pol Bl Time Row : Type) times1 times2 valid est row_dec nspw (bs : list (Bl * Bl)) (p0 p1 : Pol),
  0 < nspw -> valid p0 = false -> valid p1 = true -> (forall b, In b bs -> length (times1 (fst b)) = length (times2 (snd b))) ->
  exists o : pspec_out Pol Bl Time Row, pspec_rows times1 times2 valid est row_dec nspw (map Single bs) [p0; p1] = Ok o /\
  o_blp o = [] /\ o_time1 o = [] /\ o_nblt o = 0 /\
  forall i dat, nth_error (o_data o) i = Some dat -> exists rows, dat = [(p1, rows)] /\ length rows = length (expected_rows times1 bs).
Proof.
  intros Pol Bl Time Row times1 times2 valid est row_dec nspw bs p0 p1 N V0 V1 M. unfold pspec_rows.
  assert (M' : matching times1 times2 bs) by (apply Forall_forall; exact M).
  rewrite (do_spws_ok times1 times2 valid est bs [p0; p1] M') by (cbn; rewrite V0, V1; discriminate). cbn [bind fst snd]. eexists. split; [reflexivity|].
  cbn [o_blp o_time1 o_data o_nblt]. rewrite V0, andb_false_r. cbn [acc0 a_time1 a_time2 a_blp combine nodup length]. split; [reflexivity|]. split; [reflexivity|]. split; [reflexivity|].
  intros i dat H1. rewrite nth_error_map in H1. destruct (nth_error (seq 0 nspw) i) as [i'|]; [|discriminate]. cbn [option_map filter] in H1. rewrite V0, V1 in H1. cbn [map] in H1. injection H1 as <-.
  eexists. split; [reflexivity|]. unfold rows_of. rewrite map_length. reflexivity.
Qed.
Print Assumptions C30_first_invalid_refuted.
(** none valid, or a group of baseline-pairs, is an error *)
Theorem C30_errors : forall (Pol Bl Time Row : Type) times1 times2 valid est row_dec nspw (bs : list (Bl * Bl)) (ps : list Pol),
  (forall b, In b bs -> length (times1 (fst b)) = length (times2 (snd b))) -> 0 < nspw -> (forall p, In p ps -> valid p = false) ->
  pspec_rows times1 times2 valid est row_dec nspw (map Single bs) ps = @Err (pspec_out Pol Bl Time Row) ValueError.
Proof.
  intros Pol Bl Time Row times1 times2 valid est row_dec nspw bs ps M N V. unfold pspec_rows. destruct nspw as [|n]; [lia|]. cbn [do_spws].
  rewrite (do_pols_ok times1 times2 valid est 0 bs ps) by (apply Forall_forall; exact M). cbn [bind snd].
  assert (E : filter valid ps = []). { clear -V. induction ps as [|p ps IH]; [reflexivity|]. cbn. rewrite (V p) by (left; reflexivity). apply IH. intros q Hq. apply V. right. exact Hq. }
  rewrite E. reflexivity.
Qed.
Print Assumptions C30_errors.
(** a group of baseline-pairs, or a baseline-pair whose two baselines have different numbers of times, is refused,
    wherever it stands in the list *)
Definition refused_blp {Bl Time} (times1 times2 : Bl -> list Time) (b : blp Bl) : Prop :=
  match b with Group _ => True | Single b => length (times1 (fst b)) <> length (times2 (snd b)) end.
Theorem C30_refuses : forall (Pol Bl Time Row : Type) times1 times2 valid est row_dec nspw (bs : list (blp Bl)) (ps : list Pol) p b,
  0 < nspw -> In p ps -> valid p = true -> In b bs -> refused_blp times1 times2 b ->
  exists e, pspec_rows times1 times2 valid est row_dec nspw bs ps = @Err (pspec_out Pol Bl Time Row) e.
Proof.
  intros Pol Bl Time Row times1 times2 valid est row_dec nspw bs ps p b N Hp V Hb R. unfold pspec_rows.
  destruct nspw as [|n]; [lia|]. cbn [do_spws].
  assert (B : forall i j q a, exists e, do_blps times1 times2 est i j q a bs = Err e).
  { intros i j q. clear -Hb R. induction bs as [|b0 bs IH]; [destruct Hb|]. intro a. cbn [do_blps]. destruct Hb as [->|Hb].
    - destruct b as [b|l]; cbn [do_blp]; [|cbn; eauto]. cbn in R. apply Nat.eqb_neq in R. rewrite R. cbn. eauto.
    - destruct (do_blp times1 times2 est i j q a b0) as [r|e]; cbn [bind]; [|eauto]. destruct (IH Hb (fst r)) as [e ->]. cbn. eauto. }
  assert (P : forall j a, exists e, do_pols times1 times2 valid est 0 j bs a ps = Err e).
  { clear -B Hp V. induction ps as [|q ps IH]; [destruct Hp|]. intros j a. cbn [do_pols]. destruct Hp as [->|Hp].
    - rewrite V. destruct (B 0 j p a) as [e ->]. cbn. eauto.
    - destruct (valid q); [|apply IH, Hp]. destruct (B 0 j q a) as [e ->]. cbn. eauto. }
  destruct (P 0 acc0) as [e ->]. cbn. eauto.
Qed.
Print Assumptions C30_refuses.
Example C30_refuses_applies : refused_blp (fun b : nat => repeat 0 b) (fun b => repeat 0 b) (Single (1, 2)).
Proof. cbn. discriminate. Qed.
(** C60: the announced number of rows. True when no baseline-pair is repeated and the times of each baseline are distinct *)
Theorem C60_count : forall (Pol Bl Time Row : Type) times1 times2 valid est row_dec nspw (bs : list (Bl * Bl)) (p0 : Pol) ps,
  0 < nspw -> valid p0 = true -> (forall b, In b bs -> length (times1 (fst b)) = length (times2 (snd b)) /\ NoDup (times1 (fst b))) -> NoDup bs ->
  exists o : pspec_out Pol Bl Time Row, pspec_rows times1 times2 valid est row_dec nspw (map Single bs) (p0 :: ps) = Ok o /\
  o_nblt o = length (o_blp o) /\ forall i dat p rows, nth_error (o_data o) i = Some dat -> In (p, rows) dat -> length rows = o_nblt o.
Proof.
  intros Pol Bl Time Row times1 times2 valid est row_dec nspw bs p0 ps N V M ND.
  assert (Md : forall b, In b bs -> length (times1 (fst b)) = length (times2 (snd b))) by (intros b Hb; apply M, Hb).
  unfold pspec_rows. assert (M' : matching times1 times2 bs) by (apply Forall_forall; exact Md).
  rewrite (do_spws_ok times1 times2 valid est bs (p0 :: ps) M') by (cbn; rewrite V; discriminate). cbn [bind fst snd]. eexists. split; [reflexivity|].
  cbn [o_blp o_nblt o_data]. rewrite V. destruct (Nat.ltb_spec 0 nspw); [|lia]. cbn [Nat.ltb Nat.leb andb acc0 a_time1 a_time2 a_blp app metadata].
  set (B := flat_map (fun b => repeat b (length (times1 (fst b)))) bs). set (T1 := flat_map (fun b => times1 (fst b)) bs). set (T2 := flat_map (fun b => times2 (snd b)) bs).
  assert (L1 : length B = length T1). { unfold B, T1. clear. induction bs as [|b bs IH]; [reflexivity|]. cbn. rewrite !app_length, repeat_length, IH. reflexivity. }
  assert (L2 : length T2 = length T1). { unfold T1, T2. clear -Md. induction bs as [|b bs IH]; [reflexivity|]. cbn. rewrite !app_length, IH by (intros; apply Md; right; assumption). rewrite (Md b (or_introl eq_refl)). reflexivity. }
  assert (Dup : NoDup (combine B T1)).
  { unfold B, T1. clear -M ND. induction bs as [|b bs IH]; [constructor|]. inversion ND as [|? ? N1 N2]; subst. cbn.
    assert (Cb : combine (repeat b (length (times1 (fst b))) ++ flat_map (fun b0 => repeat b0 (length (times1 (fst b0)))) bs) (times1 (fst b) ++ flat_map (fun b0 => times1 (fst b0)) bs)
       = map (fun t => (b, t)) (times1 (fst b)) ++ combine (flat_map (fun b0 => repeat b0 (length (times1 (fst b0)))) bs) (flat_map (fun b0 => times1 (fst b0)) bs)).
    { generalize (times1 (fst b)). intro l. induction l as [|t l IHl]; [reflexivity|]. cbn. f_equal. exact IHl. }
    rewrite Cb. assert (NT : NoDup (times1 (fst b))) by (apply (M b); left; reflexivity).
    apply nodup_app_intro.
    - clear -NT. induction NT as [|t l Hn NT IHl]; cbn; constructor; [|exact IHl]. rewrite in_map_iff. intros (t' & E & Ht). injection E as <-. contradiction.
    - apply IH; [intros b' Hb'; apply M; right; exact Hb' | exact N2].
    - intros x Hx Hy. apply in_map_iff in Hx as (t & <- & _). apply in_combine_l in Hy. apply in_flat_map in Hy as (b' & Hb' & Hr). apply repeat_spec in Hr. congruence. }
  assert (Dup2 : NoDup (combine (combine B T1) T2)).
  { assert (G : forall (X Y : Type) (l : list X) (l' : list Y), NoDup l -> NoDup (combine l l')).
    { clear. intros X Y l l' H. revert l'. induction H as [|x l Hn H IH]; intros [|y l']; cbn; try constructor; [|apply IH]. intro Hc. apply in_combine_l in Hc. contradiction. }
    apply G, Dup. }
  pose proof (nodup_fixed_point row_dec Dup2) as Q. unfold blpair in *. rewrite Q, !combine_length, L1, L2, !Nat.min_id. split; [reflexivity|].
  intros i dat p rows H1 H2. rewrite nth_error_map in H1. destruct (nth_error (seq 0 nspw) i) as [i'|]; [|discriminate]. cbn [option_map] in H1. injection H1 as <-.
  apply in_map_iff in H2 as (p' & E & _). injection E as <- <-. unfold rows_of. rewrite map_length. apply expected_length.
Qed.
Print Assumptions C60_count.
(** false of the code for a repeated baseline-pair: 4 rows, 2 announced *)
Theorem C60_repeated_refuted : let times (b : nat) := [10; 20] in
  exists o : pspec_out nat nat nat nat, pspec_rows times times (fun _ => true) (fun _ _ _ _ => 0) ltac:(repeat decide equality) 1 [Single (1, 2); Single (1, 2)] [5] = Ok o /\
  length (o_blp o) = 4 /\ o_nblt o = 2 /\ o_data o = [[(5, [0; 0; 0; 0])]].
Proof. eexists. split; [vm_compute; reflexivity|]. repeat split. Qed.
Print Assumptions C60_repeated_refuted.
Example C30_applies : let times1 (b : nat) := [10; 20] in let times2 (b : nat) := [11; 21] in
  exists o : pspec_out nat nat nat (nat * nat * (nat * nat) * nat), pspec_rows times1 times2 (fun p => Nat.ltb p 6) (fun i p b t => (i, p, b, t)) ltac:(repeat decide equality) 2 [Single (1, 2); Single (3, 4)] [5; 7; 4] = Ok o /\
  o_blp o = [(1, 2); (1, 2); (3, 4); (3, 4)] /\ o_time1 o = [10; 20; 10; 20] /\ o_time2 o = [11; 21; 11; 21] /\ o_nblt o = 4 /\ length (o_data o) = 2.
Proof. eexists. split; [vm_compute; reflexivity|]. repeat split. Qed.

(** * C31: the cache of normalisation matrices *)
Section NormProofs.
Context {Pol GH : Type} (Ymat : key -> list R) (gh : key -> key -> Pol -> GH).
Lemma same_flags_eq y y' : same_flags y y' = true <-> y = y'.
Proof.
  unfold same_flags. destruct y as [a b], y' as [c e]. cbn [fst snd]. destruct (list_eq_dec Req_EM_T a c) as [->|]; destruct (list_eq_dec Req_EM_T b e) as [->|]; cbn; split; congruence.
Qed.
Lemma norm_find_In y (c : @norm_cache GH) v : norm_find y c = Some v -> In (y, v) c.
Proof.
  induction c as [|[y' v'] c IH]; cbn; [discriminate|]. destruct (same_flags y y') eqn:E; [apply same_flags_eq in E; subst; intro H; injection H as ->; auto | auto].
Qed.
(** if the matrices of the queries in [qs] depend on the flags only, reuse is not visible *)
Lemma norm_run_ok (all : key * key * Pol -> Prop) : (forall k1 k2 p k1' k2' p', all (k1, k2, p) -> all (k1', k2', p') -> Ymat k1 = Ymat k1' -> Ymat k2 = Ymat k2' -> gh k1 k2 p = gh k1' k2' p') ->
  forall qs (c : @norm_cache GH), Forall all qs -> (forall y v, In (y, v) c -> exists k1 k2 p, all (k1, k2, p) /\ y = (Ymat k1, Ymat k2) /\ v = gh k1 k2 p) ->
  norm_run Ymat gh c qs = map (fun q => gh (fst (fst q)) (snd (fst q)) (snd q)) qs.
Proof.
  intro D. induction qs as [|[[k1 k2] p] qs IH]; intros c F C; [reflexivity|]. inversion F as [|? ? F1 F2]; subst. cbn [norm_run norm_step map fst snd].
  destruct (norm_find (Ymat k1, Ymat k2) c) as [v|] eqn:E.
  - apply norm_find_In, C in E as (k1' & k2' & p' & A & Ey & ->). injection Ey as E1 E2. rewrite (D k1' k2' p' k1 k2 p A F1 (eq_sym E1) (eq_sym E2)). f_equal. apply IH; assumption.
  - f_equal. apply IH; [exact F2|]. intros y v Hy. apply in_app_or in Hy as [Hy|[Hy|[]]]; [apply C, Hy|]. injection Hy as <- <-. exists k1, k2, p. auto.
Qed.
End NormProofs.

(** [gh] is any function of the two weighting matrices and, with exact_norm, of the beam of the polarization; all calls
    are made in one state [s] with identity weighting (the cache is cleared for each window) *)
Definition gh_of {P Pol GH Beam : Type} (wmax : key -> nat -> R) covdata minv gen_window dayenu_inv pinv (s : pds P)
  (f : result mat -> result mat -> option Beam -> GH) (beam : Pol -> Beam) (exact_norm : bool) (k1 k2 : key) (p : Pol) : GH :=
  let Rm k := snd (callR wmax covdata minv gen_window dayenu_inv pinv (up_cache s [] [] [] [] []) k) in
  f (Rm k1) (Rm k2) (if exact_norm then Some (beam p) else None).
Lemma R_flags_only {P : Type} (wmax : key -> nat -> R) covdata minv gen_window dayenu_inv pinv (s : pds P) k k' :
  (forall k c, binary (wmax k c) = true) -> weight s = Identity -> map (wmax k) (chans s) = map (wmax k') (chans s) ->
  snd (callR wmax covdata minv gen_window dayenu_inv pinv (up_cache s [] [] [] [] []) k) = snd (callR wmax covdata minv gen_window dayenu_inv pinv (up_cache s [] [] [] [] []) k').
Proof.
  intros B W E. change (up_cache s [] [] [] [] []) with (fst (step wmax covdata minv gen_window dayenu_inv pinv s ClearCache)).
  pose proof (fun k => proj1 (callR_ok wmax covdata minv gen_window dayenu_inv pinv B _ k (clear_coherent wmax covdata minv gen_window dayenu_inv pinv s))) as H.
  rewrite (H k), (H k'). cbn [step fst up_cache weight taper]. rewrite W. unfold fresh. cbn [up_cache nfreqs ext]. change (chans (up_cache s [] [] [] [] [])) with (chans s). rewrite E. reflexivity.
Qed.

(** C31: reuse gives the matrices that recomputation would give, for every sequence of baseline-pairs and polarizations,
    without exact_norm *)
Theorem C31_transparent : forall (P Pol GH Beam : Type) wmax covdata minv gen_window dayenu_inv pinv (s : pds P) (f : result mat -> result mat -> option Beam -> GH) (beam : Pol -> Beam) qs,
  (forall k c, wmax k c = 0%R \/ wmax k c = 1%R) -> weight s = Identity ->
  let gh := gh_of wmax covdata minv gen_window dayenu_inv pinv s f beam false in
  norm_run (fun k => map (wmax k) (chans s)) gh [] qs = map (fun q => gh (fst (fst q)) (snd (fst q)) (snd q)) qs.
Proof.
  intros P Pol GH Beam w cv iv g d pv s f beam qs B0 W gh. assert (B : forall k c, binary (w k c) = true) by (intros; apply binary01, B0). apply (norm_run_ok _ gh (fun _ => True)).
  - intros k1 k2 p k1' k2' p' _ _ E1 E2. unfold gh, gh_of. rewrite (R_flags_only w cv iv g d pv s k1 k1' B W E1), (R_flags_only w cv iv g d pv s k2 k2' B W E2). reflexivity.
  - apply Forall_forall. auto.
  - intros y v [].
Qed.
Print Assumptions C31_transparent.
(** also with exact_norm when all the calls are for one polarization *)
Theorem C31_one_polarization : forall (P Pol GH Beam : Type) wmax covdata minv gen_window dayenu_inv pinv (s : pds P) (f : result mat -> result mat -> option Beam -> GH) (beam : Pol -> Beam) qs p0,
  (forall k c, wmax k c = 0%R \/ wmax k c = 1%R) -> weight s = Identity -> Forall (fun q => snd q = p0) qs ->
  let gh := gh_of wmax covdata minv gen_window dayenu_inv pinv s f beam true in
  norm_run (fun k => map (wmax k) (chans s)) gh [] qs = map (fun q => gh (fst (fst q)) (snd (fst q)) (snd q)) qs.
Proof.
  intros P Pol GH Beam w cv iv g d pv s f beam qs p0 B0 W F gh. assert (B : forall k c, binary (w k c) = true) by (intros; apply binary01, B0). apply (norm_run_ok _ gh (fun q => snd q = p0)).
  - intros k1 k2 p k1' k2' p' H1 H2 E1 E2. cbn [snd] in H1, H2. subst. unfold gh, gh_of. rewrite (R_flags_only w cv iv g d pv s k1 k1' B W E1), (R_flags_only w cv iv g d pv s k2 k2' B W E2). reflexivity.
  - exact F.
  - intros y v [].
Qed.
Print Assumptions C31_one_polarization.
(** C59: with exact_norm and several polarizations the second one gets the normalisation of the first, whenever
    the flags are the same and the beams differ *)
Theorem C59_second_polarization_refuted : forall (P Pol GH Beam : Type) wmax covdata minv gen_window dayenu_inv pinv (s : pds P) (f : result mat -> result mat -> option Beam -> GH) (beam : Pol -> Beam) k1 k2 k1' k2' p p',
  let Y k := map (wmax k) (chans s) in Y k1 = Y k1' -> Y k2 = Y k2' ->
  let gh := gh_of wmax covdata minv gen_window dayenu_inv pinv s f beam true in
  norm_run Y gh [] [(k1, k2, p); (k1', k2', p')] = [gh k1 k2 p; gh k1 k2 p].
Proof.
  intros P Pol GH Beam w cv iv g d pv s f beam k1 k2 k1' k2' p p' Y E1 E2 gh. cbn [norm_run norm_step norm_find app].
  rewrite <- E1, <- E2. replace (same_flags (Y k1, Y k2) (Y k1, Y k2)) with true by (symmetry; apply same_flags_eq; reflexivity). reflexivity.
Qed.
Print Assumptions C59_second_polarization_refuted.
Example C59_values : let gh := gh_of w0 cov0 inv0 win0 day0 inv0 (init 4) (fun _ _ b => b) (fun p : nat => p) true in
  norm_run (fun k => map (w0 k) (chans (init (P := R) 4))) gh [] [(key0, key0, 5); (key0, key0, 6)] = [Some 5; Some 5] /\ gh key0 key0 6 = Some 6.
Proof. intro gh. split; [|reflexivity]. exact (C59_second_polarization_refuted R nat (option nat) nat w0 cov0 inv0 win0 day0 inv0 (init 4) (fun _ _ b => b) (fun p => p) key0 key0 key0 key0 5 6 eq_refl eq_refl). Qed.
Example C31_applies : (forall k c, w0 k c = 0%R \/ w0 k c = 1%R) /\ weight (init (P := R) 4) = Identity /\ Forall (fun q : key * key * nat => snd q = 5) [(key0, key0, 5); ((1, 1, 2, 0), key0, 5)].
Proof. split; [|split]; [intros k c; unfold w0; destruct (Nat.ltb c 2); auto | reflexivity | repeat constructor]. Qed.
