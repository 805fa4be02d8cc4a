(** C147-C151: changing the cosmology of a set of power spectra; conversion to Delta^2. *)
From Coq Require Import String.
From Coq Require Import Reals Lra.
From Coquelicot Require Import Coquelicot.
From Verif Require Import Prelude PyDict ConvModel ConvProps ScalarModel ScalarProps CosmoModel.
Open Scope R_scope.

Local Arguments uvp_compute_scalar : simpl never.
Local Arguments compute_scalar : simpl never.
Section Cosmo.
Variable win2 : window -> string -> R -> R.
Notation setc := (uvp_set_cosmology win2).

(** the beam ratio that is in force after the call, per polarization index *)
Definition beam_after (nb : option (Z -> R -> R)) (u : uvpc) : option (nat -> R -> R) :=
  match nb with Some b => Some (fun j => b (nth j (u_pols u) 0%Z)) | None => u_beam u end.
(** the scalar of window [w] and polarization index [j] in a cosmology, with h^-3 volumes *)
Definition scalar_in (co : cosmo) (bm : nat -> R -> R) (u : uvpc) (w : window) (j : nat) : R :=
  compute_scalar (mkscal (cosmo_x2y co) (bm j) (win2 w)) (w_lo w) (w_up w) 1000 (u_taper u) true false false.

Lemma renorm_fixed co bm l : forall u,
  let u' := fold_left (renorm_one win2 co bm) l u in
  u_win u' = u_win u /\ u_pols u' = u_pols u /\ u_taper u' = u_taper u /\ u_sep u' = u_sep u /\ u_stats u' = u_stats u /\
  u_covr u' = u_covr u /\ u_covi u' = u_covi u /\ u_cosmo u' = u_cosmo u /\ u_beam u' = u_beam u /\ u_units u' = u_units u.
Proof.
  induction l as [| [[i w] j] l IH]; intros u; cbn [fold_left]; [repeat split |].
  destruct (IH (renorm_one win2 co bm u (i, w, j))) as (A & B & C & D & E & F & G & H & I & J). repeat split; assumption.
Qed.
(** the effect on one (window, polarization): by induction over the pairs *)
Lemma renorm_other co bm a p l : forall u, ~ In (a, p) (map (fun q => (fst (fst q), snd q)) l) ->
  let u' := fold_left (renorm_one win2 co bm) l u in
  u_scalar u' a p = u_scalar u a p /\ forall r d, u_data u' a r d p = u_data u a r d p.
Proof.
  induction l as [| [[i w] j] l IH]; intros u H; cbn [fold_left]; [split; reflexivity |]. cbn [map In fst snd] in H.
  destruct (IH (renorm_one win2 co bm u (i, w, j))) as [A B]; [tauto |].
  assert (E : (Nat.eqb a i && Nat.eqb p j)%bool = false).
  { destruct (Nat.eqb_spec a i), (Nat.eqb_spec p j); try reflexivity. subst. exfalso. apply H. left. reflexivity. }
  rewrite A. split; [cbn [renorm_one u_scalar]; unfold upd2; rewrite E; reflexivity |]. intros r d. rewrite B. cbn [renorm_one u_data]. rewrite E. reflexivity.
Qed.
Lemma renorm_at co bm a w p l : forall u, NoDup (map (fun q => (fst (fst q), snd q)) l) -> In (a, w, p) l ->
  let u' := fold_left (renorm_one win2 co bm) l u in
  u_scalar u' a p = scalar_in co bm u w p /\ forall r d, u_data u' a r d p = u_data u a r d p * (scalar_in co bm u w p / u_scalar u a p).
Proof.
  induction l as [| [[i w'] j] l IH]; intros u ND H; [destruct H |]. cbn [map fst snd] in ND. inversion ND as [| ? ? N1 N2]; subst. cbn [fold_left].
  destruct H as [E | H].
  - injection E as -> -> ->. destruct (renorm_other co bm a p l (renorm_one win2 co bm u (a, w, p)) N1) as [A B]. rewrite A. split.
    + cbn [renorm_one u_scalar]. unfold upd2. rewrite !Nat.eqb_refl. reflexivity.
    + intros r d. rewrite B. cbn [renorm_one u_data]. rewrite !Nat.eqb_refl. reflexivity.
  - assert (NE : (Nat.eqb a i && Nat.eqb p j)%bool = false).
    { destruct (Nat.eqb_spec a i), (Nat.eqb_spec p j); try reflexivity. subst. exfalso. apply N1. apply in_map_iff. exists (i, w, j). auto. }
    destruct (IH (renorm_one win2 co bm u (i, w', j)) N2 H) as [A B]. rewrite A. split; [reflexivity |].
    intros r d. rewrite B. cbn [renorm_one u_data u_scalar]. unfold upd2. rewrite NE. reflexivity.
Qed.
Lemma nth_error_combine_seq {A} (l : list A) : forall k i x, nth_error l i = Some x -> In ((k + i)%nat, x) (combine (seq k (length l)) l).
Proof.
  induction l as [| y l IH]; intros k i x H; [destruct i; discriminate |]. destruct i as [| i]; cbn in *.
  - injection H as ->. left. f_equal. lia.
  - right. replace (k + S i)%nat with (S k + i)%nat by lia. apply IH, H.
Qed.
Lemma combine_seq_fst {A} (l : list A) k : map fst (combine (seq k (length l)) l) = seq k (length l).
Proof. revert k. induction l as [| y l IH]; intros k; cbn; [reflexivity |]. f_equal. apply IH. Qed.
Lemma pairs_fst {A} (l : list (nat * A)) (js : list nat) : map (fun q => (fst (fst q), snd q)) (list_prod l js) = list_prod (map fst l) js.
Proof. induction l as [| [i x] l IH]; cbn; [reflexivity |]. rewrite map_app, IH, map_map. reflexivity. Qed.
Lemma list_prod_NoDup {A B} (l : list A) (l' : list B) : NoDup l -> NoDup l' -> NoDup (list_prod l l').
Proof.
  intros H H'. induction H as [| x l Hn H IH]; cbn; [constructor |].
  assert (G : forall a b : list (A * B), NoDup a -> NoDup b -> (forall q, In q a -> ~ In q b) -> NoDup (a ++ b)).
  { clear. intros a b Ha Hb D. induction Ha as [| q a Hq Ha IH]; cbn; [assumption |]. constructor; [rewrite in_app_iff; intros [X | X]; [auto | exact (D q (or_introl eq_refl) X)] |].
    apply IH. intros y Hy. apply D. right. assumption. }
  apply G; [| assumption |].
  - clear -H'. induction H' as [| y l' Hy H' IH]; cbn; constructor; [| assumption]. rewrite in_map_iff. intros (z & E & Hz). injection E as <-. contradiction.
  - intros q Hq Hq'. apply in_map_iff in Hq. destruct Hq as (y & <- & _). apply in_prod_iff in Hq'. tauto.
Qed.
Lemma all_pairs_NoDup u : NoDup (map (fun q => (fst (fst q), snd q)) (all_pairs u)).
Proof. unfold all_pairs. rewrite pairs_fst, combine_seq_fst. apply list_prod_NoDup; apply seq_NoDup. Qed.
Lemma all_pairs_In u i w j : nth_error (u_win u) i = Some w -> (j < length (u_pols u))%nat -> In (i, w, j) (all_pairs u).
Proof.
  intros H Hj. unfold all_pairs. apply in_prod_iff. split; [exact (nth_error_combine_seq (u_win u) 0 i w H) | apply in_seq; lia].
Qed.
Lemma all_pairs_bound u i w j : In (i, w, j) (all_pairs u) -> (i < length (u_win u))%nat /\ (j < length (u_pols u))%nat.
Proof.
  unfold all_pairs. intros H. apply in_prod_iff in H. destruct H as [H H']. apply in_seq in H'. split; [| lia].
  apply in_combine_l in H. apply in_seq in H. lia.
Qed.

(** The call goes through, and what it leaves: the new cosmology and beam; the scalar of the new cosmology for every window
    and polarization; every spectrum over its scalar as before; and nothing else changed but the units. *)
Theorem set_cosmology_renormalizes :
  forall co ow nb u bm, (u_cosmo u = None \/ ow = true) -> beam_after nb u = Some bm ->
    let u' := setc co ow nb u in
    u_cosmo u' = Some co /\ u_beam u' = Some bm /\
    u_win u' = u_win u /\ u_pols u' = u_pols u /\ u_taper u' = u_taper u /\ u_sep u' = u_sep u /\
    (forall i w j, nth_error (u_win u) i = Some w -> (j < length (u_pols u))%nat ->
       u_scalar u' i j = scalar_in co bm u w j /\
       (u_scalar u i j <> 0 -> forall r d, u_data u' i r d j * u_scalar u i j = u_data u i r d j * u_scalar u' i j)) /\
    (forall i j, (length (u_win u) <= i)%nat \/ (length (u_pols u) <= j)%nat -> u_scalar u' i j = u_scalar u i j /\ forall r d, u_data u' i r d j = u_data u i r d j).
Proof.
  intros co ow nb u bm HC HB u'.
  set (u1 := mkuvpc (u_win u) (u_pols u) (u_taper u) (u_sep u) (u_data u) (u_stats u) (u_covr u) (u_covi u)
                      (u_scalar u) (Some co) (Some bm) (u_units u)).
  assert (Eu : u' = let u2 := fold_left (renorm_one win2 co bm) (all_pairs u1) u1 in
     mkuvpc (u_win u2) (u_pols u2) (u_taper u2) (u_sep u2) (u_data u2) (u_stats u2) (u_covr u2) (u_covi u2)
            (u_scalar u2) (u_cosmo u2) (u_beam u2) (if contains "Mpc" (u_units u2) then u_units u2 else "h^-3 Mpc^3")).
  { unfold u', uvp_set_cosmology. fold (beam_after nb u). rewrite HB. destruct HC as [-> | ->]; [reflexivity | destruct (u_cosmo u); reflexivity]. }
  clearbody u'.
  rewrite Eu. cbn zeta. destruct (renorm_fixed co bm (all_pairs u1) u1) as (A & B & C & D & _ & _ & _ & H & I & _).
  cbn [u_cosmo u_beam u_win u_pols u_taper u_sep u_scalar u_data]. rewrite A, B, C, D, H, I. repeat (split; [reflexivity |]). split.
  - intros i w j Hi Hj. destruct (renorm_at co bm i w j (all_pairs u1) u1 (all_pairs_NoDup u1)) as [X Y]; [apply all_pairs_In; assumption |].
    rewrite X. split; [reflexivity |]. intros Hn r d. rewrite Y. change (u_scalar u1 i j) with (u_scalar u i j). change (u_data u1) with (u_data u).
    change (scalar_in co bm u1 w j) with (scalar_in co bm u w j). field. assumption.
  - intros i j Hij. destruct (renorm_other co bm i j (all_pairs u1) u1) as [X Y].
    { rewrite in_map_iff. intros ([[i' w'] j'] & E' & Hin). cbn in E'. injection E' as -> ->. apply all_pairs_bound in Hin. cbn in Hin. lia. }
    rewrite X. split; [reflexivity |]. intros r d. rewrite Y. reflexivity.
Qed.
(** Without overwrite an existing cosmology stays, and without beam data nothing happens; no exception is raised. *)
Theorem set_cosmology_guarded :
  forall co nb u c, u_cosmo u = Some c -> setc co false nb u = u.
Proof. intros co nb u c H. unfold uvp_set_cosmology. rewrite H. reflexivity. Qed.
Theorem set_cosmology_without_beam :
  forall co ow u, u_beam u = None -> setc co ow None u = u.
Proof. intros co ow u H. unfold uvp_set_cosmology. rewrite H. destruct (u_cosmo u), ow; reflexivity. Qed.

(** two objects that agree in everything that belongs to their windows and polarizations *)
Definition same_spectra (u v : uvpc) : Prop :=
  u_win u = u_win v /\ u_pols u = u_pols v /\ u_taper u = u_taper v /\ u_sep u = u_sep v /\ u_cosmo u = u_cosmo v /\ u_beam u = u_beam v /\
  u_units u = u_units v /\ u_stats u = u_stats v /\ u_covr u = u_covr v /\ u_covi u = u_covi v /\
  forall i j, (i < length (u_win u))%nat -> (j < length (u_pols u))%nat ->
    u_scalar u i j = u_scalar v i j /\ forall r d, u_data u i r d j = u_data v i r d j.
Lemma setc_other co ow nb u :
  u_stats (setc co ow nb u) = u_stats u /\ u_covr (setc co ow nb u) = u_covr u /\ u_covi (setc co ow nb u) = u_covi u.
Proof.
  unfold uvp_set_cosmology. fold (beam_after nb u).
  set (u1 := fun bm => mkuvpc (u_win u) (u_pols u) (u_taper u) (u_sep u) (u_data u) (u_stats u) (u_covr u) (u_covi u)
                      (u_scalar u) (Some co) (Some bm) (u_units u)).
  assert (G : forall bm, u_stats (fold_left (renorm_one win2 co bm) (all_pairs (u1 bm)) (u1 bm)) = u_stats u /\
    u_covr (fold_left (renorm_one win2 co bm) (all_pairs (u1 bm)) (u1 bm)) = u_covr u /\ u_covi (fold_left (renorm_one win2 co bm) (all_pairs (u1 bm)) (u1 bm)) = u_covi u).
  { intros bm. destruct (renorm_fixed co bm (all_pairs (u1 bm)) (u1 bm)) as (_ & _ & _ & _ & E & F & G & _). auto. }
  destruct (u_cosmo u), ow, (beam_after nb u); try (repeat split; reflexivity); cbn zeta; cbn [u_stats u_covr u_covi]; apply G.
Qed.
Lemma setc_units co ow nb u bm : (u_cosmo u = None \/ ow = true) -> beam_after nb u = Some bm ->
  u_units (setc co ow nb u) = if contains "Mpc" (u_units u) then u_units u else "h^-3 Mpc^3"%string.
Proof.
  intros HC HB. unfold uvp_set_cosmology. fold (beam_after nb u). rewrite HB. set (u1 := mkuvpc _ _ _ _ _ _ _ _ _ (Some co) (Some bm) _).
  destruct (renorm_fixed co bm (all_pairs u1) u1) as (_ & _ & _ & _ & _ & _ & _ & _ & _ & J).
  destruct HC as [-> | ->]; [| destruct (u_cosmo u)]; cbn zeta; cbn [u_units]; rewrite J; reflexivity.
Qed.
(** Only the last cosmology counts: going through another one on the way (with non-zero scalars there) changes nothing. *)
Theorem set_cosmology_last_wins :
  forall c1 c2 ow nb u bm, (u_cosmo u = None \/ ow = true) -> beam_after nb u = Some bm ->
    (forall i w j, nth_error (u_win u) i = Some w -> (j < length (u_pols u))%nat -> u_scalar u i j <> 0 /\ scalar_in c1 bm u w j <> 0) ->
    same_spectra (setc c2 true nb (setc c1 ow nb u)) (setc c2 ow nb u).
Proof.
  intros c1 c2 ow nb u bm HC HB HN.
  destruct (set_cosmology_renormalizes c1 ow nb u bm HC HB) as (A1 & B1 & C1 & D1 & E1 & F1 & G1 & _).
  set (v := setc c1 ow nb u) in *.
  assert (HB' : beam_after nb v = Some bm). { unfold beam_after in *. rewrite D1. destruct nb; [exact HB | exact B1]. }
  destruct (set_cosmology_renormalizes c2 true nb v bm (or_intror eq_refl) HB') as (A2 & B2 & C2 & D2 & E2 & F2 & G2 & _).
  destruct (set_cosmology_renormalizes c2 ow nb u bm HC HB) as (A3 & B3 & C3 & D3 & E3 & F3 & G3 & _).
  unfold same_spectra. rewrite A2, A3, B2, B3, C2, C3, D2, D3, E2, E3, F2, F3, C1, D1, E1, F1. repeat (split; [reflexivity |]).
  split. { rewrite (setc_units c2 true nb v bm (or_intror eq_refl) HB'), (setc_units c2 ow nb u bm HC HB). unfold v. rewrite (setc_units c1 ow nb u bm HC HB).
    destruct (contains "Mpc" (u_units u)) eqn:E; [rewrite E; reflexivity | reflexivity]. }
  destruct (setc_other c2 true nb v) as (X1 & X2 & X3). destruct (setc_other c1 ow nb u) as (Y1 & Y2 & Y3). destruct (setc_other c2 ow nb u) as (Z1 & Z2 & Z3).
  fold v in Y1, Y2, Y3. rewrite X1, X2, X3, Y1, Y2, Y3, Z1, Z2, Z3. repeat (split; [reflexivity |]).
  intros i j Hi Hj. destruct (nth_error (u_win u) i) as [w |] eqn:Ew; [| apply nth_error_None in Ew; lia].
  destruct (HN i w j Ew Hj) as [N1 N2]. destruct (G1 i w j Ew Hj) as [P1 P2]. specialize (P2 N1).
  rewrite <- C1 in Ew. rewrite <- D1 in Hj. destruct (G2 i w j Ew Hj) as [Q1 Q2]. rewrite P1 in Q2. specialize (Q2 N2).
  rewrite C1 in Ew. rewrite D1 in Hj. destruct (G3 i w j Ew Hj) as [R1 R2]. specialize (R2 N1).
  assert (ES : scalar_in c2 bm v w j = scalar_in c2 bm u w j) by (unfold scalar_in; rewrite E1; reflexivity).
  rewrite Q1, R1. split; [exact ES |]. intros r d. specialize (P2 r d). specialize (Q2 r d). specialize (R2 r d).
  rewrite P1 in P2. rewrite Q1, ES in Q2. rewrite R1 in R2.
  apply (Rmult_eq_reg_r (u_scalar u i j * scalar_in c1 bm u w j)); [| apply Rmult_integral_contrapositive_currified; assumption].
  transitivity (u_data v i r d j * u_scalar u i j * scalar_in c2 bm u w j); [transitivity (u_data (setc c2 true nb v) i r d j * scalar_in c1 bm u w j * u_scalar u i j); [ring | rewrite Q2; ring] |].
  rewrite P2. transitivity (u_data (setc c2 ow nb u) i r d j * u_scalar u i j * scalar_in c1 bm u w j); [rewrite R2; ring | ring].
Qed.
(** Setting a cosmology and going back to one whose scalars the object carried restores every spectrum. *)
Theorem set_cosmology_back :
  forall c1 c0 u bm, u_cosmo u = Some c0 -> u_beam u = Some bm ->
    (forall i w j, nth_error (u_win u) i = Some w -> (j < length (u_pols u))%nat ->
       u_scalar u i j = scalar_in c0 bm u w j /\ u_scalar u i j <> 0 /\ scalar_in c1 bm u w j <> 0) ->
    contains "Mpc" (u_units u) = true ->
    same_spectra (setc c0 true None (setc c1 true None u)) u.
Proof.
  intros c1 c0 u bm HC HB HS HU.
  pose proof (set_cosmology_last_wins c1 c0 true None u bm (or_intror eq_refl) HB) as L.
  destruct L as (A & B & C & D & E & F & G & H1 & H2 & H3 & I); [intros i w j Hi Hj; destruct (HS i w j Hi Hj); tauto |].
  destruct (set_cosmology_renormalizes c0 true None u bm (or_intror eq_refl) HB) as (A3 & B3 & C3 & D3 & E3 & F3 & G3 & _).
  destruct (setc_other c0 true None u) as (Z1 & Z2 & Z3). pose proof (setc_units c0 true None u bm (or_intror eq_refl) HB) as UU. rewrite HU in UU.
  unfold same_spectra. rewrite A, B, C, D, E, F, G, H1, H2, H3, A3, B3, C3, D3, E3, F3, Z1, Z2, Z3, UU, HC, HB. repeat (split; [reflexivity |]).
  intros i j Hi Hj. destruct (nth_error (u_win u) i) as [w |] eqn:Ew; [| apply nth_error_None in Ew; lia].
  destruct (HS i w j Ew Hj) as (S1 & S2 & _). destruct (G3 i w j Ew Hj) as [R1 R2]. specialize (R2 S2).
  destruct (I i j) as [I1 I2]; [rewrite A, C3; assumption | rewrite B, D3; assumption |].
  split; [rewrite I1, R1; symmetry; assumption |]. intros r d. rewrite I2. specialize (R2 r d). rewrite R1, <- S1 in R2.
  apply (Rmult_eq_reg_r _ _ _ R2 S2).
Qed.
(** Python's [sub in s] *)
Definition part_of (sub s : string) : Prop := exists a b, s = (a ++ sub ++ b)%string.
Lemma substring_split n : forall s k, (n + k <= String.length s)%nat -> s = (substring 0 n s ++ substring n k s ++ substring (n + k) (String.length s - (n + k)) s)%string.
Proof.
  induction n as [|n IH]; intros s k H.
  - cbn [Nat.add]. replace (substring 0 0 s) with ""%string by (destruct s; reflexivity). cbn [append]. revert s H. induction k as [|k IHk]; intros s H.
    + replace (substring 0 0 s) with ""%string by (destruct s; reflexivity). cbn [append Nat.add]. rewrite Nat.sub_0_r. clear. induction s as [|c s IH]; [reflexivity|]. cbn. f_equal. exact IH.
    + destruct s as [|c s]; [cbn in H; lia|]. cbn [substring append String.length Nat.sub]. f_equal. apply IHk. cbn in H. lia.
  - destruct s as [|c s]; [cbn in H; lia|]. cbn [substring append String.length Nat.add Nat.sub]. f_equal. apply IH. cbn in H. lia.
Qed.
Lemma substring_here sub : forall b, substring 0 (String.length sub) (sub ++ b) = sub.
Proof. induction sub as [|c sub IH]; intros b; [destruct b; reflexivity|]. cbn. f_equal. apply IH. Qed.
Lemma substring_at a sub b : substring (String.length a) (String.length sub) (a ++ sub ++ b) = sub.
Proof. induction a as [|c a IH]; [apply (substring_here sub b)|]. exact IH. Qed.
Lemma substring_len n : forall s k, substring n k s <> ""%string -> String.length (substring n k s) = k -> (n + k <= String.length s)%nat.
Proof.
  induction n as [|n IH]; intros s k N E.
  - clear N. revert s E. induction k as [|k IHk]; intros s E; [lia|]. destruct s as [|c s]; [cbn in E; lia|]. cbn in *. injection E as E. specialize (IHk s E). lia.
  - destruct s as [|c s]; [cbn in *; congruence|]. cbn in *. specialize (IH s k N E). lia.
Qed.
Theorem contains_spec : forall sub s, sub <> ""%string -> (contains sub s = true <-> part_of sub s).
Proof.
  intros sub s N. unfold contains. destruct (index 0 sub s) as [m|] eqn:E; split; intros H; try reflexivity; try discriminate.
  - apply index_correct1 in E. exists (substring 0 m s), (substring (m + String.length sub) (String.length s - (m + String.length sub)) s). assert (L : (m + String.length sub <= String.length s)%nat) by (apply substring_len; rewrite E; [exact N | reflexivity]).
    pose proof (substring_split m s (String.length sub) L) as P. rewrite E in P. exact P.
  - destruct H as (a & b & ->). exfalso. apply (index_correct3 0 (String.length a) sub (a ++ sub ++ b) E N); [lia|]. apply substring_at.
Qed.
(** The units: what was not in Mpc is in h^-3 Mpc^3 afterwards. *)
Theorem set_cosmology_units :
  forall co ow nb u bm, (u_cosmo u = None \/ ow = true) -> beam_after nb u = Some bm ->
    (~ part_of "Mpc" (u_units u) -> u_units (setc co ow nb u) = "h^-3 Mpc^3"%string) /\
    (part_of "Mpc" (u_units u) -> u_units (setc co ow nb u) = u_units u).
Proof.
  intros co ow nb u bm HC HB. rewrite (setc_units co ow nb u bm HC HB). pose proof (contains_spec "Mpc" (u_units u) ltac:(discriminate)) as C.
  destruct (contains "Mpc" (u_units u)); split; intros H; try reflexivity; [destruct (H (proj1 C eq_refl)) | apply C in H; discriminate].
Qed.
(** False of the code: the values are in the units that the object states. Spectra in Mpc^3 become spectra in h^-3 Mpc^3,
    still said to be in Mpc^3, when their own cosmology is set again. *)
Theorem set_cosmology_units_refuted :
  forall co nb u bm, 0 < H0 co -> u_cosmo u = Some co -> beam_after nb u = Some bm -> u_units u = "Mpc^3"%string ->
    (forall i w j, nth_error (u_win u) i = Some w -> (j < length (u_pols u))%nat -> u_scalar u i j <> 0 /\
       u_scalar u i j = compute_scalar (mkscal (cosmo_x2y co) (bm j) (win2 w)) (w_lo w) (w_up w) 1000 (u_taper u) false false false) ->
    u_units (setc co true nb u) = "Mpc^3"%string /\
    forall i j r d, (i < length (u_win u))%nat -> (j < length (u_pols u))%nat -> u_data (setc co true nb u) i r d j = hh co ^ 3 * u_data u i r d j.
Proof.
  intros co nb u bm HP HC HB HU HS. split; [rewrite (setc_units co true nb u bm (or_intror eq_refl) HB), HU; reflexivity |].
  intros i j r d Hi Hj. destruct (nth_error (u_win u) i) as [w |] eqn:Ew; [| apply nth_error_None in Ew; lia].
  destruct (set_cosmology_renormalizes co true nb u bm (or_intror eq_refl) HB) as (_ & _ & _ & _ & _ & _ & G & _).
  destruct (G i w j Ew Hj) as [S D]. destruct (HS i w j Ew Hj) as [N Z]. specialize (D N r d). rewrite S in D. unfold scalar_in in D.
  rewrite (scalar_little_h co (bm j) (win2 w) (w_lo w) (w_up w) 1000 (u_taper u) false false HP), <- Z in D.
  apply (Rmult_eq_reg_r (u_scalar u i j)); [| assumption]. rewrite D. ring.
Qed.
(** False of the code: error bars follow the spectra. The stored statistics and covariances never change. *)
Theorem set_cosmology_errors_refuted :
  forall co ow nb u, u_stats (setc co ow nb u) = u_stats u /\ u_covr (setc co ow nb u) = u_covr u /\ u_covi (setc co ow nb u) = u_covi u.
Proof. exact setc_other. Qed.

(** ** Delta^2 *)
(** P(k) k^3/(2 pi^2), where k is the length of the wavevector of the row's separation and the bin's delay, in the length unit of the spectra *)
Definition k_length (co : cosmo) (lh : bool) (z sep dly : R) : R := sqrt ((sep * bl_to_kperp co lh z) ^ 2 + (dly * tau_to_kpara co lh z) ^ 2).
Theorem deltasq_values :
  forall u u', convert_to_deltasq u = Ok u' ->
    exists co, u_cosmo u = Some co /\ forall i w, nth_error (u_win u) i = Some w ->
      let f r d := k_length co (contains "h^-3" (u_units u)) (f2z false (w_mean w)) (u_sep u r) (w_dly w d) ^ 3 / (2 * PI ^ 2) in
      (forall r d p, u_data u' i r d p = u_data u i r d p * f r d) /\
      (forall s v, In (s, v) (u_stats u) -> exists v', In (s, v') (u_stats u') /\ forall r d p, v' i r d p = v i r d p * f r d) /\
      (forall s v', In (s, v') (u_stats u') -> exists v, In (s, v) (u_stats u) /\ forall r d p, v' i r d p = v i r d p * f r d) /\
      (forall v, u_covr u = Some v -> exists v', u_covr u' = Some v' /\ forall r d d' p, v' i r d d' p = f r d * v i r d d' p * f r d') /\
      (forall v, u_covi u = Some v -> exists v', u_covi u' = Some v' /\ forall r d d' p, v' i r d d' p = f r d * v i r d d' p * f r d').
Proof.
  intros u u' H. unfold convert_to_deltasq in H. destruct (u_cosmo u) as [co |]; [| discriminate]. injection H as <-. exists co. split; [reflexivity |].
  intros i w Hw f. assert (E : forall r d, coeff_at co u i r d = f r d).
  { intros r d. unfold coeff_at. rewrite (nth_error_nth _ _ dummy Hw). reflexivity. }
  cbn [u_data u_stats u_covr u_covi]. repeat split.
  - intros. rewrite E. reflexivity.
  - intros s v Hv. eexists. split; [apply in_map_iff; exists (s, v); split; [reflexivity | exact Hv] |]. intros. cbn. rewrite E. reflexivity.
  - intros s v' Hv. apply in_map_iff in Hv. destruct Hv as ([s0 v] & Ev & Hv). cbn in Ev. injection Ev as <- <-. exists v. split; [exact Hv |]. intros. rewrite E. reflexivity.
  - intros v ->. eexists. split; [reflexivity |]. intros. cbn. rewrite !E. reflexivity.
  - intros v ->. eexists. split; [reflexivity |]. intros. cbn. rewrite !E. reflexivity.
Qed.
Lemma k_length_little_h co z sep dly : 0 < H0 co -> k_length co false z sep dly = hh co * k_length co true z sep dly.
Proof.
  intros HP. assert (HH : 0 <= hh co) by (unfold hh; lra). unfold k_length. rewrite (kperp_little_h co HP), (kpara_little_h co HP).
  rewrite <- (sqrt_pow2 (hh co) HH) at 3. rewrite <- sqrt_mult by nra. f_equal. ring.
Qed.
(** Delta^2 has no length unit: it is the same whether the spectra were in h^-3 Mpc^3 or in Mpc^3. *)
Theorem deltasq_unit_free :
  forall co u v u' v' i w r d p, 0 < H0 co -> u_cosmo u = Some co -> u_cosmo v = Some co ->
    contains "h^-3" (u_units u) = true -> contains "h^-3" (u_units v) = false ->
    nth_error (u_win u) i = Some w -> nth_error (u_win v) i = Some w -> u_sep u r = u_sep v r ->
    u_data u i r d p = hh co ^ 3 * u_data v i r d p ->
    convert_to_deltasq u = Ok u' -> convert_to_deltasq v = Ok v' -> u_data u' i r d p = u_data v' i r d p.
Proof.
  intros co u v u' v' i w r d p HP Cu Cv Uu Uv Wu Wv S D Hu Hv.
  destruct (deltasq_values u u' Hu) as (co1 & E1 & K1). destruct (deltasq_values v v' Hv) as (co2 & E2 & K2).
  rewrite Cu in E1. injection E1 as <-. rewrite Cv in E2. injection E2 as <-. destruct (K1 i w Wu) as (A & _). destruct (K2 i w Wv) as (B & _).
  rewrite A, B, Uu, Uv, D, S, (k_length_little_h co _ (u_sep v r) (w_dly w d) HP). unfold Rdiv. ring.
Qed.
Lemma deltasq_keeps : forall u v, convert_to_deltasq u = Ok v -> u_win v = u_win u /\ u_pols v = u_pols u /\ u_taper v = u_taper u /\ u_scalar v = u_scalar u /\ u_beam v = u_beam u.
Proof. intros u v H. unfold convert_to_deltasq in H. destruct (u_cosmo u); [| discriminate]. injection H as <-. repeat split. Qed.
Theorem deltasq_needs_cosmology : forall u, u_cosmo u = None -> convert_to_deltasq u = Err AssertionError.
Proof. intros u H. unfold convert_to_deltasq. rewrite H. reflexivity. Qed.
(** False of the code: the result is Delta^2 whatever the object holds. A second conversion multiplies by k^3/(2 pi^2) again. *)
Theorem deltasq_twice_refuted :
  forall u u' u'', (contains "h^-3" (u_units u') = contains "h^-3" (u_units u)) -> convert_to_deltasq u = Ok u' -> convert_to_deltasq u' = Ok u'' ->
    exists co, u_cosmo u = Some co /\ forall i w r d p, nth_error (u_win u) i = Some w ->
      u_data u'' i r d p = u_data u i r d p * (k_length co (contains "h^-3" (u_units u)) (f2z false (w_mean w)) (u_sep u r) (w_dly w d) ^ 3 / (2 * PI ^ 2)) ^ 2.
Proof.
  intros u u' u'' HU H H'. destruct (deltasq_values u u' H) as (co & E & K). destruct (deltasq_values u' u'' H') as (co' & E' & K').
  assert (X : u_cosmo u' = u_cosmo u /\ u_win u' = u_win u /\ u_sep u' = u_sep u). { unfold convert_to_deltasq in H. destruct (u_cosmo u); [| discriminate]. injection H as <-. cbn. auto. }
  destruct X as (X1 & X2 & X3). rewrite X1, E in E'. injection E' as <-. exists co. split; [assumption |]. intros i w r d p Hw.
  destruct (K i w Hw) as (A & _). rewrite <- X2 in Hw. destruct (K' i w Hw) as (B & _). rewrite B, A, X3, HU. ring.
Qed.
End Cosmo.

(** ** Concrete objects: an expanding universe without matter, E(z) = sqrt L *)
Definition lam (L : R) : cosmo := mkcosmo L 0 0 0 0 70.
Lemma lam_Ez L z : Ez (lam L) z = sqrt L.
Proof. unfold Ez, E2, lam. cbn [Om_M Om_k Om_L]. f_equal. ring. Qed.
Lemma lam_DM L lh z : DM (lam L) lh z = z / sqrt L * u_ckm / hub (lam L) lh.
Proof.
  unfold DM. change (Om_k (lam L)) with 0. destruct (Rlt_dec 0 0) as [X | _]; [lra |].
  unfold DC. rewrite (RInt_ext _ (fun _ => 1 / sqrt L)) by (intros x _; rewrite lam_Ez; reflexivity).
  rewrite RInt_const. unfold Hierarchy.scal; cbn. unfold Hierarchy.mult; cbn. unfold Rdiv. ring.
Qed.
Lemma lam_hub L lh : hub (lam L) lh <> 0.
Proof. destruct lh; cbv [hub lam H0]; lra. Qed.
Lemma sqrt_four : sqrt 4 = 2.
Proof. replace 4 with (2 * 2) by ring. apply sqrt_square. lra. Qed.
Lemma lam_kperp lh z : bl_to_kperp (lam 4) lh z = 2 * bl_to_kperp (lam 1) lh z.
Proof.
  unfold bl_to_kperp, dRperp_dtheta. rewrite !lam_DM. change (hub (lam 4) lh) with (hub (lam 1) lh). rewrite sqrt_1, sqrt_four.
  generalize (u_c / z2f false z); intro a. rewrite (div_scale (2 * PI) _ 2) by lra. f_equal. f_equal. field. apply lam_hub.
Qed.
Lemma lam_para lh z : dRpara_df (lam 1) false lh z = 2 * dRpara_df (lam 4) false lh z.
Proof.
  unfold dRpara_df. rewrite !lam_Ez, sqrt_1, sqrt_four. change (hub (lam 4) lh) with (hub (lam 1) lh). field.
  pose proof f21_pos. repeat split; try apply lam_hub; lra.
Qed.
Lemma lam_kpara lh z : tau_to_kpara (lam 4) lh z = 2 * tau_to_kpara (lam 1) lh z.
Proof. unfold tau_to_kpara. rewrite lam_para. apply div_scale. lra. Qed.
Lemma lam_x2y lh f : cosmo_x2y (lam 1) lh f = 8 * cosmo_x2y (lam 4) lh f.
Proof.
  unfold cosmo_x2y, X2Y, dRperp_dtheta. rewrite lam_para, !lam_DM, sqrt_1, sqrt_four. change (hub (lam 4) lh) with (hub (lam 1) lh).
  field. apply lam_hub.
Qed.
Lemma lam_scalar ratio w2 lo up n t : compute_scalar (mkscal (cosmo_x2y (lam 4)) ratio w2) lo up n t true false false
   = compute_scalar (mkscal (cosmo_x2y (lam 1)) ratio w2) lo up n t true false false / 8.
Proof.
  unfold compute_scalar. cbn [sx2y sratio]. unfold window2. cbn [swin2].
  match goal with |- 1 / trapezoid ?g ?x = 1 / trapezoid ?h ?x / 8 => rewrite (trapezoid_ext g (fun f => 8 * h f)) end.
  - rewrite trapezoid_scal. unfold Rdiv. rewrite Rinv_mult. ring.
  - intros f _. rewrite lam_x2y. generalize (cosmo_x2y (lam 4) true f); intro a. unfold Rdiv. rewrite Rinv_mult. set (b := / a). set (q := / (_ ^ 2)). field.
Qed.

Definition c20 : R := u_f21 / 11.
(** one window (z between 9 and 10), one polarization, a flat beam ratio [rho] and the taper "none"; spectra 1, their standard
    deviation 1, covariance 1; scalars those of the cosmology [lam 1] *)
Definition win0 : window -> string -> R -> R := fun _ _ _ => 1.
Definition w0 : window := mkwindow (u_f21 / 11) (u_f21 / 10) (u_f21 / 11) (fun d => INR d * / 1000000).
Definition sc1 (rho : R) (lh exact : bool) : R := compute_scalar (mkscal (cosmo_x2y (lam 1)) (fun _ => rho) (win0 w0)) (w_lo w0) (w_up w0) 1000 "none" lh false exact.
Definition ex_obj (rho scalar : R) (units : string) : uvpc :=
  mkuvpc [w0] [1616%Z] "none" (fun _ => 10) (fun _ _ _ _ => 1) [("P_N"%string, fun _ _ _ _ => 1)] (Some (fun _ _ _ _ _ => 1)) (Some (fun _ _ _ _ _ => 1))
    (fun _ _ => scalar) (Some (lam 1)) (Some (fun _ _ => rho)) units.
Lemma lam1_x2y_range f : u_f21 / 11 <= f <= u_f21 / 10 ->
  let K := u_ckm / 100 in 81 * K ^ 2 * (100 * K / u_f21) <= cosmo_x2y (lam 1) true f <= 100 * K ^ 2 * (121 * K / u_f21).
Proof.
  intros Hf K. pose proof f21_pos as FP. pose proof ckm_pos as CP. assert (KP : 0 < K) by (unfold K; lra).
  unfold cosmo_x2y, X2Y, dRperp_dtheta, dRpara_df. rewrite lam_DM, lam_Ez, sqrt_1. change (hub (lam 1) true) with 100.
  set (z := f2z false f). assert (FF : 0 < f) by lra.
  assert (Z : 10 <= 1 + z <= 11).
  { unfold z, f2z. replace (1 + (u_f21 / f - 1)) with (u_f21 / f) by ring. split.
    - apply (Rmult_le_reg_r f); [lra |]. unfold Rdiv. rewrite Rmult_assoc, Rinv_l by lra. lra.
    - apply (Rmult_le_reg_r f); [lra |]. unfold Rdiv. rewrite Rmult_assoc, Rinv_l by lra. lra. }
  replace ((z / 1 * u_ckm / 100) ^ 2 * ((1 + z) ^ 2 / 1 * u_ckm / 100 / u_f21)) with (z ^ 2 * K ^ 2 * ((1 + z) ^ 2 * (K / u_f21))) by (unfold K; field; lra).
  assert (Q : 0 < K / u_f21) by (apply Rdiv_lt_0_compat; lra). assert (K2 : 0 < K ^ 2) by (apply pow_lt; lra).
  replace (100 * K / u_f21) with (100 * (K / u_f21)) by (field; lra). replace (121 * K / u_f21) with (121 * (K / u_f21)) by (field; lra).
  set (q := K / u_f21) in *. set (k2 := K ^ 2) in *.
  assert (A : 81 <= z ^ 2 <= 100) by (cbn; nra). assert (B : 100 <= (1 + z) ^ 2 <= 121) by (cbn; nra).
  split; apply Rmult_le_compat; try nra; apply Rmult_le_pos; nra.
Qed.
Lemma sc1_pos rho exact : 0 < rho -> 0 < sc1 rho true exact.
Proof.
  intros HR. pose proof f21_pos as FP. pose proof ckm_pos as CP. unfold sc1. apply scalar_positive; [lia | cbn; lra |]. cbn [sx2y sratio w_lo w_up w0].
  set (K := u_ckm / 100). assert (KP : 0 < K) by (unfold K; lra).
  assert (A : 0 < 81 * K ^ 2 * (100 * K / u_f21)). { apply Rmult_lt_0_compat; [apply Rmult_lt_0_compat; [lra | apply pow_lt; lra] | apply Rdiv_lt_0_compat; lra]. }
  exists (Rmin (Rmin rho 1) (81 * K ^ 2 * (100 * K / u_f21))), (100 * K ^ 2 * (121 * K / u_f21)). split; [repeat apply Rmin_glb_lt; lra |].
  intros f Hf. destruct (lam1_x2y_range f Hf) as [X Y]. fold K in X, Y. pose proof (Rmin_l rho 1). pose proof (Rmin_r rho 1).
  set (a := 81 * K ^ 2 * (100 * K / u_f21)) in *. pose proof (Rmin_l (Rmin rho 1) a). pose proof (Rmin_r (Rmin rho 1) a).
  unfold window2. cbn. repeat split; lra.
Qed.
Lemma ex_hyp rho units : 0 < rho -> let u := ex_obj rho (sc1 rho true false) units in
  forall i w j, nth_error (u_win u) i = Some w -> (j < length (u_pols u))%nat ->
    w = w0 /\ i = 0%nat /\ j = 0%nat /\ u_scalar u i j = scalar_in win0 (lam 1) (fun _ _ => rho) u w j /\ u_scalar u i j <> 0 /\ scalar_in win0 (lam 4) (fun _ _ => rho) u w j = sc1 rho true false / 8.
Proof.
  intros HR u i w j Hi Hj. destruct i as [| [| i]]; try discriminate. cbn in Hi. injection Hi as <-. cbn in Hj. assert (j = 0%nat) as -> by lia.
  split; [reflexivity |]. split; [reflexivity |]. split; [reflexivity |]. split; [reflexivity |]. split; [pose proof (sc1_pos rho false HR); cbn [u_scalar u ex_obj]; lra |].
  unfold scalar_in. rewrite lam_scalar. reflexivity.
Qed.
Example set_cosmology_applies : let u := ex_obj 1 (sc1 1 true false) "h^-3 Mpc^3" in
  same_spectra (uvp_set_cosmology win0 (lam 1) true None (uvp_set_cosmology win0 (lam 4) true None u)) u /\
  u_data (uvp_set_cosmology win0 (lam 4) true None u) 0%nat 0%nat 0%nat 0%nat = 1 / 8.
Proof.
  intros u. pose proof (sc1_pos 1 false ltac:(lra)) as SP. split.
  - apply set_cosmology_back with (bm := fun _ _ => 1); [reflexivity | reflexivity | | reflexivity].
    intros i w j Hi Hj. destruct (ex_hyp 1 "h^-3 Mpc^3" ltac:(lra) i w j Hi Hj) as (-> & -> & -> & A & B & C). split; [exact A |]. split; [exact B |].
    change (scalar_in win0 (lam 4) (fun _ _ => 1) u w0 0 <> 0). unfold u. rewrite C. lra.
  - destruct (set_cosmology_renormalizes win0 (lam 4) true None u (fun _ _ => 1) (or_intror eq_refl) eq_refl) as (_ & _ & _ & _ & _ & _ & G & _).
    destruct (G 0%nat w0 0%nat eq_refl ltac:(cbn; lia)) as [S D]. destruct (ex_hyp 1 "h^-3 Mpc^3" ltac:(lra) 0%nat w0 0%nat eq_refl ltac:(cbn; lia)) as (_ & _ & _ & A & B & C).
    specialize (D B 0%nat 0%nat). change (scalar_in win0 (lam 4) (fun _ _ => 1) u w0 0 = sc1 1 true false / 8) in C. rewrite S, C in D. change (u_scalar u 0 0) with (sc1 1 true false) in D. change (u_data u 0 0 0 0)%nat with 1 in D.
    apply (Rmult_eq_reg_r (sc1 1 true false)); [rewrite D; field | lra].
Qed.

(** error bars: the spectra shrink by 8, their standard deviation and covariance stay *)
Theorem set_cosmology_relative_errors_refuted : exists win2 co u, let u' := uvp_set_cosmology win2 co true None u in
  u_data u 0%nat 0%nat 0%nat 0%nat = 1 /\ u_data u' 0%nat 0%nat 0%nat 0%nat = 1 / 8 /\
  u_stats u = [("P_N"%string, fun _ _ _ _ => 1)] /\ u_stats u' = u_stats u /\ u_covr u = Some (fun _ _ _ _ _ => 1) /\ u_covr u' = u_covr u.
Proof.
  exists win0, (lam 4), (ex_obj 1 (sc1 1 true false) "h^-3 Mpc^3"). cbn zeta. destruct set_cosmology_applies as [_ D]. rewrite D.
  destruct (set_cosmology_errors_refuted win0 (lam 4) true None (ex_obj 1 (sc1 1 true false) "h^-3 Mpc^3")) as (A & B & _). rewrite A, B. repeat split.
Qed.
(** Spectra formed with exact_norm=True have the scalar of that normalization (pspecdata.py:3771-3777), which the object does not
    record: setting the cosmology they already have changes them. *)
Theorem set_cosmology_exact_norm_refuted : exists rho, 0 < rho /\ let u := ex_obj rho (sc1 rho true true) "h^-3 Mpc^3" in
  u_cosmo u = Some (lam 1) /\ u_data (uvp_set_cosmology win0 (lam 1) true None u) 0%nat 0%nat 0%nat 0%nat <> u_data u 0%nat 0%nat 0%nat 0%nat.
Proof.
  assert (G : forall rho, 0 < rho -> let u := ex_obj rho (sc1 rho true true) "h^-3 Mpc^3" in
     u_data (uvp_set_cosmology win0 (lam 1) true None u) 0%nat 0%nat 0%nat 0%nat = u_data u 0%nat 0%nat 0%nat 0%nat -> sc1 rho true false = sc1 rho true true).
  { intros rho HR u E. destruct (set_cosmology_renormalizes win0 (lam 1) true None u (fun _ _ => rho) (or_intror eq_refl) eq_refl) as (_ & _ & _ & _ & _ & _ & G & _).
    destruct (G 0%nat w0 0%nat eq_refl ltac:(cbn; lia)) as [S D]. pose proof (sc1_pos rho true HR) as P.
    assert (N : u_scalar u 0 0 <> 0) by (cbn [u u_scalar ex_obj]; lra). specialize (D N 0%nat 0%nat). rewrite S, E in D. change (u_data u 0 0 0 0)%nat with 1 in D.
    change (u_scalar u 0 0) with (sc1 rho true true) in D. change (scalar_in win0 (lam 1) (fun _ _ => rho) u w0 0) with (sc1 rho true false) in D. lra. }
  assert (X : sc1 1 true true = sc1 2 true true) by reflexivity.
  assert (Y : sc1 2 true false = sc1 1 true false / 2).
  { unfold sc1. rewrite <- (scalar_beam_ratio (mkscal (cosmo_x2y (lam 1)) (fun _ => 1) (win0 w0)) _ _ _ _ _ _ 2 ltac:(lra)). cbn [sx2y sratio swin2].
    unfold compute_scalar. cbn [sx2y sratio]. f_equal. apply trapezoid_ext. intros f _. rewrite Rmult_1_r. reflexivity. }
  destruct (Req_dec (sc1 1 true false) (sc1 1 true true)) as [E | E].
  - exists 2. split; [lra |]. split; [reflexivity |]. intros H. apply G in H; [| lra]. pose proof (sc1_pos 1 false ltac:(lra)). rewrite Y, <- X in H. lra.
  - exists 1. split; [lra |]. split; [reflexivity |]. intros H. apply G in H; [| lra]. contradiction.
Qed.
(** False of the code: converting to Delta^2 and changing the cosmology commute. The factor k^3 keeps the wavenumbers of the old cosmology. *)
Theorem deltasq_then_cosmology_refuted : exists u v v', let u' := uvp_set_cosmology win0 (lam 4) true None u in
  convert_to_deltasq u = Ok v /\ convert_to_deltasq u' = Ok v' /\
  0 < u_data v' 0%nat 0%nat 0%nat 0%nat /\
  u_data (uvp_set_cosmology win0 (lam 4) true None v) 0%nat 0%nat 0%nat 0%nat = u_data v' 0%nat 0%nat 0%nat 0%nat / 8.
Proof.
  set (u := ex_obj 1 (sc1 1 true false) "h^-3 Mpc^3"). set (u' := uvp_set_cosmology win0 (lam 4) true None u).
  destruct (set_cosmology_renormalizes win0 (lam 4) true None u (fun _ _ => 1) (or_intror eq_refl) eq_refl) as (C & _ & W & _ & _ & SE & _ & _).
  fold u' in C, W, SE.
  assert (V : exists v, convert_to_deltasq u = Ok v) by (eexists; reflexivity). destruct V as [v Hv].
  assert (V' : exists v', convert_to_deltasq u' = Ok v') by (unfold convert_to_deltasq; rewrite C; eexists; reflexivity). destruct V' as [v' Hv'].
  exists u, v, v'. cbn zeta. fold u'. split; [exact Hv |]. split; [exact Hv' |].
  assert (D8 : u_data u' 0%nat 0%nat 0%nat 0%nat = 1 / 8) by (destruct set_cosmology_applies as [_ D]; exact D).
  assert (U' : u_units u' = "h^-3 Mpc^3"%string) by (unfold u'; rewrite (setc_units win0 (lam 4) true None u (fun _ _ => 1) (or_intror eq_refl) eq_refl); reflexivity).
  destruct (deltasq_values u v Hv) as (co & Ec & K). cbn [u_cosmo u ex_obj] in Ec. injection Ec as <-. destruct (K 0%nat w0 eq_refl) as (A & _). specialize (A 0%nat 0%nat 0%nat).
  destruct (deltasq_values u' v' Hv') as (co' & Ec' & K'). rewrite C in Ec'. injection Ec' as <-.
  destruct (K' 0%nat w0) as (A' & _); [rewrite W; reflexivity |]. specialize (A' 0%nat 0%nat 0%nat). rewrite U' in A'. change (u_units u) with "h^-3 Mpc^3"%string in A.
  set (lh := contains "h^-3" "h^-3 Mpc^3") in *. set (z := f2z false (w_mean w0)) in *. rewrite SE in A'.
  set (s := u_sep u 0) in *. set (t := w_dly w0 0) in *.
  assert (KL : k_length (lam 4) lh z s t = 2 * k_length (lam 1) lh z s t).
  { unfold k_length. rewrite lam_kperp, lam_kpara. rewrite <- sqrt_four at 3. rewrite <- sqrt_mult by nra. f_equal. ring. }
  assert (KP : 0 < k_length (lam 1) lh z s t).
  { unfold k_length. apply sqrt_lt_R0. assert (X : 0 < (s * bl_to_kperp (lam 1) lh z) ^ 2); [| assert (0 <= (t * tau_to_kpara (lam 1) lh z) ^ 2) by (cbn; nra); lra].
    apply pow_lt. pose proof f21_pos. pose proof ckm_pos. pose proof PI_RGT_0. apply Rmult_lt_0_compat; [unfold s; cbn; lra |]. unfold bl_to_kperp, dRperp_dtheta. rewrite lam_DM, sqrt_1.
    assert (Z : z = 10). { unfold z, f2z, w0. cbn [w_mean]. field. lra. }
    rewrite Z. unfold z2f. apply Rdiv_lt_0_compat; [lra |]. apply Rmult_lt_0_compat.
    - apply Rdiv_lt_0_compat; [lra |]. change lh with true. cbn. lra.
    - apply Rdiv_lt_0_compat; [unfold u_c; lra |]. apply Rdiv_lt_0_compat; lra. }
  rewrite KL, D8 in A'. change (u_data u 0 0 0 0)%nat with 1 in A. set (k := k_length (lam 1) lh z s t) in *. pose proof PI_RGT_0 as PP.
  assert (F : 0 < k ^ 3 / (2 * PI ^ 2)). { apply Rdiv_lt_0_compat; [apply pow_lt; assumption |]. apply Rmult_lt_0_compat; [lra | apply pow_lt; assumption]. }
  assert (Q : 1 / 8 * ((2 * k) ^ 3 / (2 * PI ^ 2)) = k ^ 3 / (2 * PI ^ 2)) by (field; lra). rewrite Q in A'. rewrite A'. split; [exact F |].
  assert (Vs : u_win v = u_win u /\ u_pols v = u_pols u /\ u_taper v = u_taper u /\ u_scalar v = u_scalar u /\ u_beam v = u_beam u).
  { exact (deltasq_keeps u v Hv). }
  destruct Vs as (V1 & V2 & V3 & V4 & V5).
  destruct (set_cosmology_renormalizes win0 (lam 4) true None v (fun _ _ => 1) (or_intror eq_refl)) as (_ & _ & _ & _ & _ & _ & G & _); [exact V5 |].
  destruct (G 0%nat w0 0%nat) as [S D]; [rewrite V1; reflexivity | rewrite V2; cbn; lia |]. rewrite V4 in D.
  pose proof (sc1_pos 1 false ltac:(lra)) as SP. change (u_scalar u 0 0) with (sc1 1 true false) in D. specialize (D ltac:(lra) 0%nat 0%nat). rewrite S, A in D.
  assert (SS : scalar_in win0 (lam 4) (fun _ _ => 1) v w0 0 = sc1 1 true false / 8). { unfold scalar_in. rewrite V3, lam_scalar. reflexivity. }
  rewrite SS in D. apply (Rmult_eq_reg_r (sc1 1 true false)); [rewrite D; field; lra | lra].
Qed.
Example deltasq_applies : exists v, convert_to_deltasq (ex_obj 1 1 "h^-3 Mpc^3") = Ok v /\ u_units v = "h^-3 Mpc^3 k^3 / (2pi^2)"%string.
Proof. eexists. split; reflexivity. Qed.
Example units_hypotheses : let u := ex_obj 1 (sc1 1 false false) "Mpc^3" in
  forall i w j, nth_error (u_win u) i = Some w -> (j < length (u_pols u))%nat -> u_scalar u i j <> 0.
Proof.
  intros u i w j _ _. cbn [u u_scalar ex_obj]. pose proof (sc1_pos 1 false ltac:(lra)) as SP. unfold sc1 in *.
  rewrite (scalar_little_h (lam 1)) in SP by (cbn; lra). intros E. rewrite E in SP. lra.
Qed.
Print Assumptions set_cosmology_renormalizes. Print Assumptions set_cosmology_last_wins. Print Assumptions set_cosmology_back.
Print Assumptions set_cosmology_units_refuted. Print Assumptions deltasq_values. Print Assumptions deltasq_unit_free.
Print Assumptions set_cosmology_exact_norm_refuted. Print Assumptions deltasq_then_cosmology_refuted.
