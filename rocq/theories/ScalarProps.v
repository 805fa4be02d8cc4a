(** C39 and the beam-normalisation properties: pspec scalar, beam areas, unit conversion, Sensitivity. *)
From Coq Require Import String.
From Coq Require Import Reals Lra.
From Coquelicot Require Import Coquelicot.
From Verif Require Import Prelude ListLemmas PyDict ConvModel ConvProps ScalarModel.
Open Scope R_scope.

(** ** trapezoid sums *)
Lemma trapezoid_cons f x y l : trapezoid f (x :: y :: l) = (y - x) * (f x + f y) / 2 + trapezoid f (y :: l).
Proof. reflexivity. Qed.
Lemma trapezoid_ext f g xs : (forall x, In x xs -> f x = g x) -> trapezoid f xs = trapezoid g xs.
Proof.
  induction xs as [| x xs IH]; intros H; [reflexivity |]. destruct xs as [| x' xs]; [reflexivity |]. rewrite ! trapezoid_cons.
  rewrite (H x), (H x') by (cbn; auto). rewrite IH; [reflexivity |]. intros y Hy. apply H. right. exact Hy.
Qed.
Lemma trapezoid_scal k f xs : trapezoid (fun x => k * f x) xs = k * trapezoid f xs.
Proof. induction xs as [| x xs IH]; [cbn; ring |]. destruct xs as [| x' xs]; [cbn; ring |]. rewrite ! trapezoid_cons, IH. unfold Rdiv. ring. Qed.
Inductive rising : list R -> Prop :=
| rising0 : rising []
| rising1 x : rising [x]
| rising2 x y l : x < y -> rising (y :: l) -> rising (x :: y :: l).
Lemma trapezoid_le f g xs : rising xs -> (forall x, In x xs -> f x <= g x) -> trapezoid f xs <= trapezoid g xs.
Proof.
  induction 1 as [| x | x y l L R IH]; intros H; [cbn; lra | cbn; lra |]. change (trapezoid f (x :: y :: l)) with ((y - x) * (f x + f y) / 2 + trapezoid f (y :: l)).
  change (trapezoid g (x :: y :: l)) with ((y - x) * (g x + g y) / 2 + trapezoid g (y :: l)).
  assert (A : f x <= g x) by (apply H; cbn; auto). assert (B : f y <= g y) by (apply H; cbn; auto).
  assert (trapezoid f (y :: l) <= trapezoid g (y :: l)) by (apply IH; intros z Hz; apply H; right; exact Hz). nra.
Qed.
Fixpoint last_of (x : R) (l : list R) : R := match l with [] => x | y :: l => last_of y l end.
Lemma trapezoid_const k x l : trapezoid (fun _ => k) (x :: l) = k * (last_of x l - x).
Proof. revert x. induction l as [| y l IH]; intros x; [cbn; ring |]. change (trapezoid (fun _ => k) (x :: y :: l)) with ((y - x) * (k + k) / 2 + trapezoid (fun _ => k) (y :: l)).
  rewrite IH. cbn [last_of]. field. Qed.
Lemma last_of_map (f : nat -> R) a n : last_of (f a) (map f (seq (S a) n)) = f (a + n)%nat.
Proof. revert a. induction n as [| n IH]; intros a; cbn; [rewrite Nat.add_0_r; reflexivity |]. rewrite IH. f_equal. lia. Qed.
Lemma linspace_cons a b n : (2 <= n)%nat -> exists l, linspace a b n = a :: l /\ last_of a l = b /\ l <> [].
Proof.
  intros H. destruct n as [| [| n]]; [lia | lia |]. unfold linspace. set (f := fun i => a + INR i * ((b - a) / INR (S (S n) - 1))).
  change (map f (seq 0 (S (S n)))) with (f 0%nat :: map f (seq 1 (S n))). exists (map f (seq 1 (S n))).
  assert (F0 : f 0%nat = a) by (unfold f; cbn; ring). split; [rewrite F0; reflexivity |]. split; [| discriminate].
  rewrite <- F0 at 1. rewrite last_of_map. unfold f. replace (S (S n) - 1)%nat with (S n) by lia. cbn [Nat.add].
  field. apply not_0_INR. lia.
Qed.
Lemma rising_map (f : nat -> R) (H : forall i j, (i < j)%nat -> f i < f j) n a : rising (map f (seq a n)).
Proof. revert a. induction n as [| n IH]; intros a; cbn; [constructor |]. destruct n; cbn in *; [constructor |]. constructor; [apply H; lia | apply (IH (S a))]. Qed.
Lemma linspace_rising a b n : (2 <= n)%nat -> a < b -> rising (linspace a b n).
Proof.
  intros H L. apply rising_map. intros i j Hij. assert (P : 0 < INR (n - 1)) by (apply lt_0_INR; lia). apply lt_INR in Hij.
  assert (0 < (b - a) / INR (n - 1)) by (apply Rdiv_lt_0_compat; lra). nra.
Qed.
Lemma linspace_range a b n x : (2 <= n)%nat -> a < b -> In x (linspace a b n) -> a <= x <= b.
Proof.
  intros H L Hx. apply in_map_iff in Hx. destruct Hx as (i & <- & Hi). apply in_seq in Hi.
  assert (P : 0 < INR (n - 1)) by (apply lt_0_INR; lia). assert (Q : 0 <= INR i) by apply pos_INR. assert (T : INR i <= INR (n - 1)) by (apply le_INR; lia).
  assert (S : 0 <= INR i * ((b - a) / INR (n - 1)) <= b - a); [| lra]. split.
  - apply Rmult_le_pos; [assumption |]. apply Rlt_le, Rdiv_lt_0_compat; lra.
  - replace (b - a) with (INR (n - 1) * ((b - a) / INR (n - 1))) at 2 by (field; lra). apply Rmult_le_compat_r; [| assumption]. apply Rlt_le, Rdiv_lt_0_compat; lra.
Qed.

(** ** the scalar *)
(** With h^-1 Mpc lengths the scalar is h^3 times the one in Mpc, for every beam, taper and option. *)
Theorem scalar_little_h :
  forall co ratio win lo up n taper noise exact, 0 < H0 co ->
    let s := mkscal (cosmo_x2y co) ratio win in
    compute_scalar s lo up n taper true noise exact = hh co ^ 3 * compute_scalar s lo up n taper false noise exact.
Proof.
  intros co ratio win lo up n taper noise exact HH s. assert (HP : 0 < hh co) by (unfold hh; lra).
  assert (X : forall f, cosmo_x2y co true f = hh co ^ 3 * cosmo_x2y co false f) by (intros; apply X2Y_little_h; assumption).
  assert (H3 : hh co ^ 3 <> 0) by (apply Rgt_not_eq, pow_lt; assumption).
  unfold compute_scalar, s; cbn [sx2y sratio swin2]. destruct exact.
  - rewrite (trapezoid_ext _ (fun f => hh co ^ 3 * cosmo_x2y co false f)) by (intros; apply X). rewrite trapezoid_scal. unfold Rdiv. ring.
  - set (F := fun f => _ * ratio f / cosmo_x2y co false f).
    rewrite (trapezoid_ext _ (fun f => / hh co ^ 3 * F f)).
    2: { intros f _. unfold F. rewrite X. unfold Rdiv. rewrite Rinv_mult. ring. }
    rewrite trapezoid_scal. unfold Rdiv. rewrite Rinv_mult, Rinv_inv. ring.
Qed.
(** The noise scalar does not depend on the taper, and is the untapered scalar per unit bandwidth. *)
Theorem noise_scalar_no_taper :
  forall s lo up n t t' lh, compute_scalar s lo up n t lh true false = compute_scalar s lo up n t' lh true false.
Proof. reflexivity. Qed.
Theorem noise_scalar_is_density :
  forall s lo up n lh, lo < up ->
    compute_scalar s lo up n "none" lh false false = (up - lo) * compute_scalar s lo up n "none" lh true false.
Proof.
  intros s lo up n lh L. unfold compute_scalar. unfold window2. destruct (string_dec "none" "none") as [_ | C]; [| congruence].
  set (F := fun f => sratio s f / sx2y s lh f).
  rewrite (trapezoid_ext _ (fun f => / (up - lo) ^ 2 * F f)) by (intros; unfold F, Rdiv; ring).
  rewrite (trapezoid_ext (fun f => 1 / (up - lo) * _ / _) (fun f => / (up - lo) * F f)) by (intros; unfold F, Rdiv; ring).
  rewrite ! trapezoid_scal. unfold Rdiv. rewrite ! Rinv_mult, ! Rinv_inv. ring_simplify. ring.
Qed.
(** A beam with k times the ratio OmegaPP/OmegaP^2 has 1/k times the scalar; exact_norm ignores beam and taper. *)
Theorem scalar_beam_ratio :
  forall s lo up n taper lh noise k, k <> 0 ->
    compute_scalar (mkscal (sx2y s) (fun f => k * sratio s f) (swin2 s)) lo up n taper lh noise false =
    compute_scalar s lo up n taper lh noise false / k.
Proof.
  intros s lo up n taper lh noise k K. unfold compute_scalar; cbn [sx2y sratio swin2]. unfold window2; cbn [swin2].
  match goal with |- _ = 1 / trapezoid ?g _ / k => set (F := g) end. rewrite (trapezoid_ext _ (fun f => k * F f)) by (intros; unfold F, Rdiv; ring).
  rewrite trapezoid_scal. unfold Rdiv. rewrite Rinv_mult. ring.
Qed.
Theorem exact_norm_mean_X2Y :
  forall s lo up n taper lh noise a b, (2 <= n)%nat -> lo < up -> (forall f, lo <= f <= up -> a <= sx2y s lh f <= b) ->
    a <= compute_scalar s lo up n taper lh noise true <= b.
Proof.
  intros s lo up n taper lh noise a b Hn L H. unfold compute_scalar. rewrite Rabs_pos_eq by lra.
  destruct (linspace_cons lo up n Hn) as (l & E & La & _).
  assert (C : forall k, trapezoid (fun _ => k) (linspace lo up n) = k * (up - lo)) by (intros k; rewrite E, trapezoid_const, La; reflexivity).
  assert (I : forall x, In x (linspace lo up n) -> a <= sx2y s lh x <= b) by (intros x Hx; apply H, (linspace_range lo up n); assumption).
  pose proof (linspace_rising lo up n Hn L) as RI.
  assert (A := trapezoid_le (fun _ => a) (sx2y s lh) _ RI (fun x Hx => proj1 (I x Hx))). assert (B := trapezoid_le (sx2y s lh) (fun _ => b) _ RI (fun x Hx => proj2 (I x Hx))).
  rewrite C in A, B. split; [apply (Rmult_le_reg_r (up - lo)) | apply (Rmult_le_reg_r (up - lo))]; try lra; unfold Rdiv; rewrite Rmult_assoc, Rinv_l; lra.
Qed.
(** a positive beam ratio and X2Y give a positive scalar *)
Theorem scalar_positive :
  forall s lo up n taper lh noise exact, (2 <= n)%nat -> lo < up ->
    (exists m M, 0 < m /\ forall f, lo <= f <= up -> m <= sratio s f /\ m <= sx2y s lh f <= M /\ m <= window2 s taper f) ->
    0 < compute_scalar s lo up n taper lh noise exact.
Proof.
  intros s lo up n taper lh noise exact Hn L (m & M & Mp & H). destruct exact.
  { destruct (exact_norm_mean_X2Y s lo up n taper lh noise m M Hn L) as [A _]; [intros f Hf; apply H in Hf; tauto |]. unfold compute_scalar in *. lra. }
  unfold compute_scalar. apply Rdiv_lt_0_compat; [lra |]. pose proof (linspace_rising lo up n Hn L) as RI.
  set (w := if noise then 1 / (up - lo) else m / (up - lo) ^ 2). assert (B2 : 0 < (up - lo) ^ 2) by (apply pow_lt; lra).
  assert (W : 0 < w) by (unfold w; destruct noise; apply Rdiv_lt_0_compat; lra).
  assert (MM : 0 < M). { destruct (H lo) as (_ & [P Q] & _); lra. }
  set (k := w * m / M). assert (K : 0 < k) by (unfold k; apply Rdiv_lt_0_compat; [apply Rmult_lt_0_compat |]; assumption).
  destruct (linspace_cons lo up n Hn) as (l & E & La & _).
  apply Rlt_le_trans with (trapezoid (fun _ => k) (linspace lo up n)); [rewrite E, trapezoid_const, La; apply Rmult_lt_0_compat; lra |].
  apply trapezoid_le; [assumption |]. intros x Hx. apply (linspace_range lo up n) in Hx; [| assumption | assumption]. destruct (H x Hx) as (R1 & [X1 X2] & W1).
  assert (W2 : w <= (if noise then 1 / (up - lo) else window2 s taper x / (up - lo) ^ 2)).
  { unfold w. destruct noise; [lra |]. unfold Rdiv. apply Rmult_le_compat_r; [apply Rlt_le, Rinv_0_lt_compat; assumption | assumption]. }
  unfold k, Rdiv. apply Rmult_le_compat; [apply Rlt_le, Rmult_lt_0_compat; assumption | apply Rlt_le, Rinv_0_lt_compat; assumption | |].
  - apply Rmult_le_compat; lra.
  - apply Rinv_le_contravar; lra.
Qed.

(** ** the taper override (C39) *)
Section Override.
Context {P : Type} (eqP : forall x y : P, {x = y} + {x <> y}).
(** the documented value: the scalar for the taper asked for *)
Definition scalar_wanted (beam : P -> scal_in) lo up n self_taper p lh override exact : R :=
  compute_scalar (beam p) lo up n (if string_dec override "no_override" then self_taper else override) lh false exact.
Theorem taper_override_partial :
  forall beam lo up n self_taper p lh override exact,
    (override = "no_override"%string \/ override = self_taper \/ exact = true) ->
    pd_scalar eqP beam lo up n self_taper p p lh override exact = Ok (scalar_wanted beam lo up n self_taper p lh override exact).
Proof.
  intros beam lo up n st p lh ov exact H. unfold pd_scalar, scalar_wanted. destruct (eqP p p) as [_ | C]; [| congruence]. f_equal.
  destruct H as [-> | [-> | ->]]; [| | reflexivity]; destruct (string_dec _ _); try reflexivity. congruence.
Qed.
Theorem mixed_polarizations_refused :
  forall beam lo up n st p1 p2 lh ov exact, p1 <> p2 -> pd_scalar eqP beam lo up n st p1 p2 lh ov exact = Err NotImplementedError.
Proof. intros. unfold pd_scalar. destruct (eqP p1 p2); [contradiction | reflexivity]. Qed.
End Override.
(** window with squared values 1/4: asking for the untapered scalar gives the tapered one, four times as large *)
Definition quarter : scal_in := mkscal (fun _ _ => 1) (fun _ => 1) (fun _ _ => 1 / 4).
Theorem taper_override_refuted :
  exists beam lo up n self_taper override,
    pd_scalar Nat.eq_dec beam lo up n self_taper 0%nat 0%nat true override false = Ok 4 /\
    scalar_wanted beam lo up n self_taper 0%nat true override false = 1.
Proof.
  exists (fun _ => quarter), 0, 1, 2%nat, "bh"%string, "none"%string. unfold pd_scalar, scalar_wanted, compute_scalar, linspace, window2, quarter. cbn -[Rdiv INR].
  split; [f_equal |]; cbn; field.
Qed.
(** in particular the H^-1 normalisation of pspec (pspecdata.py:3765-3776) divides the window twice *)
Theorem H_inverse_scalar_refuted :
  exists beam lo up n, (forall st, pd_scalar Nat.eq_dec beam lo up n st 0%nat 0%nat true "none" false = pd_scalar Nat.eq_dec beam lo up n st 0%nat 0%nat true "no_override" false) /\
    pd_scalar Nat.eq_dec beam lo up n "bh" 0%nat 0%nat true "none" false <> pd_scalar Nat.eq_dec beam lo up n "none" 0%nat 0%nat true "none" false.
Proof.
  exists (fun _ => quarter), 0, 1, 2%nat. split; [reflexivity |]. unfold pd_scalar, compute_scalar, linspace, window2, quarter. cbn -[Rdiv INR].
  intros E. injection E as E. cbn in E. revert E. match goal with |- ?a = ?b -> _ => replace a with 4 by field; replace b with 1 by field end. lra.
Qed.

(** ** two ways to a noise scalar: Sensitivity.calc_scalar (noise.py:175-224) stops the band at the last channel, UVPSpec.compute_scalar and
    PSpecData.scalar one channel later *)
Definition sens_scalar (s : scal_in) (f0 df : R) (nchan n : nat) := compute_scalar s f0 (f0 + df * INR (nchan - 1)) n "none" true true false.
Definition uvp_scalar (s : scal_in) (f0 df : R) (nchan n : nat) := compute_scalar s f0 (f0 + df * INR nchan) n "none" true true false.
Theorem noise_scalars_agree_partial :
  forall s f0 df nchan n c, (2 <= n)%nat -> (2 <= nchan)%nat -> 0 < df -> c <> 0 -> (forall f, sratio s f / sx2y s true f = c) ->
    sens_scalar s f0 df nchan n = 1 / c /\ uvp_scalar s f0 df nchan n = 1 / c.
Proof.
  assert (G : forall s lo up n c, (2 <= n)%nat -> lo < up -> c <> 0 -> (forall f, sratio s f / sx2y s true f = c) -> compute_scalar s lo up n "none" true true false = 1 / c).
  { intros s lo up n c Hn L Hc H. unfold compute_scalar. rewrite (trapezoid_ext _ (fun _ => c / (up - lo))).
    2: { intros f _. rewrite <- (H f). unfold Rdiv. ring. }
    destruct (linspace_cons lo up n Hn) as (l & E & La & _). rewrite E, trapezoid_const, La. field. lra. }
  intros s f0 df nchan n c Hn Hc D C H. unfold sens_scalar, uvp_scalar.
  assert (0 < INR (nchan - 1)) by (apply lt_0_INR; lia). assert (0 < INR nchan) by (apply lt_0_INR; lia).
  split; apply G; auto; nra.
Qed.
Theorem noise_scalars_agree_refuted :
  exists s f0 df nchan n, 0 < df /\ (2 <= nchan)%nat /\ (2 <= n)%nat /\ (forall f, f0 <= f <= f0 + df * INR nchan -> 0 < sratio s f /\ 0 < sx2y s true f) /\
    sens_scalar s f0 df nchan n <> uvp_scalar s f0 df nchan n.
Proof.
  exists (mkscal (fun _ f => f) (fun _ => 1) (fun _ _ => 1)), 1, 1, 2%nat, 2%nat. repeat split; try lra; try lia; cbn; try lra.
Qed.

(** ** Gaussian beams *)
Lemma gauss_int a R : 0 < a -> RInt (fun r => 2 * PI * r * exp (- (a * r ^ 2))) 0 R = PI / a * (1 - exp (- (a * R ^ 2))).
Proof.
  intros Ha. apply is_RInt_unique. set (F := fun r => - (PI / a) * exp (- (a * r ^ 2))).
  replace (PI / a * (1 - exp (- (a * R ^ 2)))) with (minus (F R) (F 0)).
  - apply (is_RInt_derive F).
    + intros x _. unfold F. auto_derive; [exact I |]. replace (x * (x * 1)) with (x ^ 2) by ring. field. lra.
    + intros x _. apply (ex_derive_continuous (K := R_AbsRing) (V := R_NormedModule)). auto_derive. exact I.
  - unfold F, minus, plus, opp; cbn. replace (- (a * (0 * (0 * 1)))) with 0 by ring. rewrite exp_0. field. lra.
Qed.
(** OmegaP and OmegaPP are the areas of the beam exp(-4 ln 2 r^2 / fwhm^2) and of its square on the (flat) sky. *)
Theorem gaussian_beam_areas :
  forall w, 0 < w ->
    let beam r := exp (- (4 * ln 2 / w ^ 2 * r ^ 2)) in
    beam 0 = 1 /\ beam (w / 2) = 1 / 2 /\
    is_lim (fun R => RInt (fun r => 2 * PI * r * beam r) 0 R) p_infty (gauss_OmegaP w) /\
    is_lim (fun R => RInt (fun r => 2 * PI * r * (beam r) ^ 2) 0 R) p_infty (gauss_OmegaPP w) /\
    gauss_OmegaPP w / gauss_OmegaP w ^ 2 = 1 / (2 * gauss_OmegaP w).
Proof.
  intros w Hw beam. assert (L2 : 0 < ln 2) by (rewrite <- ln_1; apply ln_increasing; lra). pose proof PI_RGT_0 as PP. assert (W2 : 0 < w ^ 2) by (apply pow_lt; assumption).
  assert (T : forall a, 0 < a -> is_lim (fun R => PI / a * (1 - exp (- (a * R ^ 2)))) p_infty (PI / a)).
  { intros a Ha. assert (E : is_lim (fun R => exp (- (a * R ^ 2))) p_infty 0).
    { apply (is_lim_comp exp (fun R => - (a * R ^ 2)) p_infty 0 m_infty); [apply is_lim_exp_m | |].
      - apply (is_lim_opp (fun R => a * R ^ 2) p_infty p_infty).
        apply (is_lim_ext_loc (fun R => a * R * R)). { exists 0. intros; ring. }
        apply (is_lim_mult (fun R => a * R) (fun R => R) p_infty p_infty p_infty); [| apply is_lim_id | exact I].
        assert (MM : is_lim (fun R => a * R) p_infty (Rbar_mult a p_infty)) by (apply is_lim_scal_l, is_lim_id).
        replace (Rbar_mult a p_infty) with p_infty in MM; [exact MM |]. cbn. destruct (Rle_dec 0 a) as [H | H]; [| lra]. destruct (Rle_lt_or_eq_dec 0 a H); [reflexivity | lra].
      - exists 0. intros; discriminate. }
    replace (Finite (PI / a)) with (Rbar_mult (PI / a) (Rbar_minus 1 0)) by (cbn; f_equal; ring).
    apply is_lim_scal_l. apply (is_lim_minus _ _ p_infty 1 0); [apply is_lim_const | exact E | cbn; unfold is_Rbar_minus, is_Rbar_plus; cbn; f_equal]. }
  assert (A1 : 0 < 4 * ln 2 / w ^ 2) by (apply Rdiv_lt_0_compat; lra). assert (A2 : 0 < 8 * ln 2 / w ^ 2) by (apply Rdiv_lt_0_compat; lra).
  split; [| split; [| split; [| split]]].
  - unfold beam. replace (4 * ln 2 / w ^ 2 * 0 ^ 2) with 0 by ring. rewrite Ropp_0. apply exp_0.
  - unfold beam. replace (4 * ln 2 / w ^ 2 * (w / 2) ^ 2) with (ln 2) by (field; lra). rewrite exp_Ropp, exp_ln; lra.
  - apply (is_lim_ext_loc (fun R => PI / (4 * ln 2 / w ^ 2) * (1 - exp (- (4 * ln 2 / w ^ 2 * R ^ 2))))).
    + exists 0. intros R _. unfold beam. rewrite gauss_int by assumption. reflexivity.
    + replace (gauss_OmegaP w) with (PI / (4 * ln 2 / w ^ 2)) by (unfold gauss_OmegaP; field; lra). apply T. assumption.
  - apply (is_lim_ext_loc (fun R => PI / (8 * ln 2 / w ^ 2) * (1 - exp (- (8 * ln 2 / w ^ 2 * R ^ 2))))).
    + exists 0. intros R _. unfold beam. rewrite <- gauss_int by assumption. apply RInt_ext. intros r _. assert (Sq : forall x, exp x ^ 2 = exp (x + x)) by (intros; rewrite exp_plus; ring). rewrite Sq. do 2 f_equal. field. lra.
    + replace (gauss_OmegaPP w) with (PI / (8 * ln 2 / w ^ 2)) by (unfold gauss_OmegaPP; field; lra). apply T. assumption.
  - unfold gauss_OmegaPP, gauss_OmegaP. field. lra.
Qed.

(** ** beams from arrays *)
Section FA.
Variable polstr2num : string -> option Z.
Variable nfreq : nat.
Notation key_num := (key_num polstr2num).
(** the polarization a key denotes *)
Definition denotes (k : pkey) (z : Z) : Prop := key_num k = Ok z.
(** no two keys of the dictionary denote the same polarization *)
Definition distinct_keys (d : odict) : Prop :=
  NoDup (map fst d) /\ forall k k' z, In k (map fst d) -> In k' (map fst d) -> denotes k z -> denotes k' z -> k = k'.
Lemma denotes_num z z' : denotes (PNum z) z' <-> z = z'.
Proof. unfold denotes; cbn. split; [intros E; injection E; auto | intros ->; reflexivity]. Qed.
Lemma denotes_fun k z z' : denotes k z -> denotes k z' -> z = z'.
Proof. unfold denotes. intros A B. rewrite A in B. injection B. auto. Qed.
Lemma memZ_In z l : memZ z l = true <-> In z l.
Proof. unfold memZ. rewrite existsb_exists. split; [intros (x & Hx & E); apply Z.eqb_eq in E; subst; assumption | intros H; exists z; split; [assumption | apply Z.eqb_refl]]. Qed.

Lemma in_fst {A B} (k : A) (v : B) l : In (k, v) l -> In k (map fst l).
Proof. intros. apply in_map_iff. exists (k, v). auto. Qed.
Lemma fst_in {A B} (k : A) (l : list (A * B)) : In k (map fst l) -> exists v, In (k, v) l.
Proof. intros H. apply in_map_iff in H. destruct H as ([k' v] & E & H). cbn in E. subst. eauto. Qed.
Lemma ddel_spec (d : odict) k k' v : NoDup (map fst d) -> (In (k', v) (ddel pkey_dec d k) <-> In (k', v) d /\ k' <> k).
Proof.
  intros ND. induction d as [| [k0 v0] d IH]; cbn; [tauto |]. inversion ND as [| ? ? N1 N2]; subst. destruct (pkey_dec k k0) as [-> | NE].
  - split; [intros H; split; [tauto |]; intros ->; apply N1, (in_fst k0 v), H |]. intros [[E | H] NE]; [injection E; intros; subst; congruence | assumption].
  - cbn. rewrite IH by assumption. split; [intros [E | [H H']] | intros [[E | H] H']]; auto. injection E; intros; subst. auto.
Qed.
Definition fixed (d d' : odict) : Prop := forall z v, dget pkey_dec d' (PNum z) = Some v <-> exists k, In (k, v) d /\ denotes k z.
Lemma fix_keys_spec ks : forall d, distinct_keys d -> NoDup ks -> incl ks (map fst d) -> (forall s, In (PStr s) (map fst d) -> In (PStr s) ks) ->
  (forall d', fix_keys polstr2num ks d = Ok d' -> fixed d d' /\ (forall k, In k ks -> exists z, denotes k z /\ In z allowed_pols)) /\
  ((forall k, In k ks -> exists z, denotes k z /\ In z allowed_pols) -> exists d', fix_keys polstr2num ks d = Ok d').
Proof.
  induction ks as [| k ks IH]; intros d [ND DI] NK IN ST.
  { split; [| intros _; exists d; reflexivity]. intros d' E. injection E as <-. split; [| intros k []]. intros z v. split.
    - intros G. apply dget_In in G. exists (PNum z). split; [assumption | apply denotes_num; reflexivity].
    - intros ([z' | s] & Hk & Hd); [apply denotes_num in Hd; subst; apply In_dget; assumption |]. exfalso. apply (ST s), (in_fst _ _ _ Hk). }
  inversion NK as [| ? ? Nk NKs]; subst. cbn [fix_keys]. destruct k as [z | s].
  - cbn [bind fst snd]. destruct (IH d (conj ND DI) NKs) as [I1 I2]; [intros x Hx; apply IN; right; assumption | intros s Hs; destruct (ST s Hs); [discriminate | assumption] |]. split.
    + intros d' E. apply require_ok in E. destruct E as [M E]. apply memZ_In in M. destruct (I1 d' E) as [F A]. split; [assumption |].
      intros k [<- | Hk]; [exists z; split; [apply denotes_num; reflexivity | assumption] | apply A; assumption].
    + intros A. destruct (A (PNum z) (or_introl eq_refl)) as (z' & Dz & Hz). apply denotes_num in Dz. subst z'. apply memZ_In in Hz. rewrite Hz. cbn [require]. apply I2. intros k Hk. apply A. right; assumption.
  - assert (HK : In (PStr s) (map fst d)) by (apply IN; left; reflexivity). destruct (fst_in _ _ HK) as (v0 & Hv0).
    pose proof (In_dget pkey_dec d _ _ ND Hv0) as G0. rewrite G0. destruct (polstr2num s) as [z |] eqn:Es.
    2: { split; [intros d' E; discriminate |]. intros A. destruct (A (PStr s) (or_introl eq_refl)) as (z & Dz & _). unfold denotes in Dz. cbn in Dz. rewrite Es in Dz. discriminate. }
    cbn [bind fst snd]. set (d1 := dset pkey_dec (ddel pkey_dec d (PStr s)) (PNum z) v0).
    assert (Dz : denotes (PStr s) z) by (unfold denotes; cbn; rewrite Es; reflexivity).
    assert (NZ : ~ In (PNum z) (map fst d)). { intros H. assert (PNum z = PStr s); [| discriminate]. apply (DI _ _ z); auto. apply denotes_num; reflexivity. }
    assert (E1 : d1 = ddel pkey_dec d (PStr s) ++ [(PNum z, v0)]).
    { apply dset_fresh. intros H. destruct (fst_in _ _ H) as (v & Hv). apply ddel_spec in Hv; [| assumption]. apply NZ, (in_fst _ v). tauto. }
    assert (IN1 : forall k v, In (k, v) d1 <-> (In (k, v) d /\ k <> PStr s) \/ (k, v) = (PNum z, v0)).
    { intros k v. rewrite E1, in_app_iff, ddel_spec by assumption. cbn. split; [intros [H | [H | []]] | intros [H | H]]; auto. }
    assert (K1 : forall k, In k (map fst d1) -> (In k (map fst d) /\ k <> PStr s) \/ k = PNum z).
    { intros k H. destruct (fst_in _ _ H) as (v & Hv). apply IN1 in Hv. destruct Hv as [[Hv Hn] | Hv]; [left; split; [apply (in_fst _ v) |]; assumption | right; congruence]. }
    assert (ND1 : NoDup (map fst d1)) by (apply dset_NoDup, ddel_NoDup; assumption).
    assert (DI1 : distinct_keys d1).
    { split; [assumption |]. intros k k' z' H H' D D'.
      destruct (K1 k H) as [[X Xn] | ->], (K1 k' H') as [[Y Yn] | ->].
      - apply (DI _ _ z'); assumption.
      - apply denotes_num in D'. subst z'. exfalso. apply Xn, (DI _ _ z); assumption.
      - apply denotes_num in D. subst z'. exfalso. apply Yn, (DI _ _ z); assumption.
      - reflexivity. }
    destruct (IH d1 DI1 NKs) as [I1 I2].
    { intros x Hx. assert (x <> PStr s) by (intros ->; contradiction). destruct (fst_in _ _ (IN x (or_intror Hx))) as (v & Hv). apply (in_fst _ v), IN1. left. split; assumption. }
    { intros s' Hs'. destruct (K1 _ Hs') as [[X Xn] | X]; [| discriminate]. destruct (ST s' X) as [E | E]; [congruence | assumption]. }
    split.
    + intros d' E. apply require_ok in E. destruct E as [M E]. apply memZ_In in M. destruct (I1 d' E) as [F A]. split.
      * intros z' v. rewrite (F z' v). split; intros (k & Hk & Hd).
        -- apply IN1 in Hk. destruct Hk as [[Hk _] | Hk]; [eauto |]. injection Hk as -> ->. apply denotes_num in Hd. subst z'. eauto.
        -- destruct (pkey_dec k (PStr s)) as [-> | NE].
           ++ exists (PNum z). split; [apply IN1; right; f_equal | apply denotes_num, (denotes_fun (PStr s)); assumption].
              pose proof (In_dget pkey_dec d _ _ ND Hk) as G1. rewrite G0 in G1. injection G1. auto.
           ++ exists k. split; [apply IN1; left; split; assumption | assumption].
      * intros k [<- | Hk]; [eauto | apply A; assumption].
    + intros A. destruct (A (PStr s) (or_introl eq_refl)) as (z' & Dz' & Hz). rewrite (denotes_fun _ _ _ Dz Dz') in *. apply memZ_In in Hz. rewrite Hz. cbn [require]. apply I2. intros k Hk. apply A. right; assumption.
Qed.

Lemma add_pols_spec (ps : list Z) (P PP : odict) : NoDup ps -> (forall p, In p ps -> In p allowed_pols) -> forall b,
  (forall b', add_pols polstr2num nfreq ps P PP b = Ok b' ->
     (forall p, dget Z.eq_dec (aP b') p = if in_dec Z.eq_dec p ps then match dget pkey_dec P (PNum p) with Some v => Some v | None => dget Z.eq_dec (aP b) p end else dget Z.eq_dec (aP b) p) /\
     (forall p, dget Z.eq_dec (aPP b') p = if in_dec Z.eq_dec p ps then match dget pkey_dec PP (PNum p) with Some v => Some v | None => dget Z.eq_dec (aPP b) p end else dget Z.eq_dec (aPP b) p) /\
     (forall p, In p ps -> (dget pkey_dec P (PNum p) = None <-> dget pkey_dec PP (PNum p) = None)) /\
     (forall p v, In p ps -> dget pkey_dec P (PNum p) = Some v \/ dget pkey_dec PP (PNum p) = Some v -> length v = nfreq)) /\
  ((forall p, In p ps -> (dget pkey_dec P (PNum p) = None <-> dget pkey_dec PP (PNum p) = None)) ->
   (forall p v, In p ps -> dget pkey_dec P (PNum p) = Some v \/ dget pkey_dec PP (PNum p) = Some v -> length v = nfreq) ->
   exists b', add_pols polstr2num nfreq ps P PP b = Ok b').
Proof.
  induction ps as [| p ps IH]; intros ND AL b.
  { split; [| intros _ _; exists b; reflexivity]. intros b' E. injection E as <-. repeat split; intros; try contradiction; destruct (in_dec Z.eq_dec p []); try contradiction; reflexivity. }
  inversion ND as [| ? ? Np NDs]; subst. assert (ALs : forall p, In p ps -> In p allowed_pols) by (intros; apply AL; right; assumption).
  assert (IND : forall q, in_dec Z.eq_dec q (p :: ps) = in_dec Z.eq_dec q (p :: ps)) by reflexivity. cbn [add_pols].
  destruct (dget pkey_dec P (PNum p)) as [x |] eqn:EP, (dget pkey_dec PP (PNum p)) as [y |] eqn:EQ.
  - cbn [bind add_pol]. assert (M : memZ p allowed_pols = true) by (apply memZ_In, AL; left; reflexivity). rewrite M. cbn [require].
    destruct ((length x =? nfreq)%nat && (length y =? nfreq)%nat)%bool eqn:EL; cbn [require bind].
    + apply andb_prop in EL. destruct EL as [L1 L2]. apply Nat.eqb_eq in L1, L2.
      set (b1 := mkabeam (dset Z.eq_dec (aP b) p x) (dset Z.eq_dec (aPP b) p y)). destruct (IH NDs ALs b1) as [I1 I2]. split.
      * intros b' E. destruct (I1 b' E) as (A & B & C & D). split; [| split; [| split]].
        -- intros q. rewrite A. unfold b1; cbn [aP]. rewrite dget_dset. destruct (in_dec Z.eq_dec q ps) as [H | H], (in_dec Z.eq_dec q (p :: ps)) as [H' | H']; cbn in H'; try tauto;
             destruct (Z.eq_dec q p) as [-> | NE]; try tauto; try rewrite EP; try reflexivity. destruct H' as [-> | ?]; tauto.
        -- intros q. rewrite B. unfold b1; cbn [aPP]. rewrite dget_dset. destruct (in_dec Z.eq_dec q ps) as [H | H], (in_dec Z.eq_dec q (p :: ps)) as [H' | H']; cbn in H'; try tauto;
             destruct (Z.eq_dec q p) as [-> | NE]; try tauto; try rewrite EQ; try reflexivity. destruct H' as [-> | ?]; tauto.
        -- intros q [<- | Hq]; [rewrite EP, EQ; split; discriminate | apply C; assumption].
        -- intros q v [<- | Hq] H; [rewrite EP, EQ in H; destruct H as [H | H]; injection H as <-; assumption | apply (D q); assumption].
      * intros C D. apply I2; intros q; [intros Hq; apply C; right; assumption | intros v Hq; apply D; right; assumption].
    + split; [intros b' E; discriminate |]. intros C D. rewrite (D p x), (D p y), Nat.eqb_refl in EL; [discriminate | left; reflexivity | right; assumption | left; reflexivity | left; assumption].
  - split; [intros b' E; discriminate |]. intros C _. destruct (C p (or_introl eq_refl)) as [_ C']. rewrite (C' EQ) in EP. discriminate.
  - split; [intros b' E; discriminate |]. intros C _. destruct (C p (or_introl eq_refl)) as [C' _]. rewrite (C' EP) in EQ. discriminate.
  - destruct (IH NDs ALs b) as [I1 I2]. split.
    + intros b' E. destruct (I1 b' E) as (A & B & C & D). split; [| split; [| split]].
      * intros q. rewrite A. destruct (in_dec Z.eq_dec q ps) as [H | H], (in_dec Z.eq_dec q (p :: ps)) as [H' | H']; cbn in H'; try tauto. destruct H' as [<- | ?]; [rewrite EP; reflexivity | tauto].
      * intros q. rewrite B. destruct (in_dec Z.eq_dec q ps) as [H | H], (in_dec Z.eq_dec q (p :: ps)) as [H' | H']; cbn in H'; try tauto. destruct H' as [<- | ?]; [rewrite EQ; reflexivity | tauto].
      * intros q [<- | Hq]; [rewrite EP, EQ; tauto | apply C; assumption].
      * intros q v [<- | Hq] H; [rewrite EP, EQ in H; destruct H; discriminate | apply (D q); assumption].
    + intros C D. apply I2; intros q; [intros Hq; apply C; right; assumption | intros v Hq; apply D; right; assumption].
Qed.
Lemma allowed_NoDup : NoDup allowed_pols.
Proof. unfold allowed_pols. repeat constructor; cbn; intuition discriminate. Qed.

Lemma fixed_None d d' z : fixed d d' -> (dget pkey_dec d' (PNum z) = None <-> ~ exists k v, In (k, v) d /\ denotes k z).
Proof.
  intros F. split.
  - intros N (k & v & H & D). assert (X : dget pkey_dec d' (PNum z) = Some v) by (apply F; eauto). congruence.
  - intros N. destruct (dget pkey_dec d' (PNum z)) as [v |] eqn:E; [| reflexivity]. exfalso. apply N. apply F in E. destruct E as (k & H & D). eauto.
Qed.
Lemma new_abeam_inv P PP b P' PP' :
  distinct_keys P -> distinct_keys PP -> new_abeam polstr2num nfreq P PP = Ok (b, P', PP') ->
  fixed P P' /\ fixed PP PP' /\ add_pols polstr2num nfreq allowed_pols P' PP' (mkabeam [] []) = Ok b /\
  (forall k, In k (map fst P) \/ In k (map fst PP) -> exists z, denotes k z /\ In z allowed_pols).
Proof.
  intros D1 D2 H. unfold new_abeam in H. apply bind_ok in H. destruct H as (A & HA & H). apply bind_ok in H. destruct H as (B & HB & H).
  apply bind_ok in H. destruct H as (b0 & Hb & H). injection H as -> -> ->.
  destruct (fix_keys_spec (map fst P) P D1 (proj1 D1) (fun x h => h) (fun s h => h)) as [I1 _]. destruct (fix_keys_spec (map fst PP) PP D2 (proj1 D2) (fun x h => h) (fun s h => h)) as [J1 _].
  destruct (I1 _ HA) as [F1 A1]. destruct (J1 _ HB) as [F2 A2]. repeat split; try assumption; try (apply F1); try (apply F2). intros k [Hk | Hk]; [apply A1 | apply A2]; assumption.
Qed.
(** The beam returns, for a polarization named by integer or by string, exactly the array given for it. *)
Theorem from_array_lookup :
  forall P PP b P' PP', distinct_keys P -> distinct_keys PP -> new_abeam polstr2num nfreq P PP = Ok (b, P', PP') ->
    forall k k' z v, denotes k z -> denotes k' z ->
      (In (k, v) P -> power_beam_int polstr2num b k' = Ok v) /\ (In (k, v) PP -> power_beam_sq_int polstr2num b k' = Ok v).
Proof.
  intros P PP b P' PP' D1 D2 H k k' z v Dk Dk'. destruct (new_abeam_inv _ _ _ _ _ D1 D2 H) as (F1 & F2 & Hb & AL).
  destruct (add_pols_spec allowed_pols P' PP' allowed_NoDup (fun p h => h) (mkabeam [] [])) as [S _]. destruct (S _ Hb) as (A & B & _ & _).
  assert (INZ : forall kk, In kk (map fst P) \/ In kk (map fst PP) -> denotes kk z -> In z allowed_pols).
  { intros kk Hk D. destruct (AL kk Hk) as (z' & D' & Hz). rewrite (denotes_fun _ _ _ D D'). assumption. }
  unfold denotes in Dk'. split; intros HIn; unfold power_beam_int, power_beam_sq_int, beam_get; rewrite Dk'; cbn [bind];
    [rewrite A | rewrite B]; destruct (in_dec Z.eq_dec z allowed_pols) as [_ | N].
  - rewrite (proj2 (F1 z v)); [reflexivity | eauto].
  - exfalso. apply N, (INZ k); [left; apply (in_fst _ v) |]; assumption.
  - rewrite (proj2 (F2 z v)); [reflexivity | eauto].
  - exfalso. apply N, (INZ k); [right; apply (in_fst _ v) |]; assumption.
Qed.
(** A polarization for which nothing was given is a KeyError. *)
Theorem from_array_missing :
  forall P PP b P' PP', distinct_keys P -> distinct_keys PP -> new_abeam polstr2num nfreq P PP = Ok (b, P', PP') ->
    forall k, (forall k' v z, In (k', v) P -> denotes k z -> ~ denotes k' z) -> power_beam_int polstr2num b k = Err KeyError.
Proof.
  intros P PP b P' PP' D1 D2 H k N. destruct (new_abeam_inv _ _ _ _ _ D1 D2 H) as (F1 & F2 & Hb & AL).
  destruct (add_pols_spec allowed_pols P' PP' allowed_NoDup (fun p h => h) (mkabeam [] [])) as [S _]. destruct (S _ Hb) as (A & _ & _ & _).
  unfold power_beam_int, beam_get. destruct (key_num k) as [z | e] eqn:E; cbn [bind].
  - rewrite A. destruct (in_dec Z.eq_dec z allowed_pols); [| reflexivity]. rewrite (proj2 (fixed_None P P' z F1)); [reflexivity |].
    intros (k' & v & Hin & Dk). exact (N k' v z Hin E Dk).
  - destruct k; cbn in E; [discriminate |]. destruct (polstr2num s); [discriminate |]. injection E as <-. reflexivity.
Qed.
(** What is accepted: known polarizations, the same ones in both dictionaries, arrays of the length of beam_freqs. *)
Theorem from_array_accepts :
  forall P PP, distinct_keys P -> distinct_keys PP ->
    ((exists r, new_abeam polstr2num nfreq P PP = Ok r) <->
     (forall k, In k (map fst P) \/ In k (map fst PP) -> exists z, denotes k z /\ In z allowed_pols) /\
     (forall z, (exists k v, In (k, v) P /\ denotes k z) <-> (exists k v, In (k, v) PP /\ denotes k z)) /\
     (forall k v, In (k, v) P \/ In (k, v) PP -> length v = nfreq)).
Proof.
  intros P PP D1 D2. split.
  - intros ([[b P'] PP'] & H). destruct (new_abeam_inv _ _ _ _ _ D1 D2 H) as (F1 & F2 & Hb & AL). split; [assumption |].
    destruct (add_pols_spec allowed_pols P' PP' allowed_NoDup (fun p h => h) (mkabeam [] [])) as [S _]. destruct (S _ Hb) as (_ & _ & C & L).
    assert (IA : forall k v z, In (k, v) P \/ In (k, v) PP -> denotes k z -> In z allowed_pols).
    { intros k v z Hk D. destruct (AL k) as (z' & D' & Hz); [destruct Hk as [Hk | Hk]; apply in_fst in Hk; auto |]. rewrite (denotes_fun _ _ _ D D'). assumption. }
    split.
    + intros z. split; intros (k & v & Hk & D); [pose proof (C z (IA k v z (or_introl Hk) D)) as C' | pose proof (C z (IA k v z (or_intror Hk) D)) as C'].
      * assert (X : dget pkey_dec P' (PNum z) = Some v) by (apply F1; eauto). destruct (dget pkey_dec PP' (PNum z)) as [v' |] eqn:Y; [| destruct C' as [_ C']; rewrite C' in X; [discriminate | reflexivity]].
        apply F2 in Y. destruct Y as (k' & ? & ?). eauto.
      * assert (X : dget pkey_dec PP' (PNum z) = Some v) by (apply F2; eauto). destruct (dget pkey_dec P' (PNum z)) as [v' |] eqn:Y; [| destruct C' as [C' _]; rewrite C' in X; [discriminate | reflexivity]].
        apply F1 in Y. destruct Y as (k' & ? & ?). eauto.
    + intros k v Hk. destruct (AL k) as (z & Dz & Hz); [destruct Hk as [Hk | Hk]; apply in_fst in Hk; auto |]. apply (L z v Hz). destruct Hk as [Hk | Hk]; [left; apply F1 | right; apply F2]; eauto.
  - intros (AL & SM & LN).
    destruct (fix_keys_spec (map fst P) P D1 (proj1 D1) (fun x h => h) (fun s h => h)) as [I1 I2]. destruct (fix_keys_spec (map fst PP) PP D2 (proj1 D2) (fun x h => h) (fun s h => h)) as [J1 J2].
    destruct I2 as [P' HP]; [intros; apply AL; auto |]. destruct J2 as [PP' HPP]; [intros; apply AL; auto |]. destruct (I1 _ HP) as [F1 _]. destruct (J1 _ HPP) as [F2 _].
    unfold new_abeam. rewrite HP. cbn [bind]. rewrite HPP. cbn [bind].
    destruct (add_pols_spec allowed_pols P' PP' allowed_NoDup (fun p h => h) (mkabeam [] [])) as [_ S]. destruct S as [b Hb].
    + intros p _. rewrite (fixed_None _ _ p F1), (fixed_None _ _ p F2), (SM p). tauto.
    + intros p v _ [G | G]; [apply F1 in G | apply F2 in G]; destruct G as (k & Hk & _); apply (LN k); auto.
    + rewrite Hb. cbn [bind]. eauto.
Qed.
(** The caller's dictionaries: unchanged when the keys are integers, rewritten when they are strings. *)
Theorem from_array_arguments_partial :
  forall P PP b P' PP', (forall k, In k (map fst P) \/ In k (map fst PP) -> exists z, k = PNum z) ->
    new_abeam polstr2num nfreq P PP = Ok (b, P', PP') -> P' = P /\ PP' = PP.
Proof.
  intros P PP b P' PP' HN H. unfold new_abeam in H. apply bind_ok in H. destruct H as (A & HA & H). apply bind_ok in H. destruct H as (B & HB & H).
  apply bind_ok in H. destruct H as (b0 & _ & H). injection H as -> -> ->.
  assert (G : forall ks d d', (forall k, In k ks -> exists z, k = PNum z) -> fix_keys polstr2num ks d = Ok d' -> d' = d).
  { induction ks as [| k ks IH]; intros d d' Hk E; [injection E; auto |]. destruct (Hk k (or_introl eq_refl)) as [z ->]. cbn [fix_keys bind fst snd] in E.
    apply require_ok in E. destruct E as [_ E]. apply (IH d d'); [intros k' Hk'; apply Hk; right; assumption | assumption]. }
  split; [apply (G (map fst P)) | apply (G (map fst PP))]; auto.
Qed.
End FA.
Theorem from_array_arguments_refuted :
  exists ps2n P PP b P' PP', distinct_keys ps2n P /\ distinct_keys ps2n PP /\ new_abeam ps2n 1 P PP = Ok (b, P', PP') /\ P' <> P.
Proof.
  exists (fun s => if string_dec s "pI" then Some 1%Z else None), [(PStr "pI", [1])], [(PStr "pI", [1])]. do 3 eexists.
  split; [| split; [| split; [reflexivity | discriminate]]]; (split; [repeat constructor; intros [] | intros k k' z [<- | []] [<- | []] _ _; reflexivity]).
Qed.

(** ** Jy to mK *)
(** what one conversion does to the samples of an object *)
Definition converted (factor : Z -> nat -> R) (o o' : dobj) : Prop :=
  dpols o' = dpols o /\
  match dunit o with
  | UJy => dunit o' = UmK /\ forall r f j p, nth_error (dpols o) j = Some p -> ddata o' r f j = ddata o r f j * factor p f
  | _ => o' = o
  end.
Lemma convert_twice factor o : convert factor (convert factor o) = convert factor o.
Proof. unfold convert at 1. destruct (dunit o) eqn:E; unfold convert; rewrite E; cbn; try rewrite E; reflexivity. Qed.
Lemma convert_converted factor o : converted factor o (convert factor o).
Proof.
  unfold converted, convert. destruct (dunit o) eqn:E; cbn; auto. split; [reflexivity |]. split; [reflexivity |]. intros r f j p H. rewrite H. reflexivity.
Qed.
Lemma convert_all_spec factor l : forall s a, convert_all factor l s a = if in_dec Nat.eq_dec a l then convert factor (s a) else s a.
Proof.
  induction l as [| b l IH]; intros s a; [reflexivity |]. cbn [convert_all]. rewrite IH. unfold upd. destruct (Nat.eqb_spec a b) as [-> | NE].
  - destruct (in_dec Nat.eq_dec b l), (in_dec Nat.eq_dec b (b :: l)) as [H | H]; try (rewrite convert_twice; reflexivity); try reflexivity; exfalso; apply H; left; reflexivity.
  - destruct (in_dec Nat.eq_dec a l) as [H | H], (in_dec Nat.eq_dec a (b :: l)) as [H' | H']; try reflexivity; cbn in H'; intuition congruence.
Qed.
(** Every object in the list is converted exactly once, even if the list holds it several times; nothing else changes. *)
Theorem Jy_to_mK_once :
  forall factor g dsets s s', Jy_to_mK factor g dsets s = Ok s' ->
    (forall a, In a dsets -> converted factor (s a) (s' a)) /\ (forall a, ~ In a dsets -> s' a = s a).
Proof.
  intros factor g dsets s s' H. unfold Jy_to_mK in H. apply require_ok in H. destruct H as [_ H]. apply require_ok in H. destruct H as [_ H]. injection H as <-.
  split; intros a Ha; rewrite convert_all_spec; destruct (in_dec Nat.eq_dec a dsets); try contradiction; [apply convert_converted | reflexivity].
Qed.
Theorem Jy_to_mK_idempotent :
  forall factor g dsets s s' s'', Jy_to_mK factor g dsets s = Ok s' -> Jy_to_mK factor g dsets s' = Ok s'' -> forall a, s'' a = s' a.
Proof.
  intros factor g dsets s s' s'' H H' a. unfold Jy_to_mK in *. apply require_ok in H. destruct H as [_ H]. apply require_ok in H. destruct H as [_ H].
  apply require_ok in H'. destruct H' as [_ H']. apply require_ok in H'. destruct H' as [_ H']. injection H as <-. injection H' as <-.
  rewrite ! convert_all_spec. destruct (in_dec Nat.eq_dec a dsets); [apply convert_twice | reflexivity].
Qed.
(** with datasets of one polarization count, a beam is all that is needed; otherwise the call fails *)
Theorem Jy_to_mK_partial :
  forall factor dsets s n, (forall a, In a dsets -> length (dpols (s a)) = n) -> exists s', Jy_to_mK factor true dsets s = Ok s'.
Proof.
  intros factor dsets s n H. unfold Jy_to_mK. assert (E : same_npol s dsets = true).
  { unfold same_npol. destruct dsets as [| a l]; [reflexivity |]. apply forallb_forall. intros b Hb. apply Nat.eqb_eq. rewrite (H a), (H b); cbn; auto. }
  rewrite E. cbn. eauto.
Qed.
Theorem Jy_to_mK_ragged_refuted :
  exists factor dsets s, (forall a, In a dsets -> dpols (s a) <> []) /\ Jy_to_mK factor true dsets s = Err ValueError.
Proof.
  exists (fun _ _ => 1), [0; 1]%nat, (fun a => mkdobj UJy (match a with O => [-5]%Z | _ => [-5; -6]%Z end) (fun _ _ _ => 1)).
  split; [| reflexivity]. intros a [<- | [<- | []]]; discriminate.
Qed.
(** the conversion factor: a visibility of the flux of a beam-filling brightness T comes out as T.  In CGS, flux (Jy) =
    2 kb nu^2 / c^2 * T (K) * area * 10^23 *)
Theorem jy_factor_rayleigh_jeans :
  forall c kb area f T, 0 < c -> 0 < kb -> 0 < area -> 0 < f ->
    let flux_Jy := 2 * kb * f ^ 2 / c ^ 2 * T * area * 10 ^ 23 in flux_Jy * jy_factor c kb area f = 1000 * T.
Proof. intros. unfold flux_Jy, jy_factor. field. repeat split; lra. Qed.

(** ** Sensitivity: one cosmology *)
Theorem sensitivity_set_beam_cosmology :
  forall b s bs s' bs', set_beam b s bs = Ok (s', bs') ->
    sbeam s' = Some b /\ bs' b = scosmo s' /\ (forall c, scosmo s = Some c -> scosmo s' = Some c) /\ (forall x, x <> b -> bs' x = bs x) /\
    exists c, scosmo s' = Some c /\ calc_scalar_cosmo s' bs' = Ok c.
Proof.
  intros b s bs s' bs' H. unfold set_beam in H. destruct (scosmo s) as [c |] eqn:E.
  - injection H as <- <-. cbn. rewrite Nat.eqb_refl. repeat split; auto.
    + intros x NE. apply Nat.eqb_neq in NE. rewrite NE. reflexivity.
    + exists c. unfold calc_scalar_cosmo. cbn. try rewrite Nat.eqb_refl. auto.
  - destruct (bs b) as [c |] eqn:Eb; [| discriminate]. injection H as <- <-. cbn. rewrite Eb. repeat split; auto; [discriminate |].
    exists c. unfold calc_scalar_cosmo. cbn. try rewrite Eb. auto.
Qed.
(** set_cosmology replaces the cosmology and the recorded parameters *)
Theorem sensitivity_params :
  forall c s, scosmo (set_cosmology c s) = Some c /\ sparams (set_cosmology c s) = Some c /\ sbeam (set_cosmology c s) = sbeam s.
Proof. intros; repeat split. Qed.
(** a cosmology taken from the beam is not recorded in cosmo_params *)
Theorem sensitivity_params_refuted :
  exists b bs s bs' c, set_beam b (mksens None None None) bs = Ok (s, bs') /\ scosmo s = Some c /\ sparams s <> Some c.
Proof. exists 0%nat, (fun _ => Some 7%nat). do 2 eexists. exists 7%nat. repeat split. cbn. discriminate. Qed.
Theorem sensitivity_new_cosmology_refuted :
  exists b bs s bs' c c', set_beam b (set_cosmology c (mksens None None None)) bs = Ok (s, bs') /\ c <> c' /\
    scosmo (set_cosmology c' s) = Some c' /\ calc_scalar_cosmo (set_cosmology c' s) bs' = Ok c.
Proof. exists 0%nat, (fun _ => Some 7%nat). do 2 eexists. exists 1%nat, 2%nat. repeat split; discriminate. Qed.
(** attaching a beam changes that beam's cosmology for its other users *)
Theorem sensitivity_beam_argument_refuted :
  exists b c s bs s' bs', set_beam b (set_cosmology c s) bs = Ok (s', bs') /\ bs' b <> bs b.
Proof. exists 0%nat, 1%nat, (mksens None None None), (fun _ => Some 7%nat). do 2 eexists. split; [reflexivity |]. cbn. discriminate. Qed.

(** concrete cases of the hypotheses *)
Example from_array_example :
  exists b P' PP', new_abeam (fun s => if string_dec s "pI" then Some 1%Z else None) 2
     [(PStr "pI", [1; 2]); (PNum (-5), [3; 4])] [(PNum (-5), [5; 6]); (PNum 1, [7; 8])] = Ok (b, P', PP') /\
   power_beam_int (fun s => if string_dec s "pI" then Some 1%Z else None) b (PNum 1) = Ok [1; 2].
Proof. do 3 eexists. split; reflexivity. Qed.
Print Assumptions scalar_little_h. Print Assumptions gaussian_beam_areas. Print Assumptions from_array_lookup. Print Assumptions from_array_accepts. Print Assumptions Jy_to_mK_once. Print Assumptions scalar_positive. Print Assumptions taper_override_refuted. Print Assumptions noise_scalars_agree_refuted.
