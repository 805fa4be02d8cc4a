(** C42, C74: redshift/frequency conversions and cosmological distances. *)
From Coq Require Import Reals Bool Lra.
From Coquelicot Require Import Coquelicot.
From Verif Require Import ConvModel.
Open Scope R_scope.

Lemma f21_pos : 0 < u_f21. Proof. unfold u_f21. lra. Qed.
Lemma ckm_pos : 0 < u_ckm. Proof. unfold u_ckm, u_c. lra. Qed.

(** ** redshift and frequency *)
Theorem z2f_f2z : forall ghz f, 0 < f -> z2f ghz (f2z ghz f) = f /\ -1 < f2z ghz f.
Proof.
  intros ghz f H. pose proof f21_pos as F. split.
  - unfold z2f, f2z. destruct ghz; field; lra.
  - unfold f2z. assert (0 < u_f21 / (if ghz then f * 1000000000 else f)); [| lra]. apply Rdiv_lt_0_compat; [assumption |]. destruct ghz; lra.
Qed.
Theorem f2z_z2f : forall ghz z, -1 < z -> f2z ghz (z2f ghz z) = z /\ 0 < z2f ghz z.
Proof.
  intros ghz z H. pose proof f21_pos as F. split.
  - unfold z2f, f2z. destruct ghz; field; lra.
  - unfold z2f. assert (0 < u_f21 / (z + 1)) by (apply Rdiv_lt_0_compat; lra). destruct ghz; lra.
Qed.
Theorem f2z_decreasing : forall ghz f f', 0 < f -> f < f' -> f2z ghz f' < f2z ghz f.
Proof.
  intros ghz f f' H H'. pose proof f21_pos as F. unfold f2z. apply Rplus_lt_compat_r. unfold Rdiv. apply Rmult_lt_compat_l; [assumption |].
  apply Rinv_lt_contravar; destruct ghz; try lra; apply Rmult_lt_0_compat; lra.
Qed.
Theorem z2f_decreasing : forall ghz z z', -1 < z -> z < z' -> z2f ghz z' < z2f ghz z.
Proof.
  intros ghz z z' H H'. pose proof f21_pos as F.
  assert (L : u_f21 / (z' + 1) < u_f21 / (z + 1)).
  { unfold Rdiv. apply Rmult_lt_compat_l; [assumption |]. apply Rinv_lt_contravar; [apply Rmult_lt_0_compat |]; lra. }
  unfold z2f. destruct ghz; [unfold Rdiv in *; apply Rmult_lt_compat_r |]; lra.
Qed.
(** the 21cm line is seen at its rest frequency for z = 0 *)
Theorem z2f_zero : z2f false 0 = 1420405751. Proof. unfold z2f, u_f21. field. Qed.

(** ** units with and without h *)
Section H.
Variable co : cosmo.
Hypothesis HH : 0 < H0 co.
Let h := hh co.
Lemma h_pos : 0 < h. Proof. unfold h, hh. lra. Qed.

Theorem DC_little_h : forall z, DC co true z = h * DC co false z.
Proof. intros. unfold DC, hub, h, hh. field. lra. Qed.
Theorem DM_little_h : forall z, DM co true z = h * DM co false z.
Proof.
  intros z. pose proof ckm_pos as CP. unfold DM. rewrite DC_little_h.
  assert (A : forall s, s * (h * DC co false z) / (u_ckm / hub co true) = s * DC co false z / (u_ckm / hub co false)).
  { intros s. unfold hub, h, hh. field. lra. }
  destruct (Rlt_dec 0 (Om_k co)) as [P | P]; [| destruct (Rlt_dec (Om_k co) 0) as [N | N]]; [| | reflexivity]; rewrite A.
  - assert (sqrt (Om_k co) <> 0) by (apply Rgt_not_eq, sqrt_lt_R0, P). unfold hub, h, hh. field. lra.
  - assert (sqrt (Rabs (Om_k co)) <> 0) by (apply Rgt_not_eq, sqrt_lt_R0, Rabs_pos_lt; lra). unfold hub, h, hh. field. lra.
Qed.
Theorem DA_little_h : forall z, DA co true z = h * DA co false z.
Proof. intros z. unfold DA. rewrite DM_little_h. unfold Rdiv. ring. Qed.
(** the transverse comoving distance is the angular diameter distance stretched by 1 + z *)
Theorem DM_of_DA : forall little_h z, -1 < z -> DM co little_h z = (1 + z) * DA co little_h z.
Proof. intros l z H. unfold DA. field. lra. Qed.
Theorem dRpara_little_h : forall ghz z, dRpara_df co ghz true z = h * dRpara_df co ghz false z.
Proof.
  intros ghz z. unfold dRpara_df, hub, h, hh. pose proof f21_pos. unfold Rdiv. generalize (/ Ez co z). intros e. destruct ghz; field; lra.
Qed.
Theorem X2Y_little_h : forall z, X2Y co true z = h ^ 3 * X2Y co false z.
Proof. intros z. unfold X2Y, dRperp_dtheta. rewrite DM_little_h, dRpara_little_h. ring. Qed.
Lemma div_scale (a b k : R) : k <> 0 -> a / b = k * (a / (k * b)).
Proof.
  intros K. unfold Rdiv. destruct (Req_dec b 0) as [-> | B]; [| field; split; assumption].
  rewrite Rmult_0_r, Rinv_0. ring.
Qed.
(** wavenumbers are in h/Mpc, so they scale the other way *)
Theorem kperp_little_h : forall z, bl_to_kperp co false z = h * bl_to_kperp co true z.
Proof.
  intros z. unfold bl_to_kperp, dRperp_dtheta. rewrite DM_little_h, Rmult_assoc. apply div_scale. apply Rgt_not_eq, h_pos.
Qed.
Theorem kpara_little_h : forall z, tau_to_kpara co false z = h * tau_to_kpara co true z.
Proof. intros z. unfold tau_to_kpara. rewrite dRpara_little_h. apply div_scale. apply Rgt_not_eq, h_pos. Qed.
End H.

(** ** distances *)
(** E(z)^2 stays positive: the expansion never stops. *)
Definition expanding (co : cosmo) : Prop := forall z, 0 <= z -> 0 < E2 co z.
Lemma expanding_if co : 0 < Om_M co -> 0 <= Om_k co -> 0 <= Om_L co -> expanding co.
Proof.
  intros M K L z Hz. unfold E2. assert (0 < Om_M co * (1 + z) ^ 3) by (apply Rmult_lt_0_compat; [assumption | apply pow_lt; lra]).
  assert (0 <= Om_k co * (1 + z) ^ 2) by (apply Rmult_le_pos; [assumption | apply pow_le; lra]). lra.
Qed.
Section D.
Variable co : cosmo.
Hypothesis HH : 0 < H0 co.
Hypothesis HE : expanding co.
Lemma hub_pos lh : 0 < hub co lh. Proof. destruct lh; cbn; lra. Qed.
Lemma E_pos z : 0 <= z -> 0 < Ez co z. Proof. intros. apply sqrt_lt_R0, HE. assumption. Qed.
Lemma E_cont z : 0 <= z -> continuous (fun z => 1 / Ez co z) z.
Proof.
  intros Hz. apply (ex_derive_continuous (K := R_AbsRing) (V := R_NormedModule)). unfold Ez, E2. pose proof (HE z Hz) as P. pose proof (E_pos z Hz) as Q. unfold Ez, E2 in *.
  auto_derive. split; [exact P |]. split; [apply Rgt_not_eq; exact Q | exact I].
Qed.
Lemma E_int a b : 0 <= a -> 0 <= b -> ex_RInt (fun z => 1 / Ez co z) a b.
Proof. intros Ha Hb. apply (ex_RInt_continuous (V := R_CompleteNormedModule)). intros z Hz. apply E_cont. pose proof (Rmin_glb a b 0 Ha Hb). lra. Qed.

Theorem DC_zero : forall lh, DC co lh 0 = 0.
Proof. intros. unfold DC. rewrite RInt_point. unfold zero; cbn. unfold Rdiv. ring. Qed.
(** the conversion from redshift to distance is the integral of c / H(z): its derivative *)
Theorem DC_derivative : forall lh z, 0 < z -> is_derive (DC co lh) z (299792458 / 1000 / (if lh then 100 else H0 co) / sqrt (Om_M co * (1 + z) ^ 3 + Om_k co * (1 + z) ^ 2 + Om_L co)).
Proof.
  intros lh z Hz. change (is_derive (DC co lh) z (u_ckm / hub co lh / Ez co z)). assert (D : is_derive (fun b => RInt (fun z => 1 / Ez co z) 0 b) z (1 / Ez co z)).
  { apply (is_derive_RInt (fun z => 1 / Ez co z) (fun b => RInt (fun z => 1 / Ez co z) 0 b) 0).
    - exists (mkposreal z Hz). intros b Hb. apply (RInt_correct (V := R_CompleteNormedModule)), E_int; [lra |].
      unfold ball in Hb; cbn in Hb. unfold AbsRing_ball, abs, minus, plus, opp in Hb; cbn in Hb. apply Rabs_def2 in Hb. lra.
    - apply E_cont. lra. }
  apply is_derive_ext with (fun t => scal (u_ckm / hub co lh) (RInt (fun z => 1 / Ez co z) 0 t)).
  { intros t. unfold DC, scal; cbn. unfold mult; cbn. unfold Rdiv. ring. }
  replace (u_ckm / hub co lh / Ez co z) with (scal (u_ckm / hub co lh) (1 / Ez co z)) by (unfold scal; cbn; unfold mult; cbn; unfold Rdiv; ring).
  apply is_derive_scal. assumption.
Qed.
(** dRpara_df is the radial distance per unit observed frequency at redshift z *)
Theorem dRpara_is_derivative :
  forall ghz lh z, 0 < z -> is_derive (fun f => DC co lh (f2z ghz f)) (z2f ghz z) (- dRpara_df co ghz lh z).
Proof.
  intros ghz lh z Hz. destruct (f2z_z2f ghz z ltac:(lra)) as [E P]. pose proof f21_pos as F. pose proof (E_pos z ltac:(lra)) as EP. pose proof (hub_pos lh).
  set (k := if ghz then 1000000000 else 1).
  assert (Dz : is_derive (f2z ghz) (z2f ghz z) (- (1 + z) ^ 2 * k / u_f21)).
  { assert (K : forall f, f2z ghz f = u_f21 / (f * k) - 1) by (intros; unfold f2z, k; destruct ghz; [reflexivity | rewrite Rmult_1_r; reflexivity]).
    apply is_derive_ext with (fun f => u_f21 / (f * k) - 1); [intros; symmetry; apply K |].
    assert (KP : 0 < k) by (unfold k; destruct ghz; lra).
    assert (Z : z2f ghz z = u_f21 / (z + 1) / k) by (unfold z2f, k; destruct ghz; field; lra). rewrite Z in P |- *.
    auto_derive; [|]. { apply Rgt_not_eq, Rmult_lt_0_compat; assumption. } field. lra. }
  replace (- dRpara_df co ghz lh z) with (scal (- (1 + z) ^ 2 * k / u_f21) (u_ckm / hub co lh / Ez co z)).
  - apply (is_derive_comp (DC co lh) (f2z ghz)); [rewrite E; exact (DC_derivative lh z ltac:(assumption)) | assumption].
  - unfold scal; cbn. unfold mult; cbn. unfold dRpara_df, k. destruct ghz; field; lra.
Qed.
Theorem DC_increasing : forall lh z z', 0 <= z -> z < z' -> DC co lh z < DC co lh z'.
Proof.
  intros lh z z' Hz Hl. unfold DC. assert (S : RInt (fun z => 1 / Ez co z) 0 z' = RInt (fun z => 1 / Ez co z) 0 z + RInt (fun z => 1 / Ez co z) z z').
  { symmetry. apply (RInt_Chasles (V := R_CompleteNormedModule)); apply E_int; lra. }
  assert (G : 0 < RInt (fun z => 1 / Ez co z) z z').
  { apply RInt_gt_0; [assumption | |]; intros x Hx; [apply Rdiv_lt_0_compat; [lra | apply E_pos; lra] | apply E_cont; lra]. }
  unfold Rdiv. apply Rmult_lt_compat_r; [apply Rinv_0_lt_compat, hub_pos |]. apply Rmult_lt_compat_r; [apply ckm_pos |]. unfold Rdiv in S, G. rewrite S. lra.
Qed.
Lemma DC_pos lh z : 0 < z -> 0 < DC co lh z.
Proof. intros. rewrite <- (DC_zero lh). apply DC_increasing; lra. Qed.

(** *** curvature *)
Theorem DM_flat : Om_k co = 0 -> forall lh z, DM co lh z = DC co lh z.
Proof. intros K lh z. unfold DM. destruct (Rlt_dec 0 (Om_k co)); [lra |]. destruct (Rlt_dec (Om_k co) 0); [lra | reflexivity]. Qed.
Lemma sinh_gt x : 0 < x -> x < sinh x.
Proof.
  intros Hx. destruct (MVT_cor2 sinh cosh 0 x Hx) as (c & Hc & Hcx). { intros; apply derivable_pt_lim_sinh. }
  rewrite sinh_0 in Hc. assert (1 < cosh c); [| nra].
  unfold cosh. rewrite exp_Ropp. pose proof (exp_ineq1 c ltac:(lra)) as G. set (e := exp c) in *.
  assert (0 < (e - 1) * (e - 1) / e) by (apply Rdiv_lt_0_compat; nra).
  replace ((e + / e) / 2) with (1 + (e - 1) * (e - 1) / e / 2) by (field; lra). lra.
Qed.
Lemma sin_lt_x' x : 0 < x -> sin x < x.
Proof.
  intros Hx. destruct (Rle_lt_dec x 1) as [L | L]; [| pose proof (SIN_bound x); lra].
  destruct (MVT_cor2 sin cos 0 x Hx) as (c & Hc & Hcx). { intros; apply derivable_pt_lim_sin. }
  rewrite sin_0 in Hc. assert (cos c < 1); [| nra]. rewrite <- cos_0. apply cos_decreasing_1; try lra; pose proof PI2_1; lra.
Qed.
(** an open universe makes transverse distances larger than radial ones, a closed one smaller *)
Theorem DM_open : 0 < Om_k co -> forall lh z, 0 < z -> DC co lh z < DM co lh z.
Proof.
  intros K lh z Hz. unfold DM. destruct (Rlt_dec 0 (Om_k co)); [| contradiction]. set (d := DC co lh z). assert (P : 0 < d) by (apply DC_pos; assumption).
  pose proof (sqrt_lt_R0 _ K) as S. pose proof (Rdiv_lt_0_compat _ _ ckm_pos (hub_pos lh)) as DHp. set (DH := u_ckm / hub co lh) in *. set (s := sqrt (Om_k co)) in *.
  assert (X : 0 < s * d / DH) by (apply Rdiv_lt_0_compat; [apply Rmult_lt_0_compat |]; assumption).
  replace d with (DH * (s * d / DH) / s) at 1 by (field; lra). unfold Rdiv at 1 3. apply Rmult_lt_compat_r; [apply Rinv_0_lt_compat; assumption |].
  apply Rmult_lt_compat_l; [assumption | apply sinh_gt; assumption].
Qed.
Theorem DM_closed : Om_k co < 0 -> forall lh z, 0 < z -> DM co lh z < DC co lh z.
Proof.
  intros K lh z Hz. unfold DM. destruct (Rlt_dec 0 (Om_k co)); [lra |]. destruct (Rlt_dec (Om_k co) 0); [| contradiction].
  set (d := DC co lh z). assert (P : 0 < d) by (apply DC_pos; assumption).
  assert (S : 0 < sqrt (Rabs (Om_k co))) by (apply sqrt_lt_R0, Rabs_pos_lt; lra).
  pose proof (Rdiv_lt_0_compat _ _ ckm_pos (hub_pos lh)) as DHp. set (DH := u_ckm / hub co lh) in *. set (s := sqrt (Rabs (Om_k co))) in *.
  assert (X : 0 < s * d / DH) by (apply Rdiv_lt_0_compat; [apply Rmult_lt_0_compat |]; assumption).
  replace d with (DH * (s * d / DH) / s) at 2 by (field; lra). unfold Rdiv at 1 3. apply Rmult_lt_compat_r; [apply Rinv_0_lt_compat; assumption |].
  apply Rmult_lt_compat_l; [assumption | apply sin_lt_x'; assumption].
Qed.
(** the volume element and the wavenumber factors are positive *)
Theorem X2Y_positive : 0 <= Om_k co -> forall lh z, 0 < z ->
  0 < X2Y co lh z /\ 0 < bl_to_kperp co lh z /\ 0 < tau_to_kpara co lh z.
Proof.
  intros K lh z Hz. assert (M : 0 < DM co lh z).
  { pose proof (DC_pos lh z Hz). destruct (Req_dec (Om_k co) 0) as [Z | Z]; [rewrite DM_flat; assumption | pose proof (DM_open ltac:(lra) lh z Hz); lra]. }
  assert (Y : 0 < dRpara_df co false lh z).
  { unfold dRpara_df. repeat apply Rdiv_lt_0_compat; try apply f21_pos; try apply hub_pos. apply Rmult_lt_0_compat; [| apply ckm_pos].
    apply Rdiv_lt_0_compat; [apply pow_lt; lra | apply E_pos; lra]. }
  pose proof PI_RGT_0 as PP. repeat split.
  - apply Rmult_lt_0_compat; [apply pow_lt |]; assumption.
  - apply Rdiv_lt_0_compat; [lra |]. apply Rmult_lt_0_compat; [assumption |]. apply Rdiv_lt_0_compat; [unfold u_c; lra | apply f2z_z2f; lra].
  - apply Rdiv_lt_0_compat; [lra | assumption].
Qed.
End D.

(** ** the constructor *)
Theorem default_curvature : forall oL ob oc h0 oM,
  let co := new_cosmo oL ob oc h0 oM None in Om_L co + Om_M co + Om_k co = 1 /\ Ez co 0 = 1.
Proof.
  intros. assert (S : Om_L co + Om_M co + Om_k co = 1) by (subst co; destruct oM; cbn; ring). split; [assumption |].
  clearbody co. unfold Ez, E2. replace (Om_M co * (1 + 0) ^ 3 + Om_k co * (1 + 0) ^ 2 + Om_L co) with 1; [apply sqrt_1 |].
  transitivity (Om_L co + Om_M co + Om_k co); [symmetry; assumption | ring].
Qed.
Theorem params_round_trip : forall co, from_params co = co.
Proof. intros []. reflexivity. Qed.
Theorem matter_sum : forall oL ob oc h0 ok, let co := new_cosmo oL ob oc h0 None ok in Om_b co + Om_c co = Om_M co.
Proof. reflexivity. Qed.
(** Baryons and dark matter are not rescaled to a given Om_M. *)
Theorem matter_split_partial : forall oL ob oc h0 oM ok, (forall m, oM = Some m -> m = ob + oc) ->
  let co := new_cosmo oL ob oc h0 oM ok in Om_b co + Om_c co = Om_M co.
Proof. intros. subst co. destruct oM as [m |]; cbn; [symmetry; apply H |]; reflexivity. Qed.
Theorem matter_split_refuted : exists co, co = new_cosmo (7 / 10) (5 / 100) (25 / 100) 70 (Some (2 / 10)) None /\
  ~ Rabs (Om_b co + Om_c co - Om_M co) <= 1 / 1000.
Proof. eexists. split; [reflexivity |]. cbn. rewrite Rabs_pos_eq; lra. Qed.

(** the default cosmology meets all the hypotheses above *)
(** the defaults: the parameters of Planck 2015, matter being the sum of baryons and dark matter, and curvature what is missing to one *)
Theorem default_cosmology : Om_L planck15 = 6844 / 10000 /\ Om_b planck15 = 4911 / 100000 /\ Om_c planck15 = 26442 / 100000 /\ H0 planck15 = 6727 / 100 /\
  Om_M planck15 = Om_b planck15 + Om_c planck15 /\ Om_L planck15 + Om_M planck15 + Om_k planck15 = 1.
Proof. cbn. repeat split; lra. Qed.
Print Assumptions default_cosmology.
Example planck15_hypotheses : 0 < H0 planck15 /\ 0 < Om_k planck15 /\ expanding planck15.
Proof. assert (0 < Om_k planck15) by (cbn; lra). split; [cbn; lra |]. split; [assumption |]. apply expanding_if; cbn in *; lra. Qed.

Print Assumptions z2f_f2z. Print Assumptions f2z_z2f. Print Assumptions f2z_decreasing. Print Assumptions z2f_decreasing.
Print Assumptions X2Y_little_h. Print Assumptions kperp_little_h. Print Assumptions kpara_little_h.
Print Assumptions DC_derivative. Print Assumptions dRpara_is_derivative. Print Assumptions DC_increasing.
Print Assumptions DM_open. Print Assumptions DM_closed. Print Assumptions X2Y_positive.
Print Assumptions default_curvature. Print Assumptions params_round_trip. Print Assumptions matter_split_partial. Print Assumptions matter_split_refuted.
