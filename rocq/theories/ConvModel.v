(** Model of conversions.py: redshift / frequency and cosmological distance conversions (exact real arithmetic;
    scipy.integrate.quad is the Riemann integral it approximates). *)
From Coq Require Import Reals Bool Lra.
From Coquelicot Require Import Coquelicot.
Open Scope R_scope.

(** conversions.py:34-44 *)
Definition u_c : R := 299792458.
(** the class units of conversions.py (the constants c and f21 used at conversions.py:138-309) *)
Definition u_ckm : R := u_c / 1000.
(** the class units of conversions.py (the constants c and f21 used at conversions.py:138-309) *)
Definition u_f21 : R := 1420405751.

(** the six entries of self.params, conversions.py:113-121; self.h = H0 / 100 *)
Record cosmo := mkcosmo { Om_L : R; Om_b : R; Om_c : R; Om_M : R; Om_k : R; H0 : R }.
(** conversions.py:73-130 [__init__] *)
Definition hh (co : cosmo) : R := H0 co / 100.

(** [x is False] for a numpy boolean x: an identity test against the Python constant, never satisfied by the
    numpy object np.isclose returns (conversions.py:104). *)
Definition np_is_False (x : bool) : bool := false.
(** conversions.py:102-121 Cosmo_Conversions.__init__.  np.isclose(a, b, atol=1e-5) has rtol 1e-5 as well. *)
Definition isclose (a b : R) : bool := if Rle_dec (Rabs (a - b)) (1 / 100000 + 1 / 100000 * Rabs b) then true else false.
(** conversions.py:73-130 [__init__] *)
Definition new_cosmo (oL ob oc h0 : R) (oM ok : option R) : cosmo :=
  let '(ob, oc, m) :=
    match oM with
    | Some m => if np_is_False (isclose (ob + oc) m) then (m * (156635 / 1000000), m * (843364 / 1000000), m) else (ob, oc, m)
    | None => (ob, oc, ob + oc)
    end in
  let k := match ok with Some k => k | None => 1 - oL - m end in
  mkcosmo oL ob oc m k h0.
(** the defaults of the signature, conversions.py:72-80 *)
Definition planck15 : cosmo := new_cosmo (68440 / 100000) (4911 / 100000) (26442 / 100000) (6727 / 100) None None.
(** conversions.py:126-130 get_params, and Cosmo_Conversions( **params ) *)
Definition from_params (p : cosmo) : cosmo := new_cosmo (Om_L p) (Om_b p) (Om_c p) (H0 p) (Some (Om_M p)) (Some (Om_k p)).

(** conversions.py:132-152 *)
Definition f2z (ghz : bool) (freq : R) : R := u_f21 / (if ghz then freq * 1000000000 else freq) - 1.
(** conversions.py:154-175 *)
Definition z2f (ghz : bool) (z : R) : R := let freq := u_f21 / (z + 1) in if ghz then freq / 1000000000 else freq.

Section WithCosmo.
Variable co : cosmo.
(** conversions.py:177-187 *)
Definition E2 (z : R) : R := Om_M co * (1 + z) ^ 3 + Om_k co * (1 + z) ^ 2 + Om_L co.
(** conversions.py:183-193 [E] *)
Definition Ez (z : R) : R := sqrt (E2 z).
(** Hubble distance, in the unit chosen by little_h; conversions.py:195-213 [DC] (little_h) *)
Definition hub (little_h : bool) : R := if little_h then 100 else H0 co.
(** conversions.py:189-207 *)
Definition DC (little_h : bool) (z : R) : R := RInt (fun z => 1 / Ez z) 0 z * u_ckm / hub little_h.
(** conversions.py:209-246 *)
Definition DM (little_h : bool) (z : R) : R :=
  let DH := u_ckm / hub little_h in
  if Rlt_dec 0 (Om_k co) then DH * sinh (sqrt (Om_k co) * DC little_h z / DH) / sqrt (Om_k co)
  else if Rlt_dec (Om_k co) 0 then DH * sin (sqrt (Rabs (Om_k co)) * DC little_h z / DH) / sqrt (Rabs (Om_k co))
  else DC little_h z.
(** conversions.py:248-262 *)
Definition DA (little_h : bool) (z : R) : R := DM little_h z / (1 + z).
(** conversions.py:264-278 *)
Definition dRperp_dtheta (little_h : bool) (z : R) : R := DM little_h z.
(** conversions.py:280-303 *)
Definition dRpara_df (ghz little_h : bool) (z : R) : R :=
  let y := (1 + z) ^ 2 / Ez z * u_ckm / hub little_h / u_f21 in if ghz then y * 1000000000 else y.
(** conversions.py:305-324 *)
Definition X2Y (little_h : bool) (z : R) : R := dRperp_dtheta little_h z ^ 2 * dRpara_df false little_h z.
(** conversions.py:326-355 *)
Definition bl_to_kperp (little_h : bool) (z : R) : R := 2 * PI / (dRperp_dtheta little_h z * (u_c / z2f false z)).
(** conversions.py:357-384 *)
Definition tau_to_kpara (little_h : bool) (z : R) : R := 2 * PI / dRpara_df false little_h z.
End WithCosmo.
