(** Model of the beam normalisation: pspecbeam._compute_pspec_scalar, the beam classes, PSpecData.scalar,
    PSpecData.Jy_to_mK and noise.Sensitivity (exact real arithmetic). *)
From Coq Require Import String.
From Coq Require Import Reals Lra.
From Verif Require Import Prelude PyDict ConvModel.
Open Scope R_scope.

(** np.linspace(a, b, n, endpoint=True) for n >= 2; np.linspace, pspecbeam.py:14-126 *)
Definition linspace (a b : R) (n : nat) : list R := map (fun i => a + INR i * ((b - a) / INR (n - 1))) (seq 0 n).
(** integrate.trapezoid(y, x=x) for y = f(x); scipy.integrate.trapezoid, pspecbeam.py:14-126 *)
Fixpoint trapezoid (f : R -> R) (xs : list R) : R :=
  match xs with
  | x :: ((x' :: _) as r) => (x' - x) * (f x + f x') / 2 + trapezoid f r
  | _ => 0
  end.

(** what a scalar depends on besides the options: the X2Y function of the cosmology (with and without h), the beam ratio
    OmegaPP / OmegaP^2 interpolated at a frequency (scipy interp1d: any function), and the squared window of a taper
    interpolated at a frequency. the arguments of pspecbeam.py:14-126 *)
Record scal_in := mkscal { sx2y : bool -> R -> R; sratio : R -> R; swin2 : string -> R -> R }.
(** pspecbeam.py:14-126 _compute_pspec_scalar; pspec_freqs is linspace(lo, up, nf, endpoint=False) (pspecbeam.py:217), so its
    median spacing times its length is up - lo and the integration runs from lo to up. *)
Definition window2 (s : scal_in) (taper : string) (f : R) : R := if string_dec taper "none" then 1 else swin2 s taper f.
(** pspecbeam.py:14-126 *)
Definition compute_scalar (s : scal_in) (lo up : R) (num_steps : nat) (taper : string) (little_h noise_scalar exact_norm : bool) : R :=
  let fs := linspace lo up num_steps in
  let band := up - lo in
  if exact_norm then trapezoid (sx2y s little_h) fs / Rabs band
  else 1 / trapezoid (fun f => (if noise_scalar then 1 / band else window2 s taper f / band ^ 2) * sratio s f / sx2y s little_h f) fs.
(** the X2Y of a cosmology at a frequency, pspecbeam.py:85-86 *)
Definition cosmo_x2y (co : cosmo) (lh : bool) (f : R) : R := X2Y co lh (f2z false f).

(** pspecdata.py:3007-3110 PSpecData.scalar for polarization pair (p1, p2).  The beam is self.primary_beam or the one given. *)
Definition scalar_override (taper_override self_taper : string) : string :=
  if string_dec taper_override "no_override" then self_taper else taper_override.
Definition pd_scalar {P} (eqP : forall x y : P, {x = y} + {x <> y}) (beam : P -> scal_in) (lo up : R) (num_steps : nat)
    (self_taper : string) (p1 p2 : P) (little_h : bool) (taper_override : string) (exact_norm : bool) : result R :=
  if eqP p1 p2 then
    let taper := scalar_override taper_override self_taper in (* computed at 3081-3084 and not used *)
    Ok (compute_scalar (beam p1) lo up num_steps self_taper little_h false exact_norm)
  else Err NotImplementedError.

(** pspecbeam.py:377-436 PSpecBeamGauss *)
Definition gauss_OmegaP (fwhm : R) : R := 1 * 2 * PI * fwhm ^ 2 / (8 * ln 2).
(** pspecbeam.py:409-435 *)
Definition gauss_OmegaPP (fwhm : R) : R := 1 * PI * fwhm ^ 2 / (8 * ln 2).

(** ** PSpecBeamFromArray, pspecbeam.py:599-819 *)
(** a polarization given as integer or string; the dictionaries of pspecbeam.py:600-705 *)
Inductive pkey := PNum (z : Z) | PStr (s : string).
(** the dictionaries of pspecbeam.py:600-705 *)
Definition pkey_dec : forall x y : pkey, {x = y} + {x <> y}.
Proof. decide equality; [apply Z.eq_dec | apply string_dec]. Defined.
(** the dictionaries of pspecbeam.py:600-705 *)
Definition odict := list (pkey * list R).
(** pspecbeam.py:600-705 *)
Definition allowed_pols : list Z := [1; 2; 3; 4; -5; -6; -7; -8]%Z.
(** pspecbeam.py:600-705 *)
Definition memZ (z : Z) (l : list Z) : bool := existsb (Z.eqb z) l.
(** the attributes OmegaP, OmegaPP of pspecbeam.py:600-705 *)
Record abeam := mkabeam { aP : list (Z * list R); aPP : list (Z * list R) }.
Section FromArray.
(** uvutils.polstr2num; None stands for the KeyError of an unknown name *)
Variable polstr2num : string -> option Z.
Variable nfreq : nat.
(** pspecbeam.py:667-683: string keys of the caller's dictionary are replaced by integer ones, in place *)
Fixpoint fix_keys (keys : list pkey) (d : odict) : result odict :=
  match keys with
  | [] => Ok d
  | k :: ks =>
      bind (match k with
            | PNum z => Ok (z, d)
            | PStr s => match polstr2num s, dget pkey_dec d k with
                        | Some z, Some v => Ok (z, dset pkey_dec (ddel pkey_dec d k) (PNum z) v)
                        | _, _ => Err KeyError
                        end
            end) (fun zd =>
      require (memZ (fst zd) allowed_pols) KeyError (fix_keys ks (snd zd)))
  end.
(** pspecbeam.py:707-759 add_pol *)
Definition add_pol (b : abeam) (k : pkey) (op opp : list R) : result abeam :=
  bind (match k with PNum z => Ok z | PStr s => match polstr2num s with Some z => Ok z | None => Err KeyError end end) (fun z =>
  require (memZ z allowed_pols) KeyError
    (require (Nat.eqb (length op) nfreq && Nat.eqb (length opp) nfreq)%bool ValueError
      (Ok (mkabeam (dset Z.eq_dec (aP b) z op) (dset Z.eq_dec (aPP b) z opp))))).
(** pspecbeam.py:685-696 *)
Fixpoint add_pols (ps : list Z) (P PP : odict) (b : abeam) : result abeam :=
  match ps with
  | [] => Ok b
  | p :: ps =>
      match dget pkey_dec P (PNum p), dget pkey_dec PP (PNum p) with
      | None, None => add_pols ps P PP b
      | Some x, Some y => bind (add_pol b (PNum p) x y) (add_pols ps P PP)
      | _, _ => Err KeyError
      end
  end.
(** the constructor given two dictionaries, pspecbeam.py:600-705: the new beam and the two dictionaries afterwards *)
Definition new_abeam (P PP : odict) : result (abeam * odict * odict) :=
  bind (fix_keys (map fst P) P) (fun P' =>
  bind (fix_keys (map fst PP) PP) (fun PP' =>
  bind (add_pols allowed_pols P' PP' (mkabeam [] [])) (fun b => Ok (b, P', PP')))).
(** pspecbeam.py:761-819 power_beam_int, power_beam_sq_int *)
Definition key_num (k : pkey) : result Z :=
  match k with PNum z => Ok z | PStr s => match polstr2num s with Some z => Ok z | None => Err KeyError end end.
(** pspecbeam.py:761-819 *)
Definition beam_get (d : list (Z * list R)) (k : pkey) : result (list R) :=
  bind (key_num k) (fun z => match dget Z.eq_dec d z with Some v => Ok v | None => Err KeyError end).
(** pspecbeam.py:761-789 *)
Definition power_beam_int (b : abeam) (k : pkey) := beam_get (aP b) k.
(** pspecbeam.py:791-819 *)
Definition power_beam_sq_int (b : abeam) (k : pkey) := beam_get (aPP b) k.
End FromArray.

(** ** Unit conversion *)
(** pspecbeam.py:235-291 PSpecBeamBase.Jy_to_mK: the factor at one frequency, for the (interpolated) beam area there;
    cgs_units.c = 2.99792458e10, cgs_units.kb = 1.38064852e-16 *)
Definition jy_factor (c kb : R) (area : R) (f : R) : R := / 10 ^ 20 * c ^ 2 / (2 * kb * f ^ 2 * area).

(** pspecdata.py:4406-4456 PSpecData.Jy_to_mK.  Datasets are objects (addresses) in a store, since the same object may be in
    self.dsets more than once; vis_units are compared in upper case; data is one number per polarization, row and channel. *)
Inductive vunit := UJy | UmK | UOther.
(** UVData objects shared by self.dsets, pspecdata.py:4406-4455 *)
Record dobj := mkdobj { dunit : vunit; dpols : list Z; ddata : nat -> nat -> nat -> R (* row, channel, pol *) }.
(** UVData objects shared by self.dsets, pspecdata.py:4406-4455 *)
Definition store := nat -> dobj.
(** UVData objects shared by self.dsets, pspecdata.py:4406-4455 *)
Definition upd (s : store) (a : nat) (o : dobj) : store := fun b => if Nat.eqb b a then o else s b.
(** pspecdata.py:4406-4455 *)
Definition convert (factor : Z -> nat -> R) (o : dobj) : dobj :=
  match dunit o with
  | UJy => mkdobj UmK (dpols o) (fun r f j => match nth_error (dpols o) j with Some p => ddata o r f j * factor p f | None => ddata o r f j end)
  | _ => o
  end.
(** pspecdata.py:4406-4455 *)
Fixpoint convert_all (factor : Z -> nat -> R) (dsets : list nat) (s : store) : store :=
  match dsets with [] => s | a :: l => convert_all factor l (upd s a (convert factor (s a))) end.
(** np.ravel of the list of polarization arrays needs them to have one length (line 4419) *)
Definition same_npol (s : store) (dsets : list nat) : bool :=
  match dsets with [] => true | a :: l => forallb (fun b => Nat.eqb (length (dpols (s b))) (length (dpols (s a)))) l end.
(** pspecdata.py:4406-4455 *)
Definition Jy_to_mK (factor : Z -> nat -> R) (beam_given : bool) (dsets : list nat) (s : store) : result store :=
  require (same_npol s dsets) ValueError (require beam_given AssertionError (Ok (convert_all factor dsets s))).

(** ** noise.Sensitivity, noise.py:92-160: the cosmology of the object and of its beam.  Beams and cosmologies are objects. *)
Record sens := mksens { scosmo : option nat; sbeam : option nat; sparams : option nat (* cosmology whose parameters are in cosmo_params *) }.
(** the attribute cosmo of beams, noise.py:114-156 *)
Definition beams := nat -> option nat. (* beam object -> its cosmology; noise.py:114-127 *)
Definition set_cosmology (c : nat) (s : sens) : sens := mksens (Some c) (sbeam s) (Some c).
(** noise.py:129-156 *)
Definition set_beam (b : nat) (s : sens) (bs : beams) : result (sens * beams) :=
  match scosmo s, bs b with
  | Some c, _ => Ok (mksens (Some c) (Some b) (sparams s), fun x => if Nat.eqb x b then Some c else bs x)
  | None, Some c => Ok (mksens (Some c) (Some b) (sparams s), bs)
  | None, None => Err AssertionError
  end.
(** noise.py:175-224 calc_scalar uses the beam's cosmology *)
Definition calc_scalar_cosmo (s : sens) (bs : beams) : result nat :=
  match sbeam s with Some b => match bs b with Some c => Ok c | None => Err AttributeError end | None => Err AttributeError end.
