(** Model of [UVPSpec.set_cosmology] (uvpspec.py:2088-2181), [UVPSpec.compute_scalar] (uvpspec.py:2844-2903),
    [UVPSpec.get_kperps], [get_kparas] (uvpspec.py:916-989) and [UVPSpec.convert_to_deltasq] (uvpspec.py:1183-1242)
    in exact real arithmetic. *)
From Coq Require Import String.
From Coq Require Import Reals Lra.
From Verif Require Import Prelude PyDict ConvModel ScalarModel.
Open Scope R_scope.

(** an array (row, delay, polarization) and a covariance (row, delay, delay, polarization) of one spectral window; a
    complex array stands for one of its two components, both are treated alike; the attributes used at uvpspec.py:2091-2181 [set_cosmology], 1183-1242 [convert_to_deltasq] *)
Definition arr3 := nat -> nat -> nat -> R.
(** the attributes used at uvpspec.py:2091-2181 [set_cosmology], 1183-1242 [convert_to_deltasq] *)
Definition arr4 := nat -> nat -> nat -> nat -> R.
(** a window: band edges (the lowest frequency, and that plus number of channels times spacing) and mean frequency; the attributes used at uvpspec.py:2091-2181 [set_cosmology], 1183-1242 [convert_to_deltasq] *)
Record window := mkwindow { w_lo : R; w_up : R; w_mean : R; w_dly : nat -> R (* seconds *) }.
(** the attributes of a UVPSpec that take part.  [u_beam]: OmegaPP / OmegaP^2 per polarization index, interpolated at a
    frequency ([None]: OmegaP, OmegaPP or beam_freqs missing); [u_sep]: baseline separation of a row [m]; the attributes used at uvpspec.py:2091-2181 [set_cosmology], 1183-1242 [convert_to_deltasq] *)
Record uvpc := mkuvpc {
  u_win : list window; u_pols : list Z; u_taper : string; u_sep : nat -> R;
  u_data : nat -> arr3; u_stats : list (string * (nat -> arr3)); u_covr : option (nat -> arr4); u_covi : option (nat -> arr4);
  u_scalar : nat -> nat -> R; u_cosmo : option cosmo; u_beam : option (nat -> R -> R); u_units : string }.

Section Cosmo.
(** the squared taper of a window interpolated at a frequency (pspecbeam.py:101-108) *)
Variable win2 : window -> string -> R -> R.

(** uvpspec.py:2884-2903: polpair_to_indices of a polarization pair of the array is its index (no duplicates) *)
Definition uvp_compute_scalar (co : cosmo) (bm : nat -> R -> R) (w : window) (j : nat) (steps : nat) (taper : string) (lh noise exact : bool) : R :=
  compute_scalar (mkscal (cosmo_x2y co) (bm j) (win2 w)) (w_lo w) (w_up w) steps taper lh noise exact.

(** uvpspec.py:2091-2181 [set_cosmology] *)
Definition upd2 (f : nat -> nat -> R) (i j : nat) (v : R) : nat -> nat -> R := fun a b => if Nat.eqb a i && Nat.eqb b j then v else f a b.
(** 2169-2177, the body of the double loop *)
Definition renorm_one (co : cosmo) (bm : nat -> R -> R) (u : uvpc) (ij : (nat * window) * nat) : uvpc :=
  let '(i, w, j) := ij in
  let s := uvp_compute_scalar co bm w j 1000 (u_taper u) true false false in
  mkuvpc (u_win u) (u_pols u) (u_taper u) (u_sep u)
    (fun a r d p => if Nat.eqb a i && Nat.eqb p j then u_data u a r d p * (s / u_scalar u i j) else u_data u a r d p)
    (u_stats u) (u_covr u) (u_covi u)
    (upd2 (u_scalar u) i j s) (u_cosmo u) (u_beam u) (u_units u).
(** uvpspec.py:2091-2181 [set_cosmology] *)
Definition all_pairs (u : uvpc) : list ((nat * window) * nat) :=
  list_prod (combine (seq 0 (length (u_win u))) (u_win u)) (seq 0 (length (u_pols u))).
(** uvpspec.py:2091-2181 [set_cosmology] *)
Definition contains (sub s : string) : bool := match index 0 sub s with Some _ => true | None => false end.

(** 2130-2181: [ow]: overwrite; [nb]: the new beam, as a function of the polarization pair (get_Omegas).
    Both early exits return without an exception. *)
Definition uvp_set_cosmology (co : cosmo) (ow : bool) (nb : option (Z -> R -> R)) (u : uvpc) : uvpc :=
  match u_cosmo u, ow with
  | Some _, false => u
  | _, _ =>
      match (match nb with Some b => Some (fun j => b (nth j (u_pols u) 0%Z)) | None => u_beam u end) with
      | None => u
      | Some bm =>
          let u1 := mkuvpc (u_win u) (u_pols u) (u_taper u) (u_sep u) (u_data u) (u_stats u) (u_covr u) (u_covi u)
                      (u_scalar u) (Some co) (Some bm) (u_units u) in
          let u2 := fold_left (renorm_one co bm) (all_pairs u1) u1 in
          mkuvpc (u_win u2) (u_pols u2) (u_taper u2) (u_sep u2) (u_data u2) (u_stats u2) (u_covr u2) (u_covi u2)
            (u_scalar u2) (u_cosmo u2) (u_beam u2) (if contains "Mpc" (u_units u2) then u_units u2 else "h^-3 Mpc^3")
      end
  end.

(** 940-946, 985-989: the redshift of the mean frequency of the window, and the wavenumbers *)
Definition kperp (co : cosmo) (lh : bool) (w : window) (sep : R) : R := sep * bl_to_kperp co lh (f2z false (w_mean w)).
(** uvpspec.py:948-989 [get_kparas] *)
Definition kpara (co : cosmo) (lh : bool) (w : window) (dly : R) : R := dly * tau_to_kpara co lh (f2z false (w_mean w)).
(** 1215-1217 *)
Definition dsq_coeff (co : cosmo) (lh : bool) (w : window) (sep dly : R) : R :=
  sqrt (kperp co lh w sep ^ 2 + kpara co lh w dly ^ 2) ^ 3 / (2 * PI ^ 2).
(** uvpspec.py:1183-1242 [convert_to_deltasq] *)
Definition dummy : window := mkwindow 0 0 0 (fun _ => 0).
(** uvpspec.py:1183-1242 [convert_to_deltasq] *)
Definition coeff_at (co : cosmo) (u : uvpc) (i r d : nat) : R :=
  let w := nth i (u_win u) dummy in dsq_coeff co (contains "h^-3" (u_units u)) w (u_sep u r) (w_dly w d).
(** 1208-1239.  The window loop touches window i only, so it is written as one map over windows *)
Definition convert_to_deltasq (u : uvpc) : result uvpc :=
  match u_cosmo u with
  | None => Err AssertionError
  | Some co =>
      let c := coeff_at co u in
      Ok (mkuvpc (u_win u) (u_pols u) (u_taper u) (u_sep u)
            (fun i r d p => u_data u i r d p * c i r d)
            (map (fun nv => (fst nv, fun i r d p => snd nv i r d p * c i r d)) (u_stats u))
            (option_map (fun v i r d d' p => c i r d * v i r d d' p * c i r d') (u_covr u))
            (option_map (fun v i r d d' p => c i r d * v i r d d' p * c i r d') (u_covi u))
            (u_scalar u) (u_cosmo u) (u_beam u) (append (u_units u) " k^3 / (2pi^2)"))
  end.
End Cosmo.
