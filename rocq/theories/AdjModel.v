(** Model of [PSpecData.scalar_delay_adjustment] (pspecdata.py:3111-3201), in exact arithmetic.
    [G], [H]: the response matrices (OqeModel).  A ratio with a vanishing denominator is inf or nan in numpy and is replaced by 1. *)
From Coq Require Import Reals.
From Verif Require Import Prelude CNum OqeModel.
Open Scope R_scope.

Fixpoint rsum (n : nat) (f : nat -> R) : R := match n with O => 0 | S m => rsum m f + f m end.
(** np.mean; pspecdata.py:3111-3201 [scalar_delay_adjustment] *)
Definition rmean (n : nat) (f : nat -> R) : R := rsum n f / INR n.

(** pspecdata.py:3166-3173 *)
Definition adj_ratio (nd : nat) (G H : mat) (a : nat) : R :=
  let g := re (rowsum nd G a) in
  let h := re (rowsum nd H a) in
  if Req_EM_T g 0 then 1 else h / g.
(** pspecdata.py:3184-3187: [(scatter > 10**-4 * mean_ratio).any()] *)
Definition band_dependent (nd : nat) (r : nat -> R) : bool :=
  existsb (fun a => if Rgt_dec (Rabs (r a - rmean nd r)) (rmean nd r / 10000) then true else false) (seq 0 nd).
(** pspecdata.py:3184-3201.  [taper]: None for "none", otherwise the values of the window.  The result is constant for identity
    weighting and depends on the delay otherwise *)
Definition scalar_delay_adjustment (identity : bool) (nd nf : nat) (taper : option (nat -> R)) (G H : mat) : result (nat -> R) :=
  let r := adj_ratio nd G H in
  let t := match taper with None => 1 | Some v => rmean nf (fun i => v i ^ 2) end in
  if identity then
    if band_dependent nd r then Err ValueError
    else Ok (fun _ => INR nd / (INR nf * rmean nd r) * t)
  else Ok (fun a => INR nd / (INR nf * r a) * t).
