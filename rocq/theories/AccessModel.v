(** Model of the slicing methods of UVPSpec with [omit_flags] (uvpspec.py:571-834, 1066-1104, 1536-1635) on keys in all their
    forms, of the covariance getter and of the window function getter for estimated and exact window functions.
    Polarization strings are converted by pyuvdata (not modelled): a string stands for the number [polnum] gives it. *)
From Coq Require Import String Reals.
From Verif Require Import PyDict.
From Verif Require Import Prelude UvpModel BlCodecModel PolPairModel.
Open Scope nat_scope.

(** ** keys: uvpspec.py:1579-1610 *)
Inductive blp_arg := BInt (b : Z) | BAnts (a : blpair_ants).
(** uvpspec.py:1536-1610 [key_to_indices] *)
Inductive pol_arg := PInt (p : Z) | PNums (p : Z * Z) | PStrs (p : string * string) | PStr (p : string).
(** a tuple, or the dictionary {'spw': .., 'blpair': .., 'polpair': ..}; uvpspec.py:1536-1610 [key_to_indices] *)
Inductive key_arg := KTuple (s : nat) (b : blp_arg) (p : pol_arg) | KDict (s : nat) (b : blp_arg) (p : pol_arg).
(** uvpspec.py:1536-1610 [key_to_indices] *)
Definition blp_int (b : blp_arg) : Z := match b with BInt b => b | BAnts a => antnums_to_blpair a end.
(** uvpspec.py:1536-1610 [key_to_indices] *)
Definition pol_int (polnum : string -> Z) (p : pol_arg) : Z :=
  match p with
  | PInt p => p
  | PNums p => polpair_tuple2int p
  | PStrs (x, y) => polpair_tuple2int (polnum x, polnum y)
  | PStr x => polpair_tuple2int (polnum x, polnum x)
  end.
(** uvpspec.py:1536-1610 [key_to_indices] *)
Definition key_parts (polnum : string -> Z) (k : key_arg) : nat * Z * Z :=
  match k with KTuple s b p | KDict s b p => (s, blp_int b, pol_int polnum p) end.

(** ** uvpspec.py:1611-1635 with omit_flags.  np.isclose(x, 0.0): absolute tolerance 1e-8.  The integration array holds one
    value per (row, polarization) *)
Definition is_zero (x : R) : bool := if Rle_dec (Rabs x) (/ 100000000) then true else false.
(** uvpspec.py:1611-1635 [key_to_indices] *)
Definition int_at (a : arr R) (p i : nat) : result R :=
  match nth_error a i with
  | Some r => match nth_error r p with Some (x :: _) => Ok x | _ => Err IndexError end
  | None => Err IndexError
  end.
(** uvpspec.py:1611-1635 [key_to_indices] *)
Definition key_rows (u : uvp R) (omit : bool) (s : nat) (b p : Z) : result (nat * list nat * nat) :=
  bind (key_to_indices u s b p) (fun k =>
  let '(s, rows, p) := k in
  if omit then
    bind (lookup_arr (u_integration u) s) (fun a =>
    bind (map_res (int_at a p) rows) (fun xs =>
    Ok (s, mask (map (fun x => negb (is_zero x)) xs) rows, p)))
  else Ok (s, rows, p)).

(** uvpspec.py:719-834 get_wgts, get_integrations, get_nsamples: no slicing of the delay axis *)
Definition get_field (d : uvp R -> list (nat * arr R)) (u : uvp R) (omit : bool) (s : nat) (b p : Z) : result (list (list R)) :=
  bind (key_rows u omit s b p) (fun k => let '(s, rows, p) := k in
  bind (lookup_arr (d u) s) (fun a => take_rows_pol a rows p)).
(** uvpspec.py:679-717 get_data; get_stats (1066-1104) slices the same way *)
Definition get_sliced (d : uvp R -> list (nat * arr R)) (u : uvp R) (omit : bool) (s : nat) (b p : Z) : result (list (list R)) :=
  bind (get_field d u omit s b p) (fun rows =>
  if u_folded u then
    let Ndlys := List.length (filter (Nat.eqb s) (u_spw_dly_array u)) in
    Ok (map (from_neg (Ndlys - Ndlys / 2 - 1)) rows)
  else Ok rows).
(** uvpspec.py:679-717 [get_data] *)
Definition get_data_o := get_sliced u_data.

(** ** arrays with several axes: shape and values; numpy arrays indexed at uvpspec.py:571-677 *)
Record harr := mkharr { h_shape : list nat; h_at : list nat -> R }.
(** number of entries and first index of the slice [-n:] of an axis; the slices -n: at uvpspec.py:571-633 [get_cov], 635-677 [get_window_function] *)
Definition neg_len (n dim : nat) : nat := match n with O => dim | _ => Nat.min n dim end.
(** the slices -n: at uvpspec.py:571-633 [get_cov], 635-677 [get_window_function] *)
Definition neg_from (n dim : nat) : nat := match n with O => 0 | _ => dim - Nat.min n dim end.
(** number of positive delays, as computed from the number of delays; the slices -n: at uvpspec.py:571-633 [get_cov], 635-677 [get_window_function] *)
Definition npos (nd : nat) : nat := nd - nd / 2 - 1.

(** [a[rows, :, :, p]] and [a[rows, -n:, -n:, p]] for an array with four axes; uvpspec.py:571-633 [get_cov], 635-677 [get_window_function] *)
Definition slice4 (n : nat) (a : harr) (rows : list nat) (p : nat) : result harr :=
  match h_shape a with
  | [nr; d1; d2; np] =>
      require (forallb (fun i => i <? nr) rows && (p <? np)) IndexError
      (Ok (mkharr [List.length rows; neg_len n d1; neg_len n d2]
             (fun ix => match ix with
                        | [i; x; y] => h_at a [nth i rows 0; neg_from n d1 + x; neg_from n d2 + y; p]
                        | _ => 0%R end)))
  | _ => Err IndexError
  end.
(** the same index applied to an array with five axes (exact window functions: row, delay, k_perp, k_par, polarization): the
    second slice falls on k_perp and [p] on k_par; the two advanced indices are separated by slices, so that the axes left
    are (rows, delay, k_perp, polarization); uvpspec.py:571-633 [get_cov], 635-677 [get_window_function] *)
Definition slice5 (n : nat) (a : harr) (rows : list nat) (p : nat) : result harr :=
  match h_shape a with
  | [nr; d1; kp; kl; np] =>
      require (forallb (fun i => i <? nr) rows && (p <? kl)) IndexError
      (Ok (mkharr [List.length rows; neg_len n d1; neg_len n kp; np]
             (fun ix => match ix with
                        | [i; x; y; q] => h_at a [nth i rows 0; neg_from n d1 + x; neg_from n kp + y; p; q]
                        | _ => 0%R end)))
  | _ => Err IndexError
  end.
(** [a[rows, ..., p]]: the last axis is indexed whatever the number of axes; uvpspec.py:571-717 *)
Definition slice_last (a : harr) (rows : list nat) (p : nat) : result harr :=
  match h_shape a with
  | nr :: sh =>
      require (forallb (fun i => i <? nr) rows && negb (List.length sh =? 0) && (p <? last sh 0)) IndexError
      (Ok (mkharr (List.length rows :: removelast sh)
             (fun ix => match ix with i :: ix' => h_at a (nth i rows 0 :: ix' ++ [p]) | _ => 0%R end)))
  | [] => Err IndexError
  end.

(** uvpspec.py:571-717 *)
Definition hget (d : list (nat * harr)) (s : nat) : result harr := match dget Nat.eq_dec d s with Some a => Ok a | None => Err KeyError end.
(** uvpspec.py:571-717 *)
Definition ndlys (u : uvp R) (s : nat) : nat := List.length (filter (Nat.eqb s) (u_spw_dly_array u)).

(** uvpspec.py:571-633; [creal], [cimag]: the covariance attributes, None when absent *)
Inductive component := CReal | CImag | COther.
(** uvpspec.py:571-633 [get_cov] *)
Definition get_cov (u : uvp R) (creal cimag : option (list (nat * harr))) (c : component) (omit : bool) (s : nat) (b p : Z) : result harr :=
  bind (key_rows u omit s b p) (fun k => let '(s, rows, p) := k in
  let slice d := bind (hget d s) (fun a => slice4 (if u_folded u then npos (ndlys u s) else 0) a rows p) in
  match c with
  | CReal => match creal with Some d => slice d | None => Err AttributeError end
  | CImag => match cimag with Some d => slice d | None => Err AttributeError end
  | COther => Err ValueError
  end).

(** uvpspec.py:635-677 *)
Definition get_window_function (u : uvp R) (w : list (nat * harr)) (omit : bool) (s : nat) (b p : Z) : result harr :=
  bind (key_rows u omit s b p) (fun k => let '(s, rows, p) := k in
  bind (hget w s) (fun a =>
  if u_folded u then
    let n := npos (ndlys u s) in
    match List.length (h_shape a) with 4 => slice4 n a rows p | 5 => slice5 n a rows p | _ => Err IndexError end
  else slice_last a rows p)).
