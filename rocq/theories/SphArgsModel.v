(** Model of the argument checks of [spherical_average] on its bins (grouping.py:52-61, 804-831), up to the copy of the object.
    numpy's conversion to floats of an argument is given by its outcome: [NScalar] a Python float or int (bool included), [NArray0] anything else that becomes a
    0-dimensional array (numpy integers, strings that spell a number, and None, which becomes nan), [NArray] a list or array of such values, [NDeep] one
    with more dimensions, [NBad] what numpy cannot convert (other strings and objects, ragged lists). nan is None. Rounding is not modelled. *)
From Coq Require Import Reals.
From Verif Require Import Prelude SphModel.
Open Scope R_scope.

(** an argument; grouping.py:53-59, 815 *)
Inductive narg := NScalar (x : R) | NArray0 (x : option R) | NArray (l : list (option R)) | NDeep | NBad.
(** grouping.py:52-61 [_as_1d_float_array] *)
Definition as_1d_float_array (a : narg) : result (list (option R)) :=
  match a with
  | NScalar x => Ok [Some x]
  | NArray0 x => Ok [x]
  | NArray l => Ok l
  | NDeep => Err ValueError
  | NBad => Err TypeError
  end.
(** [np.ones_like(kbins) * bin_widths]; grouping.py:815-818 *)
Definition read_widths (kbins : list (option R)) (a : narg) : result (list (option R)) :=
  match a with NScalar x => Ok (map (fun _ => Some x) kbins) | _ => as_1d_float_array a end.
(** arithmetic with nan; grouping.py:824-831 *)
Definition nan2 (f : R -> R -> R) (a b : option R) : option R := match a, b with Some x, Some y => Some (f x y) | _, _ => None end.
(** [kbins - bin_widths / 2], [kbins + bin_widths / 2]; grouping.py:830-831 *)
Definition bin_left (c w : option R) : option R := nan2 (fun c w => c - w / 2) c w.
(** grouping.py:830-831 *)
Definition bin_right (c w : option R) : option R := nan2 (fun c w => c + w / 2) c w.
(** [a >= b - 1e-6], False with nan; grouping.py:832 *)
Definition starts_after (l r : option R) : bool := match l, r with Some l, Some r => if Rle_dec (r - / 10 ^ 6) l then true else false | _, _ => false end.
(** [np.all(kbin_left[1:] >= kbin_right[:-1] - 1e-6)]; grouping.py:832 *)
Fixpoint in_order (bins : list (option R * option R)) : bool :=
  match bins with
  | b1 :: (b2 :: _) as rest => (starts_after (bin_left (fst b2) (snd b2)) (bin_right (fst b1) (snd b1)) && in_order rest)%bool
  | _ => true
  end.
(** centres and widths in units of h; grouping.py:804-832. The arguments that are no UVPSpec object, no mutable mapping, and a weighting by covariances
    that are not there, are refused in this order; [h]: that of the object's cosmology *)
Definition read_bins (is_uvpspec mapping weight_by_cov has_cov little_h : bool) (h : R) (kbins widths : narg) : result (list (option R * option R)) :=
  require is_uvpspec TypeError
  (require mapping TypeError
  (bind (as_1d_float_array kbins) (fun ks =>
  require (negb weight_by_cov || has_cov) AssertionError
  (bind (read_widths ks widths) (fun ws =>
   let scale := map (fun x : option R => if little_h then x else option_map (fun x => x / h) x) in
   let (ks, ws) := (scale ks, scale ws) in
   require (Nat.eqb (List.length ks) (List.length ws)) AssertionError
   (require (in_order (combine ks ws)) AssertionError (Ok (combine ks ws)))))))).
