(** Model of [fold_spectra] (grouping.py:1421-1617).
    The values are of an arbitrary type [X]; the arithmetic ([mean] of two values, the quarter
    sum of four, the inverse quadrature sum, doubling) is a parameter, instantiated with
    rationals in FoldProps. *)
From Coq Require Import QArith Qabs.
From Verif Require Import PyDict.
From Verif Require Import Prelude UvpModel.
Open Scope nat_scope.

Section Fold.
Context {X : Type}.

(** first bin of the negative half that has a partner: grouping.py:1452 and 1537 *)
Definition first_paired (n : nat) : nat := if Nat.even n then 1 else 0.

(** grouping.py:1450-1455 and 1535-1540, one spectrum: the negative half becomes [fill]
    (0.0, or NaN when statistics are stored, lines 1533 and 1615), the middle bin stays, the
    positive half is [f left right] *)
Definition fold_spectrum (f : X -> X -> X) (fill : X) (l : list X) : list X :=
  let n := length l in
  let left := rev (slice (first_paired n) (n / 2) l) in
  let right := skipn (n / 2 + 1) l in
  repeat fill (n / 2) ++ slice (n / 2) (n / 2 + 1) l ++ map2 f left right.

(** grouping.py:1524-1532 and 1607-1614: the statistics; negative half untouched *)
Definition fold_stat (f : X -> X -> X) (l : list X) : list X :=
  let n := length l in
  let left := rev (slice (first_paired n) (n / 2) l) in
  let right := skipn (n / 2 + 1) l in
  firstn (n / 2 + 1) l ++ map2 f left right.

(** [M[r0:r1, c0:c1]]; slices and sums at grouping.py:1421-1617 [fold_spectra] *)
Definition block (r0 r1 c0 c1 : nat) (M : list (list X)) : list (list X) :=
  map (slice c0 c1) (slice r0 r1 M).

(** slices and sums at grouping.py:1421-1617 [fold_spectra] *)
Definition map2m (f : X -> X -> X) := map2 (map2 f).

(** grouping.py:1486-1522 and 1569-1605 (covariance, nr = nc = Ndlys, first_kpar = first_paired nc) and
    1468-1485 and 1551-1567 (window functions, nr = Ndlys, nc = Nkpar): [q] is 0.25 * (a + b + c + d) *)
Definition fold_matrix (q : X -> X -> X -> X -> X) (zero : X) (nr nc : nat) (M : list (list X))
  : list (list X) :=
  let hr := nr / 2 in let hc := nc / 2 in
  let leftleft := map (@rev X) (rev (block (first_paired nr) hr (first_paired nc) hc M)) in
  let leftright := rev (block (first_paired nr) hr (hc + 1) nc M) in
  let rightleft := map (@rev X) (block (hr + 1) nr (first_paired nc) hc M) in
  let rightright := block (hr + 1) nr (hc + 1) nc M in
  let quarter := map2 (map2 (fun ab cd => q (fst ab) (snd ab) (fst cd) (snd cd)))
                   (map2 (@combine X X) leftleft leftright)
                   (map2 (@combine X X) rightleft rightright) in
  (* assignment to the positive block, then zeroing of rows and columns *)
  repeat (repeat zero nc) hr ++
  map (fun r => repeat zero hc ++ skipn hc r) (slice hr (hr + 1) M) ++
  map2 (fun r r' => repeat zero hc ++ slice hc (hc + 1) r ++ r') (skipn (hr + 1) M) quarter.

(** [uvp.data_array[spw]] is replaced for every spw in range(Nspws); grouping.py:1421-1617 [fold_spectra] *)
Fixpoint update_all (g : arr X -> arr X) (ss : list nat) (d : list (nat * arr X))
  : result (list (nat * arr X)) :=
  match ss with
  | [] => Ok d
  | s :: ss' => bind (lookup_arr d s) (fun a => update_all g ss' (dset Nat.eq_dec d s (g a)))
  end.

(** grouping.py:1421-1617 on the data, nsample and statistics of an object without window
    functions and covariances (for these see [fold_matrix]); statistics, if there are any, have at least one name. *)
Definition fold_uvp (mean invquad : X -> X -> X) (zero nan : X) (double : X -> X) (u : uvp X)
  : result (uvp X) :=
  require (negb (u_folded u)) AssertionError (
  let ss := seq 0 (u_Nspws u) in
  let fill := match u_stats u with Some _ => nan | None => zero end in
  bind (update_all (map (map (fold_spectrum mean fill))) ss (u_data u)) (fun da =>
  bind (update_all (map (map (map double))) ss (u_nsample u)) (fun ns =>
  bind (match u_stats u with
        | None => Ok None
        | Some st => bind (update_all (map (map (fold_stat invquad))) ss st) (fun st' => Ok (Some st'))
        end) (fun st =>
  Ok (mkuvp true (u_Nspws u) (u_spw_array u) (u_spw_freq_array u)
        (u_spw_dly_array u) (u_freq_array u) (u_dly_array u) (u_scalar_array u)
        (u_blpair_array u) (u_time_1_array u) (u_time_2_array u) (u_time_avg_array u)
        (u_lst_1_array u) (u_lst_2_array u) (u_lst_avg_array u) (u_bl_array u)
        (u_bl_vecs u) (u_polpair_array u) da (u_wgt u) (u_integration u) ns (u_cov u)
        (u_window u) st (u_label_1_array u) (u_label_2_array u) (u_OmegaP u)))))).
End Fold.
