(** [UVWindow.cylindrical_to_spherical] (uvwindow.py:1000-1109) with its checks and its second result, and [UVWindow.get_spherical_wf]
    (1111-1287) given the cylindrical window functions of each baseline length. Real numbers are exact; units are check_kunits of
    WinModel; the warnings on the coverage of the bins (1203-1213, 1231-1241, 1256-1262) are not modelled, nor is broadcasting of axes of length 1. *)
From Coq Require Import Reals.
From Verif Require Import Prelude WinModel.
Open Scope R_scope.

(** np.diff, np.min, np.max; uvwindow.py:1067-1071, 1189-1196 *)
Fixpoint diffs (l : list R) : list R := match l with x :: (y :: _) as t => (y - x) :: diffs t | _ => [] end.
(** uvwindow.py:1067-1071, 1189-1196 *)
Definition minl (l : list R) : R := fold_right Rmin (hd 0 l) l.
(** uvwindow.py:1067-1071, 1189-1196 *)
Definition maxl (l : list R) : R := fold_right Rmax (hd 0 l) l.
(** np.allclose(d, d[0]), with its default tolerances; uvwindow.py:1067-1071, 1189-1196 *)
Definition close_to (d0 d : R) : bool := if Rle_dec (Rabs (d - d0)) (1 / 10 ^ 8 + 1 / 10 ^ 5 * Rabs d0) then true else false.
(** 1067-1071, 1189-1196, 1217-1223, 1248-1254: [np.diff(k)[0]] of fewer than two is an IndexError *)
Definition edges_of (ks : list R) : result (list R) :=
  match diffs ks with
  | [] => Err IndexError
  | (d0 :: _) as ds =>
      require (forallb (close_to d0) ds) ValueError (
      let dk := mean ds in Ok (arange (minl ks - dk / 2) (maxl ks + dk) dk))
  end.

(** a cylindrical window function: axis 0 (baseline lengths) may be missing; uvwindow.py:997-1109 [cylindrical_to_spherical] *)
Record cwf := mkcwf { c_nbl : option nat; c_ndly : nat; c_nperp : nat; c_npara : nat; c_val : nat -> nat -> nat -> nat -> R }.

Section Sph.
(** |k| of a baseline length and a delay, 1075-1079; the number of delays of the object *)
Variables (kmag : R -> nat -> R) (ndly : nat) (little_h : bool).
(** uvwindow.py:997-1109 [cylindrical_to_spherical] *)
Definition cells (np nq : nat) : list (nat * nat) := list_prod (seq 0 np) (seq 0 nq).
(** 1073-1079: one entry per baseline length and delay *)
Definition entries (c : nat -> nat -> nat -> nat -> R) (lens ws : list R) : list (entry (nat * nat)) :=
  flat_map (fun b => map (fun t => mkentry (kmag (nth b lens 0) t) (nth b ws 0) (fun pq => c b t (fst pq) (snd pq))) (seq 0 ndly)) (seq 0 (length lens)).
(** uvwindow.py:997-1109 [cylindrical_to_spherical] *)
Definition mean_k (edges : list R) (es : list (entry (nat * nat))) (m : nat) : R :=
  match filter (fun e => in_edges edges m (ekmag e)) es with [] => 0 | s => mean (map ekmag s) end.
(** 1033-1109 *)
Definition cylindrical_to_spherical (c : cwf) (unit : option kunit) (kbins : list R) (kshape : nat * nat) (ktot : nat * nat -> R)
    (lens : list R) (weights : option (list R)) : result ((nat -> nat -> R) * (nat -> R)) :=
  let ws := match weights with None => repeat 1 (length lens) | Some w => w end in
  require (Nat.eqb (length ws) (length lens)) ValueError (
  require (match c_nbl c with None => Nat.eqb (length lens) 1 | Some _ => true end) ValueError (
  require (Nat.eqb (length lens) (match c_nbl c with None => 1 | Some n => n end)) ValueError (
  require (Nat.eqb (fst kshape) (c_nperp c) && Nat.eqb (snd kshape) (c_npara c)) ValueError (
  require (Nat.ltb 1 (length kbins)) ValueError (
  bind (check_kunits little_h unit) (fun _ =>
  bind (edges_of kbins) (fun edges =>
  let n := length kbins in
  require (Nat.ltb n (length edges)) IndexError (      (* kbin_edges[m1 + 1] *)
  require (Nat.eqb (c_ndly c) ndly) ValueError (             (* cyl_wf * mask2 *)
  let es := entries (c_val c) lens ws in
  Ok (sph_row (cells (c_nperp c) (c_npara c)) ktot edges n es, mean_k edges es)))))))))).
(** 1081, 1093, 1103: the bins that count as empty in the warning; [kweights] is an array of integers *)
Definition bin_weight (edges : list R) (es : list (entry (nat * nat))) (m : nat) : Z :=
  let s := rsum (map ewt (filter (fun e => in_edges edges m (ekmag e)) es)) in
  if Rle_dec 0 s then Int_part s else (- Int_part (- s))%Z.
(** uvwindow.py:997-1109 [cylindrical_to_spherical] *)
Definition warns_empty (edges : list R) (n : nat) (es : list (entry (nat * nat))) : bool :=
  existsb (fun m => Z.eqb (bin_weight edges es m) 0) (seq 0 n).

(** ** get_spherical_wf. [cyl len kp kq]: get_cylindrical_wf of one baseline length on the two sets of bins, for the delays of the object;
    the bins are given or the default ones ([dperp], [dpara]); an empty array counts as not given *)
Variables (cyl : R -> list R -> list R -> result (nat -> nat -> nat -> R)) (dperp : list R -> result (list R)) (dpara : result (list R)).
(** uvwindow.py:1111-1287 [get_spherical_wf] *)
Definition given_bins (b : option (option kunit * list R)) (default : result (list R)) : result (list R) :=
  match b with
  | Some (u, ((_ :: _) as l)) => bind (check_kunits little_h u) (fun _ => Ok l)
  | _ => default
  end.
(** uvwindow.py:1111-1287 [get_spherical_wf] *)
Definition get_spherical_wf (unit : option kunit) (kbins : list R) (lens : list R) (weights : option (list R))
    (kperp kpara : option (option kunit * list R)) : result ((nat -> nat -> R) * (nat -> R)) :=
  require (match weights with Some w => Nat.eqb (length w) (length lens) | None => true end) ValueError (
  let ws := match weights with None => repeat 1 (length lens) | Some w => w end in
  let nonempty (l : list R) := match l with [] => false | _ => true end in   (* .max() and np.max *)
  bind (given_bins kperp (dperp lens)) (fun kp => bind (edges_of kp) (fun pe =>
  require (nonempty pe && nonempty lens) ValueError (
  bind (given_bins kpara dpara) (fun kq => bind (edges_of kq) (fun qe =>
  require (nonempty qe) ValueError (
  bind (check_kunits little_h unit) (fun _ =>
  require (Nat.ltb 1 (length kbins)) ValueError (
  bind (edges_of kbins) (fun ke =>
  require (nonempty ke) ValueError (
  bind (map_res (fun l => cyl l kp kq) lens) (fun wfs =>
  let c := mkcwf (Some (length lens)) ndly (length kp) (length kq) (fun b => nth b wfs (fun _ _ _ => 0)) in
  cylindrical_to_spherical c unit kbins (length kp, length kq)
    (fun pq => sqrt (nth (fst pq) kp 0 ^ 2 + nth (snd pq) kq 0 ^ 2)) lens (Some ws))))))))))))).
End Sph.
