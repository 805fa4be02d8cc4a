(** Model of the grids of uvwindow.py: [_get_kgrid] (490-542), [_kperp4bl_freq] (544-582), [_interpolate_ft_beam] (584-632), [get_kperp_bins] (745-781).
    Exact arithmetic. *)
From Coq Require Import Reals Lra.
From Verif Require Import Prelude ConvModel WinModel.
Open Scope R_scope.

(** ** _get_kgrid; [kfac]: bl_to_kperp(avg_z), [dk]: spacing of the Fourier grid of the beam (517-525) *)
Definition kp_centre (kfac bl : R) : R := kfac * bl / sqrt 2.
(** uvwindow.py:490-542 [_get_kgrid] *)
Definition fourier_dk (mapsize DMz : R) : R := 2 * PI / (2 * mapsize) / DMz.
(** uvwindow.py:490-542 [_get_kgrid] *)
Definition get_kgrid (kfac dk width bl : R) : result (list R) :=
  require (if Rle_dec width dk then false else true) ValueError (Ok (arange (kp_centre kfac bl - width) (kp_centre kfac bl + width) dk)).
(** uvwindow.py:490-542 [_get_kgrid] *)
Definition kperp_norm (g : list R) (a b : nat) : R := sqrt (nth a g 0 ^ 2 + nth b g 0 ^ 2).

(** ** _kperp4bl_freq; [DMz]: comoving distance at [freq]; uvwindow.py:544-582 [_kperp4bl_freq] *)
Definition fourier_dual (ngrid : nat) (mapsize : R) (i : nat) : R := (INR i - INR (ngrid / 2)) / (2 * mapsize).
(** uvwindow.py:544-582 [_kperp4bl_freq] *)
Definition kperp4bl (DMz freq bl mapsize : R) (ngrid i : nat) : R :=
  2 * PI / DMz * (freq * bl / u_c / sqrt 2 - fourier_dual ngrid mapsize (ngrid - 1 - i)).
(** uvwindow.py:544-582 [_kperp4bl_freq] *)
Definition kperp4bl_freq (fmin fmax : R) (DMz : R -> R) (freq bl mapsize : R) (ngrid : nat) : result (list R) :=
  require (if Rlt_dec (freq / 10 ^ 6) 1 then false else true) ValueError (
  require (if Rle_dec fmin freq then if Rle_dec freq fmax then true else false else false) ValueError (
  Ok (map (kperp4bl (DMz freq) freq bl mapsize ngrid) (seq 0 ngrid)))).

(** ** _interpolate_ft_beam.  RegularGridInterpolator (linear, 0 outside) on n equally spaced points k0, k0 + h, ... uvwindow.py:618-630 [_interpolate_ft_beam] (scipy's RegularGridInterpolator) *)
Definition hat (t : R) : R := Rmax 0 (1 - Rabs t).
(** uvwindow.py:618-630 [_interpolate_ft_beam] (scipy's RegularGridInterpolator) *)
Definition sumn (n : nat) (f : nat -> R) : R := rsum (map f (seq 0 n)).
(** uvwindow.py:618-630 [_interpolate_ft_beam] (scipy's RegularGridInterpolator) *)
Definition inside (k0 h : R) (n : nat) (x : R) : bool := if Rle_dec k0 x then if Rle_dec x (k0 + INR (n - 1) * h) then true else false else false.
(** uvwindow.py:618-630 [_interpolate_ft_beam] (scipy's RegularGridInterpolator) *)
Definition rgi (k0 h : R) (n : nat) (v : nat -> nat -> R) (x y : R) : R :=
  if inside k0 h n x && inside k0 h n y then sumn n (fun i => sumn n (fun j => hat ((x - (k0 + INR i * h)) / h) * hat ((y - (k0 + INR j * h)) / h) * v i j)) else 0.
(** 630: A_real(np.array([kgrid, kgrid]).T) is one value per point (k, k) of the diagonal; the assignment to the (N, N) slice repeats it for every row *)
Definition interp_ft (A : R -> R -> R) (g : list R) (a b : nat) : R := A (nth b g 0) (nth b g 0).

(** ** get_kperp_bins; [kgrid]: grid of the shortest baseline; uvwindow.py:745-781 [get_kperp_bins] *)
Definition mean_step (g : list R) : R :=
  let n := length g in
  rsum (flat_map (fun a => map (fun b => kperp_norm g a (S b) - kperp_norm g a b) (seq 0 (n - 1))) (seq 0 n)) / (INR n * INR (n - 1)).
(** uvwindow.py:745-781 [get_kperp_bins] *)
Definition dk_bins (g : list R) : R := mean_step g * 5.
(** uvwindow.py:745-781 [get_kperp_bins] *)
Definition bins_of (d kmax : R) : list R :=
  let e := arange d (kmax + 10 * d) d in map (fun p => (fst p + snd p) / 2) (combine (tl e) (removelast e)).
(** uvwindow.py:745-781 [get_kperp_bins] *)
Definition maxl (l : list R) : R := fold_right Rmax (hd 0 l) l.
(** uvwindow.py:745-781 [get_kperp_bins] *)
Definition minl (l : list R) : R := fold_right Rmin (hd 0 l) l.
(** uvwindow.py:745-781 [get_kperp_bins] *)
Definition kperp_bins (kfac dk width : R) (lens : list R) : result (list R) :=
  match lens with
  | [] => Err ValueError
  | _ => bind (get_kgrid kfac dk width (minl lens)) (fun g => Ok (bins_of (dk_bins g) (kfac * maxl lens)))
  end.
