(** Model of uvwindow.py (exact window functions).  Exact real arithmetic; the interpolation of the beam onto the grid of
    (kperp_x, kperp_y) pixels (uvwindow.py:584-632, scipy) is an arbitrary real function of pixel and channel. *)
From Coq Require Import String.
From Coq Require Import Reals Lra.
From Verif Require Import Prelude CNum.
Open Scope R_scope.

(** ** check_spw_range, uvwindow.py:1424-1459; [n]: number of channels of the bandwidth, if given *)
Definition check_spw_range (r : list Z) (n : option nat) : bool :=
  match r with
  | [a; b] =>
      if (b - a <=? 0)%Z then false else if (Z.min a b <? 0)%Z then false
      else match n with Some m => negb (Z.of_nat m <? Z.max a b)%Z | None => true end
  | _ => false
  end.

(** ** FTBeam: frequencies and one map per frequency; FTBeam.update_spw, uvwindow.py:270-290 *)
Record ftbeam (A : Type) := mkft { ft_freq : list R; ft_data : list A; ft_pol : string; ft_map : R }.
Arguments mkft {A}. Arguments ft_freq {A}. Arguments ft_data {A}. Arguments ft_pol {A}. Arguments ft_map {A}.
(** uvwindow.py:270-290 *)
Definition update_spw {A} (r : list Z) (f : ftbeam A) : result (ftbeam A) :=
  require (check_spw_range r (Some (length (ft_freq f)))) ValueError (
  match r with
  | [a; b] => Ok (mkft (slice (Z.to_nat a) (Z.to_nat b) (ft_freq f)) (slice (Z.to_nat a) (Z.to_nat b) (ft_data f)) (ft_pol f) (ft_map f))
  | _ => Err ValueError
  end).
(** ** FTBeam.__init__, uvwindow.py:59-88: [nd], [s1], [s2] the number of axes and the two sky sizes of the array given *)
Inductive polarg := PolStr (s : string) | PolNum (z : Z) | PolOther.
(** uvwindow.py:59-88 *)
Definition str_in (s : string) (l : list string) : bool := existsb (String.eqb s) l.
(** uvwindow.py:59-88 *)
Definition polstr_ok (s : string) : bool := str_in s ["pI"; "pQ"; "pV"; "pU"; "xx"; "yy"; "xy"; "yx"]%string.
(** uvwindow.py:59-88 *)
Definition polnum_ok (z : Z) : bool := existsb (Z.eqb z) [1; 2; 4; 3; -5; -6; -7; -8]%Z.
(** uvwindow.py:21-88 *)
Definition new_ftbeam {A} (num2str : Z -> string) (nd s1 s2 : nat) (data : list A) (pol : polarg) (freqs : list R) (mapsize : R) : result (ftbeam A) :=
  require (Nat.eqb nd 3) ValueError (require (Nat.eqb s1 s2) ValueError (
  bind (match pol with
        | PolStr s => require (polstr_ok s) ValueError (Ok s)
        | PolNum z => require (polnum_ok z) ValueError (Ok (num2str z))
        | PolOther => Err TypeError end) (fun p =>
  require (Nat.eqb (length freqs) (length data)) ValueError (Ok (mkft freqs data p mapsize))))).

(** ** UVWindow.from_uvpspec, uvwindow.py:440-480: the beams of the two polarizations of a pair.
    [load pol]: the beam read from file for polarization [pol] over its whole bandwidth.
    Lines 446 and 478 compare characters [ip] and 0 of the polarization name itself; after the loop [pol] is the second name. *)
Definition char_at (i : nat) (s : string) : result Ascii.ascii := match String.get i s with Some c => Ok c | None => Err IndexError end.
(** uvwindow.py:440-480 *)
Definition same_chars (pol : string) : result bool :=
  bind (char_at 1 pol) (fun a => bind (char_at 0 pol) (fun b => Ok (if Ascii.ascii_dec a b then true else false))).
(** np.where(bandwidth >= freq0 - 1e-9)[0][0]; uvwindow.py:440-480 *)
Fixpoint first_ge (x : R) (l : list R) : option nat :=
  match l with [] => None | y :: l' => if Rle_dec x y then Some O else match first_ge x l' with Some i => Some (S i) | None => None end end.
(** uvwindow.py:390-488 *)
Definition window_beams {A} (load : string -> result (ftbeam A)) (pols : string * string) (freqs : list R) : result (ftbeam A * ftbeam A) :=
  bind (load (fst pols)) (fun f0 =>
  bind (same_chars (snd pols)) (fun shared =>
  bind (if shared then Ok f0 else load (snd pols)) (fun f1 =>
  match freqs with
  | [] => Err IndexError
  | x :: _ =>
      match first_ge (x - / 10 ^ 9) (ft_freq f0) with
      | None => Err IndexError
      | Some s =>
          let r := [Z.of_nat s; Z.of_nat (s + length freqs)] in
          bind (update_spw r f0) (fun g0 =>
          if shared then (* one and the same object, limited once *) Ok (g0, g0) else bind (update_spw r f1) (fun g1 => Ok (g0, g1)))
      end
  end))).
(** UVWindow.__init__, uvwindow.py:356-382 (the consistency checks of the two beams) *)
Definition req_list (a b : list R) : bool := if list_eq_dec Req_EM_T a b then true else false.
(** uvwindow.py:296-387 *)
Definition uvwindow_pols {A} (fs : ftbeam A * ftbeam A) : result (string * string) :=
  require (Nat.eqb (length (ft_freq (fst fs))) (length (ft_freq (snd fs)))) ValueError (
  require (req_list (ft_freq (fst fs)) (ft_freq (snd fs))) ValueError (
  require (if Req_EM_T (ft_map (fst fs)) (ft_map (snd fs)) then true else false) ValueError (
  Ok (ft_pol (fst fs), ft_pol (snd fs))))).

(** ** Means over masks, and numpy's arange; np.mean, uvwindow.py:674-743, 938-995 *)
Definition rsum (l : list R) : R := fold_right Rplus 0 l.
(** np.mean, uvwindow.py:674-743, 938-995 *)
Definition mean (l : list R) : R := rsum l / INR (length l).
(** np.arange, uvwindow.py:674-743, 834-995, 997-1109 *)
Definition rceil (x : R) : Z := (- Int_part (- x))%Z.
(** np.arange, uvwindow.py:674-743, 834-995, 997-1109 *)
Definition arange (start stop step : R) : list R := map (fun i => start + INR i * step) (seq 0 (Z.to_nat (rceil ((stop - start) / step)))).
(** A linearly spaced ascending array of bin centres k0, k0 + dk, ..., n of them; its edges as recomputed from min, max and mean
    difference in uvwindow.py:707-719, 899-926, 1069-1070 *)
Definition linspace (k0 dk : R) (n : nat) : list R := map (fun i => k0 + INR i * dk) (seq 0 n).
(** uvwindow.py:674-743, 834-995, 997-1109 *)
Definition bin_edges (k0 dk : R) (n : nat) : list R := arange (k0 - dk / 2) (k0 + INR (n - 1) * dk + dk) dk.
(** the mask [edges[m] <= k < edges[m+1]]; uvwindow.py:674-743, 938-965, 1080-1104 *)
Definition in_edges (edges : list R) (m : nat) (k : R) : bool :=
  if Rle_dec (nth m edges 0) k then if Rlt_dec k (nth (S m) edges 0) then true else false else false.
(** mean of the values whose key falls into bin m, 0 if there is none; uvwindow.py:674-743, 938-965 *)
Definition bin_mean {A} (edges : list R) (m : nat) (key value : A -> R) (l : list A) : R :=
  match filter (fun a => in_edges edges m (key a)) l with [] => 0 | s => mean (map value s) end.

(** ** _take_freq_FT, uvwindow.py:634-672.  fftshift moves entry i to i + n/2: out[i] = in[(i - n/2) mod n]; uvwindow.py:634-672 *)
Definition zmod_nat (z : Z) (n : nat) : nat := Z.to_nat (z mod Z.of_nat n).
(** uvwindow.py:634-672 *)
Definition fftshift {A} (n : nat) (x : nat -> A) (i : nat) : A := x (zmod_nat (Z.of_nat i - Z.of_nat (n / 2)) n).
(** uvwindow.py:634-672 *)
Definition fft (n : nat) (x : nat -> R) (k : nat) : C := csum n (fun j => RtoC (x j) * Cexpi (- (2 * PI * INR k / INR n * INR j)))%C.
(** uvwindow.py:634-672 *)
Definition freq_FT (n : nat) (taper : nat -> R) (dnu : R) (x : nat -> R) : nat -> C :=
  fftshift n (fun k => (fft n (fftshift n (fun j => (x j * taper j)%R)) k * RtoC (/ sqrt (INR n)) * RtoC (sqrt dnu))%C).

(** ** get_cylindrical_wf, uvwindow.py:938-995 *)
Section Cyl.
Variable P : Type.
Variables (pixels : list P) (kperp_norm : P -> R) (beam0 beam1 : P -> nat -> R).
Variables (n : nat) (taper : nat -> R) (dnu : R) (kperp_edges kpara_edges : list R) (nperp npara : nat).
(** uvwindow.py:952-964 the average over the sky plane *)
Definition wf_array1 (m i : nat) : R :=
  bin_mean kperp_edges m kperp_norm (fun p => re (Cconj (freq_FT n taper dnu (beam1 p) i) * freq_FT n taper dnu (beam0 p) i)%C) pixels.
End Cyl.
(** Delays and their Fourier duals in units of the delay resolution: entry i of fftshift(fftfreq(n)) * n (utils.py:544-569, uvwindow.py:727) *)
Definition dly (n i : nat) : R := INR i - INR (n / 2).
Section Para.
(** kfac: |2 pi / alpha| times the delay resolution; w1: the sky-averaged array *)
Variables (n : nat) (kfac : R) (w1 : nat -> nat -> R) (edges : list R).
(** _get_wf_for_tau, uvwindow.py:674-743 *)
Definition wf_for_tau (tau : R) (j m : nat) : R := bin_mean edges m (fun e => Rabs (kfac * (dly n e + tau))) (fun e => w1 j e) (seq 0 n).
(** uvwindow.py:966-984: the first half, the mirrored half and the row at 3/4 (before normalisation) *)
Definition first_half (i : nat) : nat -> nat -> R := wf_for_tau (dly n i).
(** uvwindow.py:966-984 *)
Definition mirror (i : nat) : nat :=
  if Nat.even n then (* dest n/2+1+q takes flipped row n/2+q *) (n - 1 - (n / 2 + (i - (n / 2 + 1))))%nat
  else (n - 1 - (n / 2 + 1 + (i - (n / 2 + 1))))%nat.
(** uvwindow.py:966-984 *)
Definition cyl_rows (i : nat) : nat -> nat -> R :=
  if Nat.eqb i (n - n / 4) then wf_for_tau (- dly n (n / 4))
  else if Nat.leb i (n / 2) then first_half i else first_half (mirror i).
(** uvwindow.py:982-984: the assignment to row n - n/4 of an array of n rows *)
Definition cylindrical_raw : result (nat -> nat -> nat -> R) := require (Nat.ltb (n - n / 4) n) IndexError (Ok cyl_rows).
End Para.
(** uvwindow.py:986-988 normalisation of each delay row over the cells *)
Definition normalise (s x : R) : R := if Req_EM_T s 0 then x else x / s.
(** uvwindow.py:986-988 *)
Definition row_total (nperp npara : nat) (r : nat -> nat -> R) : R := rsum (map (fun j => rsum (map (r j) (seq 0 npara))) (seq 0 nperp)).
(** uvwindow.py:986-988 *)
Definition normalised (nperp npara : nat) (r : nat -> nat -> R) : nat -> nat -> R := fun j m => normalise (row_total nperp npara r) (r j m).

(** ** get_kpara_bins, uvwindow.py:783-832, for n channels; k1: kpara per delay resolution *)
Definition kpara_bins (k1 : R) (n : nat) : list R :=
  let e := arange (k1 / 2) (k1 * INR (n / 2) + 10 * k1) k1 in
  map (fun p => (fst p + snd p) / 2) (combine (tl e) (removelast e)).

(** ** cylindrical_to_spherical, uvwindow.py:1061-1109.  An entry is one baseline length and delay: its |k|, the weight of the
    baseline, its cylindrical window function over the cells (kperp, kpara); ktot: |k| of each cell. *)
Section Sph.
Variables (Cell : Type) (cells : list Cell) (ktot : Cell -> R).
(** uvwindow.py:997-1109 *)
Record entry := mkentry { ekmag : R; ewt : R; ewf : Cell -> R }.
(** uvwindow.py:997-1109 *)
Definition wf_temp (es : list entry) (c : Cell) : R := rsum (map (fun e => ewf e c * ewt e) es) / rsum (map ewt es).
(** uvwindow.py:997-1109 *)
Definition sph_row (edges : list R) (nb : nat) (es : list entry) (m1 : nat) : nat -> R :=
  match filter (fun e => in_edges edges m1 (ekmag e)) es with
  | [] => fun _ => 0
  | sel => if Rlt_dec 0 (rsum (map (wf_temp sel) cells)) then
             let raw := fun m => bin_mean edges m ktot (wf_temp sel) cells in
             let s := rsum (map raw (seq 0 nb)) in fun m => normalise s (raw m)
           else fun _ => 0
  end.
End Sph.
Arguments mkentry {Cell}. Arguments ekmag {Cell}. Arguments ewt {Cell}. Arguments ewf {Cell}.
Arguments wf_temp {Cell}. Arguments sph_row {Cell}.

(** ** check_kunits, uvwindow.py:1407-1421, and the use of [.value]: a unit is (little h power, scale in 1/Mpc); uvwindow.py:1407-1421 *)
Record kunit := mkunit { hpow : Z; mpc_scale : R }.
(** uvwindow.py:1407-1421 (and the callers 834-1287) *)
Definition check_kunits (little_h : bool) (u : option kunit) : result unit :=
  match u with
  | None => Err AttributeError
  | Some u => require (Z.eqb (hpow u) (if little_h then 1 else 0)) ValueError (Ok tt)
  end.
(** uvwindow.py:1407-1421 (and the callers 834-1287) *)
Definition used_kbins (little_h : bool) (u : option kunit) (values : list R) : result (list R) :=
  bind (check_kunits little_h u) (fun _ => Ok values).

(** ** run_and_write, uvwindow.py:1289-1405, as an effect on one file: [None] absent. [compute] stands for everything between the
    check of the output (1325-1330) and the writing of the file (1374-1405). *)
Inductive clob := CTrue | CFalse | COther.
(** uvwindow.py:1289-1405 *)
Definition run_and_write {A} (clobber : clob) (compute : result A) (file : option A) : option A * option pyerr :=
  let go f := match compute with Ok a => (Some a, None) | Err e => (f, Some e) end in
  match file, clobber with
  | Some _, CFalse => (file, Some OSError)
  | Some _, CTrue => go None
  | _, _ => go file
  end.

(** ** get_exact_window_functions, uvpspec.py:2183-2344, for one spectral window and polarization pair: rows are the
    baseline-pair-times, [groups] the redundant groups with their lengths, [wf] the function of a length (ndly rows each). *)
Section Exact.
Variable W : Type.
(** uvpspec.py:2183-2344 *)
Definition exact_rows (zero : W) (wf : R -> W) (groups : list (list Z)) (lens : list R) (rows : list Z) : list W :=
  fold_left (fun acc gl => map (fun p => if existsb (Z.eqb (fst p)) (fst gl) then wf (snd gl) else snd p) (combine rows acc))
            (combine groups lens) (repeat zero (length rows)).
(** shape assignment uvpspec.py:2311-2314: window functions have one row per channel, the array one per delay *)
Definition exact_ok (nfreqs ndlys : nat) : result unit := require (Nat.eqb nfreqs ndlys) ValueError (Ok tt).
End Exact.
Arguments exact_rows {W}.
(** uvpspec.py:2246-2254: whether the object is modified *)
Definition exact_inplace (own : list Z) (asked : option (list Z)) (inplace : bool) : bool :=
  match asked with None => inplace | Some l => if list_eq_dec Z.eq_dec l own then inplace else false end.
