(** Model of [spherical_average] (grouping.py:710-1180) over the real numbers, for one spectral
    window, one time and one polarization: matrices are functions of their indices with explicit
    dimensions. Double-precision rounding is not modelled. [np.linalg.pinv] is the parameter
    [pinv]; what is assumed of it is stated in the theorems ([pinv_diagonal]). *)
From Coq Require Import Reals.
From Verif Require Import Prelude CombineModel.
Open Scope R_scope.

(** [np.sum] over an axis of length [n]; numpy sums, arrays and products of grouping.py:710-1180 *)
Fixpoint sum (n : nat) (f : nat -> R) : R := match n with O => 0 | S m => sum m f + f m end.

(** numpy sums, arrays and products of grouping.py:710-1180 *)
Definition matrix := nat -> nat -> R.
(** numpy sums, arrays and products of grouping.py:710-1180 *)
Definition mmul (n : nat) (a b : matrix) : matrix := fun i j => sum n (fun k => a i k * b k j).

(** bin centre and width; grouping.py:830-831 *)
Record kbin := mkbin { centre : R; width : R }.
(** grouping.py:830-831 *)
Definition left_edge (b : kbin) : R := centre b - width b / 2.
(** grouping.py:830-831 *)
Definition right_edge (b : kbin) : R := centre b + width b / 2.

(** grouping.py:1026-1030 [(kbin_left < kmag) & (kbin_right >= kmag)], then [np.where(kind)[0][0]] *)
Definition in_bin (b : kbin) (k : R) : bool := if Rlt_dec (left_edge b) k then if Rle_dec k (right_edge b) then true else false else false.
(** grouping.py:1026-1030 *)
Fixpoint bin_index_from (i : nat) (bins : list kbin) (k : R) : option nat :=
  match bins with [] => None | b :: bins' => if in_bin b k then Some i else bin_index_from (S i) bins' k end.
(** grouping.py:1026-1030 *)
Definition bin_index := bin_index_from 0.

(** grouping.py:957 *)
Definition kmag (kperp kpara : R) : R := sqrt (kperp ^ 2 + kpara ^ 2).

Section Sph.
Variable bins : list kbin.
(** numbers of baseline-pairs and delays; the mode [(b, d)] has index [b * Nd + d] *)
Variables Nb Nd : nat.
Variables kperp kpara : nat -> R.
(** grouping.py:952-970 *)
Definition Nk := length bins.
(** grouping.py:952-970 *)
Definition Nm := (Nb * Nd)%nat.
(** grouping.py:952-970 *)
Definition mode_k (i : nat) : R := kmag (kperp (i / Nd)) (kpara (i mod Nd)).

(** grouping.py:1025-1032: the design matrix *)
Definition A : matrix := fun i k => match bin_index bins (mode_k i) with Some j => if Nat.eqb j k then 1 else 0 | None => 0 end.

(** the weight matrix E, (Ndlyblps, Ndlys): grouping.py:1009-1015 (uniform; [flagged b]: integration
    time times number of samples is 0) and 1000-1006 (1 / error^2) *)
Definition diagE (w : nat -> R) : matrix := fun i d => if Nat.eqb d (i mod Nd) then w i else 0.
(** grouping.py:1000-1015 *)
Definition w_uniform (flagged : nat -> bool) (i : nat) : R := if flagged (i / Nd)%nat then 0 else 1.
(** grouping.py:1000-1015 *)
Definition tiny : R := / IZR (10 ^ 40).
(** grouping.py:1000-1015 *)
Definition w_error (stat : nat -> R) (i : nat) : R := 1 / Rmax tiny (stat i ^ 2).

(** grouping.py:1061-1069: E is block diagonal, so that block b of E A is (block b of E) (block b of A) *)
Definition EA (E : matrix) : matrix := fun i k => sum Nd (fun d => E i d * A (i / Nd * Nd + d)%nat k).
(** grouping.py:1070 [A.T E A] *)
Definition gram (E : matrix) : matrix := fun k l => sum Nm (fun i => A i k * EA E i l).
Variable pinv : nat -> matrix -> matrix.
(** grouping.py:1071 *)
Definition H (E : matrix) : matrix := mmul Nk (EA E) (pinv Nk (gram E)).
(** grouping.py:1074-1078 *)
Definition sph_data (E : matrix) (data : nat -> R) (k : nat) : R := sum Nm (fun i => H E i k * data i).

(** grouping.py:1088-1102, one statistic (finite values): [np.isclose(x, 0)] is [|x| <= 1e-8] *)
Definition huge : R := IZR (10 ^ 40).
(** grouping.py:1088-1102 *)
Definition clip_sq (s : R) : R := Rmin huge (Rmax 0 (s ^ 2)).
(** grouping.py:1088-1102 *)
Definition sph_stat (E : matrix) (stat : nat -> R) (k : nat) : R :=
  let v := sqrt (sum Nm (fun i => H E i k * clip_sq (stat i) * H E i k)) in
  if Rle_dec (Rabs v) (/ IZR (10 ^ 8)) then huge else v.

(** grouping.py:1104-1110: covariance, block diagonal in the baseline-pairs (lines 986-989) *)
Definition sph_cov (E : matrix) (cov : matrix) : matrix := fun k l =>
  sum Nm (fun i => sum Nm (fun j => H E i k * (if Nat.eqb (i / Nd) (j / Nd) then Rmax (- huge) (Rmin huge (cov i j)) else 0) * H E j l)).

(** grouping.py:1016-1021 and 1050: trace of the block of one baseline-pair; the sum is divided by
    [np.trace] of the whole (Ndlyblps, Ndlys) array, that is, of its first [min(Nm, Nd)] diagonal entries *)
Definition Emean (E : matrix) (b : nat) : R := sum Nd (fun d => E (b * Nd + d)%nat d).
(** grouping.py:1016-1021 and 1050 (trace of the noise-weighted design product used for the integration time) *)
Definition trace (E : matrix) : R := sum (Nat.min Nm Nd) (fun i => E i i).
(** grouping.py:1016-1021 and 1050 *)
Definition sph_integration (E : matrix) (ints : nat -> R) : R :=
  sum Nb (fun b => ints b * Emean E b) / Rmax tiny (trace E).

(** grouping.py:1034-1044: the design matrix of the window functions: one matrix for all
    baseline-pairs, filled by each of them *)
Variable kpara_f : nat -> R.
(** grouping.py:1034-1044 *)
Definition Aw : matrix := fun f k =>
  if existsb (fun b => match bin_index bins (kmag (kperp b) (kpara_f f)) with Some j => Nat.eqb j k | None => false end) (seq 0 Nb) then 1 else 0.
(** grouping.py:1080-1086 *)
Definition sph_window (E : matrix) (Nf : nat) (W : matrix) : matrix := fun k l =>
  sum Nf (fun f => sum Nm (fun i => H E i k * W i f) * Aw f l).
End Sph.

(** * metadata, grouping.py:1145-1170: rows (blpair, time, lst) of the input; the data arrays have one row per
    row of the first baseline-pair (Ntimes, line 899-901), or a single row after a time average (lines 834-843) *)
Open Scope Z_scope.
Definition irow : Type := Z * Z * Z.
(** columns of the input's blpair-time arrays read at grouping.py:1145-1148 *)
Definition r_blp (r : irow) : Z := fst (fst r).
(** grouping.py:1145-1148 *)
Definition r_time (r : irow) : Z := snd (fst r).
(** grouping.py:1145-1148 *)
Definition r_lst (r : irow) : Z := snd r.
(** grouping.py:1145-1148 *)
Definition first_rows (rows : list irow) : list irow :=
  match rows with [] => [] | r0 :: _ => filter (fun r => Z.eqb (r_blp r) (r_blp r0)) rows end.
(** numbers of data rows; grouping.py:834-843, 899-901 *)
Definition sph_data_rows (time_avg : bool) (rows : list irow) : nat := if time_avg then 1%nat else length (first_rows rows).
(** [np.unique(uvp_in.time_avg_array)], [np.unique(uvp_in.lst_avg_array)]; grouping.py:1145-1170 *)
Definition sph_times (rows : list irow) : list Z := sorted_set Z.eq_dec Z.leb (map r_time rows).
(** grouping.py:1145-1170 *)
Definition sph_lsts (rows : list irow) : list Z := sorted_set Z.eq_dec Z.leb (map r_lst rows).
