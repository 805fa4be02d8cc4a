(** Model of [UVPSpec.set_stats], [get_stats] (unfolded), [set_stats_slice] (uvpspec.py:1066-1181) and of the error estimates of
    [grouping.bootstrap_resampled_error] (grouping.py:1887-1914; not the biweight variance), in exact arithmetic. *)
From Coq Require Import String.
From Coq Require Import Reals Lra.
From Flocq Require Import Core.
From Verif Require Import PyDict.
From Verif Require Import Prelude CNum CovqModel.
Open Scope R_scope.

(** ** statistics arrays.  Values of window, row, delay, polarization; None: nan.  [st_cplx]: the dtype of the array is complex; the stats_array dictionary of uvpspec.py:1066-1181 *)
Record stat := mkstat { st_cplx : bool; st_val : nat -> nat -> nat -> nat -> option C }.
(** the stats_array dictionary of uvpspec.py:1066-1181 *)
Definition stats := list (string * stat).
Section Stats.
(** number of delays of a window *)
Context (nd : nat -> nat).
(** assignment into an array of this dtype (numpy drops imaginary parts with a warning); the stats_array dictionary of uvpspec.py:1066-1181 *)
Definition cast (cplx : bool) (z : C) : C := if cplx then z else RtoC (re z).
(** the stats_array dictionary of uvpspec.py:1066-1181 *)
Fixpoint index_in (t : nat) (rows : list nat) : option nat :=
  match rows with [] => None | r :: rows' => if Nat.eqb t r then Some 0%nat else option_map S (index_in t rows') end.
(** the stats_array dictionary of uvpspec.py:1066-1181 *)
Definition assign (a : stat) (spw : nat) (rows : list nat) (pol : nat) (v : nat -> nat -> C) : stat :=
  mkstat (st_cplx a) (fun w t d p =>
    if (Nat.eqb w spw && Nat.eqb p pol && Nat.ltb d (nd spw))%bool
    then match index_in t rows with Some i => Some (cast (st_cplx a) (v i d)) | None => st_val a w t d p end
    else st_val a w t d p).
(** uvpspec.py:1106-1141.  [spw], [rows], [pol]: what key_to_indices makes of the key (C08); [shape], [cplx]: of the array fed *)
Definition set_stats (S : stats) (name : string) (spw : nat) (rows : list nat) (pol : nat) (shape : nat * nat) (cplx : bool) (v : nat -> nat -> C) : result stats :=
  require (Nat.eqb (fst shape) (length rows) && Nat.eqb (snd shape) (nd spw)) ValueError
    (let a := match dget string_dec S name with Some a => a | None => mkstat cplx (fun _ _ _ _ => None) end in
     Ok (dset string_dec S name (assign a spw rows pol v))).
(** uvpspec.py:1066-1104 *)
Definition get_stats (S : stats) (name : string) (spw : nat) (rows : list nat) (pol : nat) : result (nat -> nat -> option C) :=
  match dget string_dec S name with
  | None => Err AssertionError
  | Some a => Ok (fun i d => match nth_error rows i with Some t => st_val a spw t d pol | None => None end)
  end.
(** ** set_stats_slice, uvpspec.py:1143-1181 *)
Context (dly : nat -> nat -> R) (bllen : nat -> R).
(** uvpspec.py:1145-1181 [set_stats_slice] *)
Definition mean (l : list R) : R := fold_right Rplus 0 l / INR (length l).
(** uvpspec.py:1145-1181 [set_stats_slice] *)
Definition sel_dly (above : bool) (m b len : R) (d : R) : bool :=
  if above then (if Rgt_dec (Rabs (d * 10 ^ 9)) (len * m + b) then true else false) else (if Rlt_dec (Rabs (d * 10 ^ 9)) (len * m + b) then true else false).
(** uvpspec.py:1145-1181 [set_stats_slice] *)
Definition slice_one (m b : R) (above : bool) (val : R) (a : stat) (wb : nat * list nat) : stat :=
  mkstat (st_cplx a) (fun w t d p => if (Nat.eqb w (fst wb) && (if in_dec Nat.eq_dec t (snd wb) then true else false) && sel_dly above m b (mean (map bllen (snd wb))) (dly w d))%bool
                                     then Some (RtoC val) else st_val a w t d p).
(** [blrows]: the rows of each baseline-pair; uvpspec.py:1145-1181 [set_stats_slice] *)
Definition set_stats_slice (nspw : nat) (blrows : list (list nat)) (S : stats) (name : string) (m b : R) (above : bool) (val : R) : result stats :=
  match dget string_dec S name with
  | None => Err AssertionError
  | Some a => Ok (dset string_dec S name (fold_left (slice_one m b above val) (list_prod (seq 0 nspw) blrows) a))
  end.
End Stats.

(** ** error estimates *)
(** np.std; grouping.py:1887-1914 [bootstrap_resampled_error] *)
Definition stdR (l : list R) : R := sqrt (mean (map (fun x => (x - mean l) ^ 2) l)).
(** np.percentile, linear interpolation; grouping.py:1887-1914 [bootstrap_resampled_error] *)
Definition interp (s : list R) (t : R) : R :=
  let i := Z.to_nat (Zfloor t) in nth i s 0 + (t - IZR (Zfloor t)) * (nth (Nat.min (i + 1) (length s - 1)) s 0 - nth i s 0).
(** grouping.py:1887-1914 [bootstrap_resampled_error] *)
Definition percentile (l : list R) (q : R) : R := interp (sortR l) (INR (length l - 1) * (q / 100)).
(** f"bs_cinterval_{ci:05.2f}": the number of hundredths *)
Definition tag (ci : R) : Z := ZnearestE (ci * 100).
(** grouping.py:1907-1914, one real value per sample *)
Definition cint_stats (samples : list R) (cis : list R) (S : list (Z * R)) : list (Z * R) :=
  fold_left (fun S ci => dset Z.eq_dec S (tag ci) (percentile samples ci)) cis S.
