(** Model of the time selections of [pspec_run] (pspecdata.py:5019-5054, interleave_times) and of
    [PSpecData.trim_dset_lsts] (pspecdata.py:4457-4497).
    A dataset is its list of rows (baseline-times): time, LST and an identity of the row (baseline, data, ...).
    Times and LSTs are integers (any unit). [UVData.select(times=...)] is pyuvdata's: it keeps the rows whose time
    is listed, in order, and refuses an empty selection (ValueError). *)
From Verif Require Import Prelude CombineModel.
Open Scope Z_scope.

Record row := mkrow { rtime : Z; rlst : Z; rid : Z }.
(** UVData.select(times=...) as used at pspecdata.py:5019-5057 [pspec_run], 4497 [trim_dset_lsts] *)
Definition dset := list row.

(** UVData.select(times=...) as used at pspecdata.py:5019-5057 [pspec_run], 4497 [trim_dset_lsts] *)
Definition memz (x : Z) (l : list Z) : bool := existsb (Z.eqb x) l.
(** UVData.select(times=...) as used at pspecdata.py:5019-5057 [pspec_run], 4497 [trim_dset_lsts] *)
Definition select_times (ts : list Z) (d : dset) : result dset :=
  require (match ts with [] => false | _ => true end) ValueError (Ok (filter (fun r => memz (rtime r) ts) d)).

(** [np.unique(dset.time_array)] and [Ntimes], the number of distinct times; pspecdata.py:5019-5057 [pspec_run] *)
Definition utimes (d : dset) : list Z := sorted_set Z.eq_dec Z.leb (map rtime d).
(** [l[s:n:2]]; pspecdata.py:5019-5057 [pspec_run] *)
Fixpoint every2 {A} (l : list A) : list A :=
  match l with [] => [] | [x] => [x] | x :: _ :: l' => x :: every2 l' end.
(** pspecdata.py:5019-5057 [pspec_run] *)
Definition slice2 {A} (s n : nat) (l : list A) : list A := every2 (skipn s (firstn n l)).

(** pspecdata.py:5020-5054: [ds] are the datasets after loading, [std] the (optional) standard-deviation datasets;
    the result is the two new datasets, the new std datasets, and the dataset pairs *)
Definition interleave (ds : list dset) (std : list (option dset)) : result (list dset * list (option dset) * list (Z * Z)) :=
  match ds with
  | [d] =>
      let nt := length (utimes d) in
      let n := (nt - nt mod 2)%nat in
      bind (select_times (slice2 1 n (utimes d)) d) (fun d1 =>
      bind (select_times (slice2 0 n (utimes d)) d) (fun d0 =>
      match std with
      | None :: rest => Ok ([d0; d1], std ++ [None], [(0, 1)])
      | Some s :: rest =>
          bind (select_times (slice2 1 n (utimes s)) s) (fun s1 =>
          bind (select_times (slice2 0 n (utimes s)) s) (fun s0 =>
          Ok ([d0; d1], (Some s0 :: rest) ++ [Some s1], [(0, 1)])))
      | [] => Err IndexError
      end))
  | _ => Err ValueError
  end.

(** pspecdata.py:4471-4479: the test of the LST grids is a parameter here ([same_grid6] below is the code's, for the
    default lst_tol = 6), and so is the text of an LST with lst_tol decimals *)
Section Trim.
Variable same_grid : list dset -> bool.
Variable fmt : Z -> Z.
(** 4481-4490: the LSTs of the first dataset, intersected with those of every other *)
Definition common_lsts (ds : list dset) : list Z :=
  match ds with
  | [] => []
  | d :: l => fold_left (fun c d' => filter (fun k => memz k (map (fun r => fmt (rlst r)) d')) c) l (map (fun r => fmt (rlst r)) d)
  end.
(** 4492-4497 *)
Definition trim_one (common : list Z) (d : dset) : result dset :=
  let keep := fun r => memz (fmt (rlst r)) common in
  if forallb keep d then Ok d
  else select_times (map rtime (filter keep d)) d.
(** pspecdata.py:4457-4497 [trim_dset_lsts] *)
Definition trim_dset_lsts (ds : list dset) : result (list dset) :=
  require (same_grid ds) ValueError (map_res (trim_one (common_lsts ds)) ds).
End Trim.

(** ["{:0.6f}".format(lst)], LSTs in units of 1e-9 radians: rounding to the nearest multiple of 1000, ties to even *)
Definition fmt6 (l : Z) : Z :=
  let q := l / 1000 in let r := l mod 1000 in
  if r <? 500 then q else if 500 <? r then q + 1 else if Z.even q then q else q + 1.

(** [np.diff]; pspecdata.py:4457-4497 [trim_dset_lsts] *)
Fixpoint diffs (l : list Z) : list Z :=
  match l with x :: (y :: _) as l' => (y - x) :: diffs l' | _ => [] end.
(** twice [np.median] ([None]: nan, of an empty array); pspecdata.py:4457-4497 [trim_dset_lsts] *)
Definition median2 (l : list Z) : option Z :=
  let s := isort Z.leb l in let n := length l in
  match n with
  | O => None
  | _ => Some (if Nat.even n then nth (n / 2 - 1) s 0 + nth (n / 2) s 0 else 2 * nth (n / 2) s 0)
  end.
(** 4472, 4474: [np.median(np.diff(np.unique(dset.lst_array)))], doubled *)
Definition dlst2 (d : dset) : option Z := median2 (diffs (sorted_set Z.eq_dec Z.leb (map rlst d))).
(** 4475: [np.isclose(dlst, _dlst, atol=1e-6/Ntimes)], with numpy's default rtol = 1e-5: LSTs in units of 1e-9 radians,
    |a - b| <= 1000/Ntimes + 1e-5 |b|, multiplied by 2e5 Ntimes; nan is close to nothing *)
Definition close_dlst (a b : option Z) (ntimes : Z) : bool :=
  match a, b with
  | Some a, Some b => 100000 * ntimes * Z.abs (a - b) <=? 200000000 + ntimes * Z.abs b
  | _, _ => false
  end.
(** 4471-4480 *)
Definition same_grid6 (ds : list dset) : bool :=
  match ds with
  | [] => true
  | d0 :: _ => forallb (fun d => close_dlst (dlst2 d0) (dlst2 d) (Z.of_nat (length (utimes d)))) ds
  end.
