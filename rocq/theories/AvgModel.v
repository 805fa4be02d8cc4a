(** Model of [average_spectra] (grouping.py:156-707) over the real numbers.

    Simplifications:
    - complex data are treated one component (real or imaginary) at a time, as the weights are
      real; double-precision rounding is not modelled;
    - [wgt_array], covariances and window functions are averaged by the same loops; they are not
      part of the averaged object here (the window functions have their own model below, the
      covariances and [wgt_array] theirs in AvgCovModel.v);
    - at most one statistic is stored, it is finite and it is not averaged here except through
      [error_weights]; the averaged error bar has its own model [avg_stat];
    - [bl_array], [bl_vecs] and the counters (Nbls, Ntpairs, ...) are not recomputed here (they
      are in AvgCovModel.v);
    - iterating over the Python set of left-over baseline-pairs (line 345) happens in an
      unspecified order: the parameter [order]. *)
From Coq Require Import Reals QArith.
From Verif Require Import PyDict.
From Verif Require Import Prelude UvpModel.
Open Scope nat_scope.

(** [np.sum] of a one-dimensional array; grouping.py:470, 547 *)
Fixpoint Rsum (l : list R) : R := match l with [] => 0%R | x :: l' => (x + Rsum l')%R end.

(** [x.clip(1e-40, np.inf)] *)
Definition tiny : R := (/ IZR (10 ^ 40))%R.
(** grouping.py:470, 547 *)
Definition clip (x : R) : R := Rmax tiny x.

(** numpy broadcasting along the delay axis: an array of length 1 is repeated; numpy broadcasting in grouping.py:465-551 *)
Definition bc (row : list R) (d : nat) : R :=
  match row with [x] => x | _ => nth d row 0%R end.
(** numpy broadcasting in grouping.py:465-551 *)
Definition bwidth (a b : list R) : nat := if Nat.eqb (length a) 1 then length b else length a.
(** numpy broadcasting in grouping.py:465-551 *)
Definition bop (f : R -> R -> R) (a b : list R) : list R :=
  map (fun d => f (bc a d) (bc b d)) (seq 0 (bwidth a b)).
(** numpy broadcasting in grouping.py:465-551 *)
Definition bmul := bop Rmult.
(** numpy broadcasting in grouping.py:465-551 *)
Definition bdiv := bop Rdiv.

(** [np.sum(rows, axis=0)]: all rows have the length of the first; numpy broadcasting in grouping.py:465-551 *)
Definition colsum (rows : list (list R)) : list R :=
  map (fun d => Rsum (map (fun r => nth d r 0%R) rows)) (seq 0 (length (hd [] rows))).

(** what is read for one baseline-pair: (Ntimes, Ndlys) data, (Ntimes, 1) integrations and
    numbers of samples, (Ntimes, 1) or (Ntimes, Ndlys) weights; grouping.py:415-423 *)
Record block := mkblock {
  b_data : list (list R);
  b_ints : list (list R);
  b_nsmp : list (list R);
  b_w : list (list R) }.

(** uvpspec.py:1066-1104 [get_stats] for the stored statistic *)
Definition get_stats (u : uvp R) (spw : nat) (blpair polpair : Z) : result (list (list R)) :=
  match u_stats u with
  | None => Err AttributeError
  | Some st =>
      bind (get_array (fun _ => st) u spw blpair polpair) (fun rows =>
      if u_folded u then
        let Ndlys := length (filter (Nat.eqb spw) (u_spw_dly_array u)) in
        Ok (map (from_neg (Ndlys - Ndlys / 2 - 1)) rows)
      else Ok rows)
  end.

(** grouping.py:460-466: [w = (ints * np.sqrt(nsmp)) ** 2] *)
Definition int_weight (ints nsmp : list R) : list R :=
  map (fun x => (x ^ 2)%R) (bmul ints (map sqrt nsmp)).
(** grouping.py:450-457: [w = 1 / (stat ** 2).clip(1e-40)] *)
Definition err_weight (stat : list R) : list R := map (fun e => (/ clip (e ^ 2))%R) stat.

(** grouping.py:413-466: read one baseline-pair *)
Definition fetch (u : uvp R) (spw : nat) (polpair : Z) (use_error_weights : bool) (blp : Z)
  : result block :=
  bind (get_array u_nsample u spw blp polpair) (fun nsmp =>
  bind (get_data u spw blp polpair) (fun data =>
  bind (get_array u_integration u spw blp polpair) (fun ints =>
  if use_error_weights then
    bind (get_stats u spw blp polpair) (fun st =>
    Ok (mkblock data ints nsmp (map err_weight st)))
  else Ok (mkblock data ints nsmp (map2 int_weight ints nsmp))))).

(** grouping.py:468-516: the time average of one baseline-pair *)
Definition time_average (b : block) : block :=
  let wsum := map clip (colsum (b_w b)) in
  mkblock [bdiv (colsum (map2 bmul (b_data b) (b_w b))) wsum]
          [bdiv (colsum (map2 bmul (b_ints b) (b_w b))) wsum]
          [colsum (b_nsmp b)]
          [colsum (b_w b)].

(** grouping.py:396-411: normalised relative weights of a group *)
Definition norm_weights (normalize : bool) (ws : list R) : result (list R) :=
  let norm := if normalize then Rsum ws else 1%R in
  if Rle_dec norm 0 then Err ValueError
  else Ok (map (fun w => (w * INR (length ws) / norm)%R) ws).

(** grouping.py:520 [range(int(wgt))]: truncation towards zero; nothing for negative numbers *)
Definition copies_of (w : R) : nat := Z.to_nat (Int_part w).

(** grouping.py:517-544: every baseline-pair repeated [int(weight)] times *)
Definition expand {A} (l : list (A * R)) : list A :=
  flat_map (fun bw => repeat (fst bw) (copies_of (snd bw))) l.

(** grouping.py:546-551: the weighted mean over the copies, one row per time.
    - no copies: [np.sum([], axis=0)] is a scalar and indexing it raises IndexError;
    - different numbers of rows: numpy refuses to build the array (ValueError). *)
Definition sum_row (f : block -> list (list R)) (cs : list block) (r : nat) : list R :=
  colsum (map (fun c => bmul (nth r (f c) []) (nth r (b_w c) [])) cs).
(** grouping.py:546-551 *)
Definition group_mean (cs : list block) : result block :=
  match cs with
  | [] => Err IndexError
  | c :: _ =>
      require (forallb (fun b => Nat.eqb (length (b_data b)) (length (b_data c))) cs) ValueError
      (let rows := seq 0 (length (b_data c)) in
       let wsum r := colsum (map (fun b => nth r (b_w b) []) cs) in
       Ok (mkblock
             (map (fun r => bdiv (sum_row b_data cs r) (map clip (wsum r))) rows)
             (map (fun r => bdiv (sum_row b_ints cs r) (map clip (wsum r))) rows)
             (map (fun r => colsum (map (fun b => nth r (b_nsmp b) []) cs)) rows)
             (map wsum rows)))
  end.

(** grouping.py:382-551: one group of baseline-pairs in one window and polarization *)
Definition average_group (u : uvp R) (time_avg normalize use_error_weights : bool)
    (spw : nat) (polpair : Z) (group : list Z) (ws : list R) : result block :=
  bind (norm_weights normalize ws) (fun nw =>
  bind (map_res (fetch u spw polpair use_error_weights) group) (fun blocks =>
  let blocks := if time_avg then map time_average blocks else blocks in
  group_mean (expand (combine blocks nw)))).

(** [np.moveaxis(per_pol, 0, -1)]: from [pol][row] to [row][pol]; grouping.py:605-608 *)
Definition moveaxis (per_pol : list (list (list R))) : arr R :=
  map (fun r => map (fun pd => nth r pd []) per_pol) (seq 0 (length (hd [] per_pol))).

(** grouping.py:607-608 [[:, 0, :]]: only the first bin is kept *)
Definition first_bin (rows : list (list R)) : list (list R) := map (firstn 1) rows.

(** grouping.py:366-608: all polarizations of one window *)
Definition average_spw (u : uvp R) (time_avg normalize use_error_weights : bool)
    (groups : list (list Z * list R)) (spw : nat) : result (arr R * arr R * arr R) :=
  bind (map_res (fun p =>
          bind (map_res (fun g => average_group u time_avg normalize use_error_weights spw p (fst g) (snd g)) groups)
               (fun bs => Ok (concat (map b_data bs), concat (map b_ints bs), concat (map b_nsmp bs))))
        (u_polpair_array u)) (fun pols =>
  Ok (moveaxis (map (fun x => fst (fst x)) pols),
      moveaxis (map (fun x => first_bin (snd (fst x))) pols),
      moveaxis (map (fun x => first_bin (snd x)) pols))).

(** grouping.py:270-288, 309-322 and 343-347: the groups that are averaged, with their weights. With an empty list of groups
    [get_bl_lens_angs] fails (utils.py:1212-1213); [blpair_groups=None] is the list of all baseline-pairs, each in a group of its own *)
Definition effective_groups (u : uvp R) (exact_windows : bool) (order : list Z -> list Z)
    (groups : list (list Z)) (weights : option (list (list R))) : result (list (list Z * list R)) :=
  require (forallb (fun g => negb (Nat.eqb (length g) 0)) groups) ValueError
  (require (forallb (fun g => memZ (hd 0%Z g) (u_blpair_array u)) groups) ValueError
  (require (negb (Nat.eqb (length groups) 0)) IndexError
  (bind (match weights with
         | None => Ok (map (fun g => map (fun _ => 1%R) g) groups)
         | Some ws =>
             require (forallb (fun w => negb (Nat.eqb (length w) 0)) ws) ValueError
             (require (Nat.leb (length groups) (length ws) &&
                       forallb (fun gw => Nat.eqb (length (fst gw)) (length (snd gw))) (combine groups ws)) ValueError
             (Ok ws))
         end) (fun ws =>
   let extra := if exact_windows then []
                else order (filter (fun b => negb (memZ b (concat groups))) (ordered_unique [] (u_blpair_array u))) in
   (* lines 346-347: both lists are extended; surplus weight lists shift the ones appended *)
   Ok (combine (groups ++ map (fun b => [b]) extra) (ws ++ map (fun _ => [1%R]) extra)))))).

(** time stamps: [np.mean], [utils.circular_average]; grouping.py:633-635 *)
Definition Qmean (l : list Q) : Q := (fold_right Qplus 0 l / inject_Z (Z.of_nat (length l)))%Q.

(** grouping.py:620-647: metadata rows of one group *)
Definition meta_rows (u : uvp R) (time_avg : bool) (mean : list Q -> Q) (f : uvp R -> list Q)
    (groups : list (list Z * list R)) : result (list Q) :=
  bind (map_res (fun g =>
          bind (blpair_to_indices u (hd 0%Z (fst g))) (fun idx =>
          bind (gather (f u) idx) (fun ts => Ok (if time_avg then [mean ts] else ts)))) groups)
       (fun l => Ok (concat l)).
(** grouping.py:632, 641 *)
Definition blpair_rows (u : uvp R) (time_avg : bool) (groups : list (list Z * list R)) : result (list Z) :=
  bind (map_res (fun g =>
          bind (blpair_to_indices u (hd 0%Z (fst g))) (fun idx =>
          Ok (if time_avg then [hd 0%Z (fst g)] else repeat (hd 0%Z (fst g)) (length idx)))) groups)
       (fun l => Ok (concat l)).

(** the windows that were averaged, as dictionaries; grouping.py:604-608 *)
Definition to_dict (l : list (arr R)) : list (nat * arr R) := combine (seq 0 (length l)) l.

(** grouping.py:156-707 *)
Definition average_spectra (u : uvp R) (exact_windows : bool) (order : list Z -> list Z)
    (circ : list Q -> Q) (time_avg normalize use_error_weights : bool)
    (groups : list (list Z)) (weights : option (list (list R))) : result (uvp R) :=
  bind (effective_groups u exact_windows order groups weights) (fun gs =>
  bind (map_res (average_spw u time_avg normalize use_error_weights gs) (seq 0 (u_Nspws u))) (fun spws =>
  bind (blpair_rows u time_avg gs) (fun blps =>
  bind (meta_rows u time_avg Qmean (@u_time_1_array R) gs) (fun t1 =>
  bind (meta_rows u time_avg Qmean (@u_time_2_array R) gs) (fun t2 =>
  bind (meta_rows u time_avg Qmean (@u_time_avg_array R) gs) (fun ta =>
  bind (meta_rows u time_avg circ (@u_lst_1_array R) gs) (fun l1 =>
  bind (meta_rows u time_avg circ (@u_lst_2_array R) gs) (fun l2 =>
  bind (meta_rows u time_avg circ (@u_lst_avg_array R) gs) (fun la =>
  Ok (mkuvp (u_folded u) (u_Nspws u) (u_spw_array u) (u_spw_freq_array u) (u_spw_dly_array u)
        (u_freq_array u) (u_dly_array u) (u_scalar_array u)
        blps t1 t2 ta l1 l2 la (u_bl_array u) (u_bl_vecs u) (u_polpair_array u)
        (to_dict (map (fun x => fst (fst x)) spws)) (u_wgt u)
        (to_dict (map (fun x => snd (fst x)) spws))
        (to_dict (map (fun x => snd x) spws))
        None None None (u_label_1_array u) (u_label_2_array u) (u_OmegaP u))))))))))).

(** * the averaged error bar and window function of one bin *)
(** grouping.py:563-568: [sqrt(sum(err^2 w^2) / (sum w)^2)]; values [np.isclose] to 0 (below
    1e-8) become infinite (None). [l] holds the (error, weight) pairs of all copies. *)
Definition avg_stat (l : list (R * R)) : option R :=
  let v := (Rsum (map (fun ew => Rmin (fst ew ^ 2) (IZR (10 ^ 40)) * snd ew ^ 2)%R l)
            / clip (Rsum (map snd l)) ^ 2)%R in
  if Rle_dec (Rabs v) (/ IZR (10 ^ 8)) then None else Some (sqrt v).

(** grouping.py:569-575: one row of the averaged window function; divided by the summed weights
    only when the window functions are not exact *)
Definition avg_window (exact : bool) (l : list (list R * R)) : list R :=
  let s := colsum (map (fun rw => map (fun x => (x * snd rw)%R) (fst rw)) l) in
  if exact then s else map (fun x => (x / clip (Rsum (map snd l)))%R) s.
