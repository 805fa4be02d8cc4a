(** Model of how [average_spectra] reads its [blpair_groups] (grouping.py:25-37, 262-307, 343-347), given as any Python value.
    Values are those of PlotModel.v (integers, tuples, lists, anything else); numpy arrays count as lists, numpy integers as integers.
    Not modelled here: the weights, which are those of AvgModel.v [effective_groups]; the vectors of the baselines (EnuModel.v). *)
From Coq Require Import ZArith.
From Verif Require Import Prelude UvpModel BlCodecModel PlotModel.
Open Scope nat_scope.

(** [isinstance(value, (list, tuple, np.ndarray))], with its items; grouping.py:26, 31 *)
Definition items (v : pv) : option (list pv) := match v with PTup l | PList l => Some l | _ => None end.
(** the loop of [_normalize_grouped_input]; grouping.py:30-37 *)
Fixpoint norm_groups (l : list pv) : result (list (list pv)) :=
  match l with
  | [] => Ok []
  | g :: l' =>
      match items g with
      | None => Err TypeError
      | Some [] => Err ValueError
      | Some es => bind (norm_groups l') (fun r => Ok (es :: r))
      end
  end.
(** grouping.py:25-37 [_normalize_grouped_input] *)
Definition normalize_grouped_input (v : pv) : result (list (list pv)) :=
  match items v with None => Err TypeError | Some l => norm_groups l end.

(** [v[i]]; other values are not subscriptable; uvpspec_utils.py:1000-1003 *)
Definition subscript (v : pv) (i : nat) : result pv :=
  match items v with Some l => match nth_error l i with Some x => Ok x | None => Err IndexError end | None => Err TypeError end.
(** [antnums[i][j] + 100], without the 100; uvpspec_utils.py:1000-1003 *)
Definition antenna (v : pv) (i j : nat) : result Z :=
  bind (subscript v i) (fun x => bind (subscript x j) (fun y => match y with PInt z => Ok z | _ => Err TypeError end)).
(** [uvp.antnums_to_blpair] of any value; uvpspec_utils.py:981-1008 *)
Definition value_to_blpair (v : pv) : result Z :=
  bind (antenna v 0 0) (fun a => bind (antenna v 0 1) (fun b => bind (antenna v 1 0) (fun c => bind (antenna v 1 1) (fun d =>
  Ok (antnums_to_blpair ((a, b), (c, d))))))).

(** the first entry of the first group decides whether all are converted; grouping.py:276-280 *)
Definition first_is_tuple (gs : list (list pv)) : bool := match gs with (PTup _ :: _) :: _ => true | _ => false end.
(** grouping.py:276-280 *)
Definition convert (gs : list (list pv)) : result (list (list pv)) :=
  if first_is_tuple gs then map_res (map_res (fun v => bind (value_to_blpair v) (fun z => Ok (PInt z)))) gs else Ok gs.

(** the baseline-pairs of the object, decoded and encoded; grouping.py:283 *)
Definition uvp_blpairs (barr : list Z) : list Z := map (fun b => antnums_to_blpair (blpair_to_antnums b)) (ordered_unique [] barr).
(** [uvp_blpairs.index(v)]: an integer equals nothing but an integer; grouping.py:285-287 *)
Definition known_first (barr : list Z) (g : list pv) : bool :=
  match g with PInt z :: _ => memZ z (uvp_blpairs barr) | _ => false end.
(** hashable: no list at any depth; grouping.py:304 *)
Fixpoint hashable (v : pv) : bool := match v with PList _ => false | PTup l => forallb hashable l | _ => true end.

(** the integers among the entries; grouping.py:303, 345 *)
Fixpoint entry_ints (l : list pv) : list Z := match l with [] => [] | PInt z :: l' => z :: entry_ints l' | _ :: l' => entry_ints l' end.

(** grouping.py:270-307, 343-347: the groups that are averaged, with their entries as they are. [order]: iteration over a Python set *)
Definition read_groups (barr : list Z) (exact_windows : bool) (order : list Z -> list Z) (v : option pv) (has_weights : bool) : result (list (list pv)) :=
  bind (match v with
        | Some v =>
            bind (normalize_grouped_input v) (fun gs => bind (convert gs) (fun gs =>
            require (forallb (known_first barr) gs) ValueError
            (require (negb (Nat.eqb (List.length gs) 0)) IndexError (Ok gs))))
        | None => if has_weights then Err ValueError else Ok (map (fun b => [PInt b]) (ordered_unique [] barr))
        end) (fun gs =>
  require (forallb hashable (concat gs)) TypeError
  (Ok (gs ++ if exact_windows then []
             else map (fun b => [PInt b]) (order (filter (fun b => negb (memZ b (entry_ints (concat gs)))) (ordered_unique [] barr)))))).
