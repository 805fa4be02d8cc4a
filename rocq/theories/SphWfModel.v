(** Model of [spherical_wf_from_uvp] (grouping.py:1183-1418) in exact arithmetic, from the averaged object on.
    Not modelled: [average_spectra] itself (AvgModel; the order of its rows is used in the properties), warnings, the lengths of the
    groups (given, one per group), and groups that share their first baseline-pair (numpy refuses these arrays unless no mode falls
    into any bin). *)
From Coq Require Import Reals.
From Verif Require Import Prelude WinModel.
Open Scope R_scope.

(** ** the bin edges, grouping.py:1259-1294.  [np.asarray(value, dtype=float)] is the caller's array itself if this has that type
    already, otherwise a new one; [*=] and [/=] change the array in place *)
Record edge_arg := mkedge { e_values : list R; e_float : bool }.
(** the value of the theory argument: absent, an array of its own, or the very array given as kbin_edges; grouping.py:1259-1294 [spherical_wf_from_uvp] *)
Inductive theory_arg := TNone | TOwn (e : edge_arg) | TSame.
(** edges used for the modes and for the cells, and the caller's arrays afterwards; grouping.py:1259-1294 [spherical_wf_from_uvp] *)
Record edges_out := mkout { used : list R; used_theory : list R; caller : list R; caller_theory : option (list R) }.
(** grouping.py:1259-1294 [spherical_wf_from_uvp] *)
Definition edge_units (little_h norm_h : bool) (h : R) (k : edge_arg) (t : theory_arg) : edges_out :=
  let f := if Bool.eqb little_h norm_h then (fun x => x) else if little_h then (fun x => x * h) else (fun x => x / h) in
  let own (e : edge_arg) := if e_float e then map f (e_values e) else e_values e in
  match t with
  | TNone => mkout (map f (e_values k)) (map f (e_values k)) (own k) None
  | TOwn e => mkout (map f (e_values k)) (map f (e_values e)) (own k) (Some (own e))
  | TSame =>
      if e_float k then let both := map (fun x => f (f x)) (e_values k) in mkout both both both (Some both)
      else mkout (map f (e_values k)) (map f (e_values k)) (e_values k) (Some (e_values k))
  end.
(** grouping.py:1297-1298: [np.all(np.diff(e) > 0)] *)
Fixpoint ascending (e : list R) : bool :=
  match e with x :: ((y :: _) as r) => (if Rlt_dec x y then true else false) && ascending r | _ => true end.

(** ** one row of the window function, grouping.py:1388-1413.  A mode is a (group, delay): its |k| and its cylindrical window
    function over the cells (k_perp, k_para); [ktot]: |k| of the cells.  [np.divide] with [where=False] and no [out] returns an
    uninitialised array: its contents are [junk]. *)
Section Row.
Variables (Cell : Type) (cells : list Cell) (ktot : Cell -> R).
(** grouping.py:1388-1413 [spherical_wf_from_uvp] *)
Record mode := mkmode { m_k : R; m_wf : Cell -> R }.
(** grouping.py:1388-1413 [spherical_wf_from_uvp] *)
Definition avg_wf (sel : list mode) (c : Cell) : R := rsum (map (fun e => m_wf e c) sel) / INR (length sel).
(** grouping.py:1388-1413 [spherical_wf_from_uvp] *)
Definition wf_row (edges tedges : list R) (junk : nat -> R) (ms : list mode) (m1 : nat) : nat -> R :=
  match filter (fun e => in_edges edges m1 (m_k e)) ms with
  | [] => fun _ => 0
  | sel =>
      if Rlt_dec 0 (rsum (map (avg_wf sel) cells)) then
        let raw := fun m => bin_mean tedges m ktot (avg_wf sel) cells in
        let s := rsum (map raw (seq 0 (length tedges - 1))) in
        if Req_EM_T s 0 then junk else fun m => raw m / s
      else fun _ => 0
  end.
End Row.
Arguments mkmode {Cell}. Arguments m_k {Cell}. Arguments m_wf {Cell}. Arguments avg_wf {Cell}. Arguments wf_row {Cell}.

(** ** one spectral window of the averaged object, grouping.py:1356-1387.  Cells are pairs of bin numbers *)
Definition cell : Type := nat * nat.
(** grouping.py:1356-1413 [spherical_wf_from_uvp] *)
Record wwin := mkwwin {
  x_rows : nat;                             (* rows of window_function_array *)
  x_kperps : list R;                        (* k_perp of each group *)
  x_kparas : list R;                        (* k_para of each delay *)
  x_npols : nat;
  x_kperp_bins : nat -> list R;             (* of each polarization *)
  x_kpara_bins : nat -> list R;
  x_wf : nat -> nat -> nat -> cell -> R }.  (* polarization, row, delay, cell; grouping.py:1356-1413 [spherical_wf_from_uvp] *)
Definition x_cells (w : wwin) (p : nat) : list cell := list_prod (seq 0 (length (x_kperp_bins w p))) (seq 0 (length (x_kpara_bins w p))).
(** grouping.py:1356-1413 [spherical_wf_from_uvp] *)
Definition x_ktot (w : wwin) (p : nat) (c : cell) : R := sqrt (nth (fst c) (x_kperp_bins w p) 0 ^ 2 + nth (snd c) (x_kpara_bins w p) 0 ^ 2).
(** 1379-1382: rows are taken as (time, group), group fastest *)
Definition x_row (w : wwin) (it b : nat) : nat := (it * length (x_kperps w) + b)%nat.
(** grouping.py:1356-1413 [spherical_wf_from_uvp] *)
Definition x_mode (w : wwin) (p : nat) (row : nat -> nat) (bd : nat * nat) : mode cell :=
  mkmode (sqrt (nth (fst bd) (x_kperps w) 0 ^ 2 + nth (snd bd) (x_kparas w) 0 ^ 2)) (x_wf w p (row (fst bd)) (snd bd)).
(** grouping.py:1356-1413 [spherical_wf_from_uvp] *)
Definition x_modes (w : wwin) : list (nat * nat) := list_prod (seq 0 (length (x_kperps w))) (seq 0 (length (x_kparas w))).
(** grouping.py:1356-1413 [spherical_wf_from_uvp] *)
Definition time_wf (edges tedges : list R) (junk : nat -> R) (w : wwin) (p it : nat) : nat -> nat -> R :=
  wf_row (x_cells w p) (x_ktot w p) edges tedges junk (map (x_mode w p (x_row w it)) (x_modes w)).
(** 1368-1416: the list of results is shared by the polarizations and assigned to the slot of each, an array of [nt] times *)
Definition window_wf (nt : nat) (edges tedges : list R) (junk : nat -> R) (w : wwin) : result (list (list (nat -> nat -> R))) :=
  bind (fold_left (fun acc p => bind acc (fun sl =>
    require (Nat.eqb (x_rows w) (nt * length (x_kperps w))) ValueError (
    let l := fst sl ++ map (time_wf edges tedges junk w p) (seq 0 nt) in
    require (Nat.eqb (length l) nt || Nat.eqb (length l) 1) ValueError (Ok (l, snd sl ++ [l])))))
    (seq 0 (x_npols w)) (Ok ([], []))) (fun sl => Ok (snd sl)).

(** ** grouping.py:1296-1418.  [windows]: the windows of the averaged object; [asked]: spw_array *)
Definition spherical_wf (nt : nat) (little_h norm_h : bool) (h : R) (k : edge_arg) (t : theory_arg) (exact : bool)
    (windows : list (nat * wwin)) (asked : option (list nat)) (junk : nat -> R) : result (list (nat * list (list (nat -> nat -> R)))) :=
  let e := edge_units little_h norm_h h k t in
  require (ascending (used e)) AssertionError (
  require (ascending (used_theory e)) AssertionError (
  let spws := match asked with None => map fst windows | Some l => l end in
  require (forallb (fun s => existsb (Nat.eqb s) (map fst windows)) spws) AssertionError (
  require exact AssertionError (
  map_res (fun s => match find (fun x => Nat.eqb (fst x) s) windows with
                    | Some x => bind (window_wf nt (used e) (used_theory e) junk (snd x)) (fun r => Ok (s, r))
                    | None => Err KeyError
                    end) spws)))).
