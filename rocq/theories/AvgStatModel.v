(** Model of the statistics of [average_spectra] (grouping.py:40-49, 258-260, 324-342, 352, 432-439, 505-512, 525-527, 563-568, 581-582, 593-594,
    609-610, 693-696): which statistics are averaged, and the loops over their names, including names given twice.
    Real statistics, None: infinite (no nan); exact arithmetic; arrays are nested lists. *)
From Coq Require Import String.
From Coq Require Import Reals.
From Verif Require Import Prelude UvpModel AvgModel AvgCovModel.
Open Scope R_scope.

(** ** arguments. [error_field]: None, a string, a sequence (items: strings, or None for anything else), something else; grouping.py:40-49 *)
Inductive efield := EFNone | EFStr (s : string) | EFSeq (l : list (option string)) | EFOther.
(** [error_weights]: None, a string, something else; grouping.py:258-259 *)
Inductive ewgts := EWNone | EWStr (s : string) | EWOther.
(** grouping.py:40-49 [_normalize_stat_names] *)
Definition normalize_stat_names (v : efield) : result (list string) :=
  match v with
  | EFNone => Ok []
  | EFStr s => Ok [s]
  | EFSeq l => map_res (fun x => match x with Some s => Ok s | None => Err TypeError end) l
  | EFOther => Err TypeError
  end.
(** membership in a list of strings; grouping.py:330, 337, 341 *)
Definition mem_name (s : string) (l : list string) : bool := if in_dec string_dec s l then true else false.
(** grouping.py:258-260, 324-342. [stats]: the keys of stats_array, None if there is no such attribute *)
Definition stat_list (stats : option (list string)) (ef : efield) (ew : ewgts) : result (list string) :=
  match ew with
  | EWOther => Err TypeError
  | _ =>
      bind (normalize_stat_names ef) (fun l =>
      let known s := match stats with Some ks => mem_name s ks | None => true end in
      bind (match ew with
            | EWStr s => require (known s) KeyError (Ok (if mem_name s l then l else l ++ [s]))
            | _ => Ok l
            end) (fun l' =>
      require (forallb known l') KeyError (Ok l')))
  end.

(** ** the loops over names *)
(** a (rows, delays) array of a statistic, as get_stats returns it; uvpspec.py:1084-1104 *)
Definition grid := list (list (option R)).
(** assignment to a dictionary entry, [errws[stat] = ...]; grouping.py:433-439 *)
Definition upd {A} (E : string -> A) (s : string) (x : A) : string -> A := fun t => if string_dec t s then x else E t.
(** broadcasting along the time axis: a single row is repeated; grouping.py:507 *)
Definition brow (e : grid) (t : nat) : list (option R) := match e with [x] => x | _ => nth t e [] end.
(** what is read for a baseline-pair of a group: the weights (Ntimes, 1 or Ndlys), the statistics, and the number of copies made of it;
    grouping.py:413-466, 520 *)
Record member := mkmem { m_w : list (list R); m_stat : string -> grid; m_copies : nat }.
(** grouping.py:431-439 *)
Definition read_stats (stat_l : list string) (m : member) : string -> grid :=
  fold_left (fun E s => upd E s (map (map square) (m_stat m s))) stat_l (fun _ => []).
(** grouping.py:506-512, one name *)
Definition tstep (nd : nat) (w : list (list R)) (e : grid) : grid :=
  [map (fun d => err_mean (map (fun t => (nth d (brow e t) None, bc (nth t w []) d)) (seq 0 (length w)))) (seq 0 nd)].
(** grouping.py:431-439, 505-512 *)
Definition errws (nd : nat) (time_avg : bool) (stat_l : list string) (m : member) : string -> grid :=
  let E := read_stats stat_l m in
  if time_avg then fold_left (fun E s => upd E s (tstep nd (m_w m) (E s))) stat_l E else E.
(** grouping.py:513 *)
Definition mem_w (time_avg : bool) (m : member) : list (list R) := if time_avg then [colsum (m_w m)] else m_w m.
(** grouping.py:527 *)
Definition weighted_errs (nd : nat) (w : list (list R)) (e : grid) : list (list R) :=
  map (fun r => map (fun d => clip40 (nth d (nth r e []) None) * bc (nth r w []) d ^ 2) (seq 0 nd)) (seq 0 (length w)).
(** grouping.py:525-527: one copy *)
Definition append_copy (nd : nat) (stat_l : list string) (E : string -> grid) (w : list (list R)) (B : string -> list (list (list R))) :=
  fold_left (fun B s => upd B s (B s ++ [weighted_errs nd w (E s)])) stat_l B.
(** grouping.py:520-527: all copies of a member *)
Definition append_member (nd : nat) (time_avg : bool) (stat_l : list string) (B : string -> list (list (list R))) (m : member) :=
  Nat.iter (m_copies m) (append_copy nd stat_l (errws nd time_avg stat_l m) (mem_w time_avg m)) B.
(** bpg_stats[stat]: a list of arrays, then an array; grouping.py:563-568 *)
Inductive nda := Lst (l : list (list (list R))) | Arr (a : grid).
(** addition with infinity; grouping.py:564 *)
Definition eplus (a b : option R) : option R := match a, b with Some x, Some y => Some (x + y) | _, _ => None end.
(** [np.sum(bpg_stats[stat], axis=0)]: over the copies of the list, or over the rows of the array; grouping.py:564 *)
Definition axis0 (x : nda) (r d : nat) : option R :=
  match x with
  | Lst l => Some (Rsum (map (fun a => nth d (nth r a []) 0) l))
  | Arr a => fold_right eplus (Some 0) (map (fun row => nth d row None) a)
  end.
(** grouping.py:563-568, one name; [wl]: the summed weights *)
Definition fstep (nt nd : nat) (wl : nat -> nat -> R) (x : nda) : nda :=
  Arr (map (fun r => map (fun d => match axis0 x r d with None => None | Some v => option_map sqrt (zero_is_inf (v / clip (wl r d) ^ 2)) end) (seq 0 nd)) (seq 0 nt)).
(** grouping.py:544, 547: the sum of w_list, in which every copy of a member has its weights once *)
Definition wlist (time_avg : bool) (members : list member) (r d : nat) : R :=
  Rsum (flat_map (fun m => repeat (bc (nth r (mem_w time_avg m) []) d) (m_copies m)) members).
(** the number of rows of a group; grouping.py:546 *)
Definition nrows (time_avg : bool) (members : list member) : nat := match members with [] => 0%nat | m :: _ => length (mem_w time_avg m) end.
(** grouping.py:520-527, 563-568 *)
Definition group_stats (nd : nat) (time_avg : bool) (stat_l : list string) (members : list member) : string -> nda :=
  let B := fold_left (append_member nd time_avg stat_l) members (fun _ => []) in
  fold_left (fun F s => upd F s (fstep (nrows time_avg members) nd (wlist time_avg members) (F s))) stat_l (fun s => Lst (B s)).
(** the rows of an array; grouping.py:582 *)
Definition rows_of (x : nda) : grid := match x with Arr a => a | Lst _ => [] end.
(** grouping.py:581-582: all groups of a polarization *)
Definition pol_stats (nd : nat) (time_avg : bool) (stat_l : list string) (groups : list (list member)) : string -> grid :=
  fold_left (fun P g => fold_left (fun P s => upd P s (P s ++ rows_of (group_stats nd time_avg stat_l g s))) stat_l P) groups (fun _ => []).
(** grouping.py:593-594: all polarizations of a window, [polarization][row][delay] (610 only moves the first axis to the end) *)
Definition spw_stats (nd : nat) (time_avg : bool) (stat_l : list string) (pols : list (list (list member))) : string -> list grid :=
  fold_left (fun S p => fold_left (fun S s => upd S s (S s ++ [pol_stats nd time_avg stat_l p s])) stat_l S) pols (fun _ => []).
(** grouping.py:352, 609-610, 693-696: the stats_array of the averaged object; None: it has none. uvpspec.py:1089-1090: get_stats needs the attribute
    (simplification: at least one baseline-pair is averaged) *)
Definition averaged_stats (stats : option (list string)) (ef : efield) (ew : ewgts) (nd : nat) (time_avg : bool) (pols : list (list (list member)))
  : result (option (list (string * list grid))) :=
  bind (stat_list stats ef ew) (fun l =>
  match l, stats with
  | [], _ => Ok None
  | _, None => Err AttributeError
  | _, Some _ => Ok (Some (map (fun s => (s, spw_stats nd time_avg l pols s)) (rev (nodup string_dec (rev l)))))
  end).
