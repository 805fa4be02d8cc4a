(** Model of the argument types of the command-line parsers: pspecdata.py:5193-5224 ([list_of_int_tuples],
    [list_of_str_tuples], [list_of_tuple_tuples]), grouping.py:2086-2088 ([list_of_lists_of_tuples]), and of
    [type=bool] (pspecdata.py:5450, grouping.py:2115, 2133, 2139).
    argparse itself is not modelled: it applies the type to the text and reports a ValueError as a usage error. *)
From Coq Require Import Ascii String.
From Verif Require Import Prelude PyStr.
Open Scope Z_scope.

Definition ch_tilde : ascii := "~"%char.
(** pspecdata.py:5193-5224 [get_pspec_run_argparser] *)
Definition ch_comma : ascii := ","%char.
(** pspecdata.py:5193-5224 [get_pspec_run_argparser] *)
Definition ch_blank : ascii := " "%char.

(** [x.split()]: maximal runs of non-blank characters; pspecdata.py:5193-5224 [get_pspec_run_argparser] *)
Fixpoint ws_split (s : pystr) : list pystr :=
  match s with
  | [] => []
  | c :: s' =>
      if is_space c then ws_split s'
      else match s' with
           | [] => [[c]]
           | d :: _ => if is_space d then [c] :: ws_split s'
                       else match ws_split s' with f :: fs => (c :: f) :: fs | [] => [[c]] end
           end
  end.

(** the two formats: fields separated by '~', or by blanks; pspecdata.py:5193-5224 [get_pspec_run_argparser] *)
Definition fields (v : pystr) : list (list pystr) :=
  if existsb (Ascii.eqb ch_tilde) v then map (split ch_tilde) (split ch_comma v) else map ws_split (split ch_comma v).

(** pspecdata.py:5193-5202 [get_pspec_run_argparser] *)
Definition list_of_int_tuples (v : pystr) : result (list (list Z)) := map_res (map_res py_int) (fields v).
(** pspecdata.py:5204-5213 [get_pspec_run_argparser] *)
Definition list_of_str_tuples (v : pystr) : list (list pystr) := fields v.
(** pspecdata.py:5215-5224 [get_pspec_run_argparser] *)
Definition list_of_tuple_tuples (v : pystr) : result (list (list Z * list Z)) :=
  bind (list_of_int_tuples v) (fun l => Ok (map (fun x => (firstn 2 x, skipn 2 x)) l)).
(** grouping.py:2086-2088 [get_bootstrap_run_argparser] *)
Definition list_of_lists_of_tuples (v : pystr) : result (list (list Z)) :=
  map_res (map_res py_int) (map ws_split (split ch_comma v)).
(** [bool(v)]: true for every non-empty text; the type=bool arguments of pspecdata.py:5190-5489 [get_pspec_run_argparser] *)
Definition py_bool (v : pystr) : bool := match v with [] => false | _ => true end.
