(** Model of combine_psc_spectra (src/hera_pspec/container.py:511-637) on one group.

    The group is a dictionary from names to complete UVPSpec objects; [combine] is
    combine_uvpspec (C11), which may fail. The objects written back passed their check (merged
    objects are checked by combine_uvpspec, single ones when they were read), so set_pspec with
    overwrite=True succeeds on the read-write container; failures of the file are C15/C16. *)
From Coq Require Import String.
From Verif Require Import PyDict PyStr.
From Verif Require Import Prelude ContainerModel.
Open Scope nat_scope.

(** Python [s.split(sep)] for a non-empty string [sep]; str.split as used at container.py:512-629 [combine_psc_spectra] *)
Fixpoint split_at (sep s : pystr) (skip : nat) (cur : pystr) : list pystr :=
  match s with
  | [] => [cur]
  | c :: s' =>
      match skip with
      | S k => split_at sep s' k cur
      | O => if prefixb sep s then cur :: split_at sep s' (length sep - 1) []
             else split_at sep s' 0 (cur ++ [c])
      end
  end.
(** str.split as used at container.py:512-629 [combine_psc_spectra] *)
Definition split_str (sep s : pystr) : list pystr := split_at sep s 0 [].

(** container.py:589-597: the output name of a spectrum; [dsep = None] for '' or None *)
Definition base_name (dsep : option pystr) (esep spc : pystr) : pystr :=
  match dsep with
  | None => hd [] (split_str esep spc)
  | Some d => join d (firstn 2 (flat_map (split_str esep) (split_str d spc)))
  end.

(** first occurrences, container.py:588-599 *)
Definition memS (x : pystr) (l : list pystr) : bool := existsb (str_eqb x) l.
(** container.py:512-629 [combine_psc_spectra] *)
Definition uniq_add (acc : list pystr) (x : pystr) : list pystr := if memS x acc then acc else acc ++ [x].
(** container.py:512-629 [combine_psc_spectra] *)
Definition unique_spectra (dsep : option pystr) (esep : pystr) (names : list pystr) : list pystr :=
  fold_left uniq_add (map (base_name dsep esep) names) [].

Section Combine.
Context {obj : Type} (combine : list obj -> result obj).

(** container.py:512-629 [combine_psc_spectra] *)
Definition read_one (d : list (pystr * obj)) (n : pystr) : result obj :=
  match dget pystr_dec d n with Some u => Ok u | None => Err KeyError end.

(** container.py:613-616: the names to merge into [spc] *)
Definition to_merge (names : list pystr) (spc : pystr) : list pystr := filter (fun n => substr spc n) names.

(** container.py:617-637 *)
Definition merged (d : list (pystr * obj)) (tm : list pystr) : result obj :=
  bind (map_res (read_one d) tm) (fun us =>
  match us with
  | [] => Err IndexError
  | [u] => Ok u
  | _ => combine us
  end).
(** container.py:512-629 [combine_psc_spectra] *)
Definition write_back (d : list (pystr * obj)) (spc : pystr) (tm : list pystr) (m : obj) : list (pystr * obj) :=
  fold_left (fun d n => if pystr_dec n spc then d else dremove d n) tm (dset pystr_dec (dremove d spc) spc m).

(** container.py:512-629 [combine_psc_spectra] *)
Definition merge_step (names : list pystr) (overwrite : bool) (d : list (pystr * obj)) (spc : pystr) : list (pystr * obj) :=
  if memS spc names && negb overwrite then d
  else match merged d (to_merge names spc) with
       | Ok m => write_back d spc (to_merge names spc) m
       | Err _ => d
       end.

(** container.py:512-629 [combine_psc_spectra] *)
Definition combine_group (dsep : option pystr) (esep : pystr) (overwrite : bool) (d : list (pystr * obj)) :=
  let names := map fst d in
  fold_left (merge_step names overwrite) (unique_spectra dsep esep names) d.

(** container.py:571-585: with keep_open=False the attribute [psc.data] is None after
    [psc.groups()], and [psc.data[grp]] raises TypeError *)
Definition combine_psc (keep_open : bool) dsep esep overwrite (d : list (pystr * obj)) : result (list (pystr * obj)) :=
  if keep_open then Ok (combine_group dsep esep overwrite d) else Err TypeError.
End Combine.
