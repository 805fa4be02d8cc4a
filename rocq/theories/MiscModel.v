(** Model of [utils.log] (utils.py:708-743), [_load_dsets] and [_load_cals] (pspecdata.py:5559-5651), [_ordered_unique]
    (uvpspec.py:3638-3645) and [pspecdata_time_difference] (utils.py:1363-1386).
    The file system ([glob.glob]) and pyuvdata's readers are arbitrary functions; json.dumps is not expanded; what is printed is the
    list of the lines given to [print]. *)
From Coq Require Import String.
From Verif Require Import Prelude CombineModel.
Open Scope nat_scope.

(** ** log; utils.py:708-743 [log] *)
Record call := mkcall { l_msg : string; l_file : bool (* f is given *); l_lvl : Z; l_tb : option (list string) (* format_exception *); l_verbose : bool }.
(** utils.py:708-743 [log] *)
Record world := mkworld { screen : list string; file : string }.
(** utils.py:708-743 [log] *)
Fixpoint repeat_str (s : string) (n : nat) : string := match n with O => EmptyString | S m => append s (repeat_str s m) end.
(** utils.py:708-743 [log] *)
Fixpoint join (sep : string) (l : list string) : string := match l with [] => EmptyString | [x] => x | x :: l' => append x (append sep (join sep l')) end.
(** utils.py:708-743 [log] *)
Definition newline : string := String (Ascii.ascii_of_nat 10) EmptyString.
(** utils.py:708-743 [log] *)
Definition output (c : call) : string :=
  let msg := match l_tb c with None => l_msg c | Some t => append (l_msg c) (append newline (join newline t)) end in
  append (repeat_str "  " (Z.to_nat (l_lvl c))) msg.
(** utils.py:708-743 [log] *)
Definition log (w : world) (c : call) : world :=
  mkworld (if l_verbose c then screen w ++ [output c] else screen w) (if l_file c then append (file w) (output c) else file w).

(** ** loading *)
Section Load.
(** an entry of [fnames]: a pattern or a list of names; pspecdata.py:5559-5613 [_load_dsets], 5616-5651 [_load_cals] *)
Inductive entry := Pattern (p : string) | Files (l : list string).
Context {D : Type} (glob : string -> list string) (read : list string -> result D).
(** pspecdata.py:5559-5613 [_load_dsets], 5616-5651 [_load_cals] *)
Definition files_of (e : entry) : list string := match e with Pattern p => glob p | Files l => l end.
(** the object read and what is stored under the keyword "filename" (5603-5611) *)
Fixpoint load_dsets (fnames : list entry) : result (list (D * entry)) :=
  match fnames with
  | [] => Ok []
  | e :: r => bind (read (files_of e)) (fun d => bind (load_dsets r) (fun l => Ok ((d, Files (files_of e)) :: l)))
  end.
(** 5643-5649: the keyword is made of the entry itself *)
Fixpoint load_cals (cnames : list entry) : result (list (D * entry)) :=
  match cnames with
  | [] => Ok []
  | e :: r => bind (read (files_of e)) (fun d => bind (load_cals r) (fun l => Ok ((d, e) :: l)))
  end.
End Load.

(** ** _ordered_unique: np.unique(arr, return_index=True) gives the first index of every value, in the order of the values; uvpspec.py:3638-3645 [_ordered_unique] *)
Fixpoint first_index (x : Z) (l : list Z) : nat := match l with [] => 0 | y :: l' => if Z.eqb x y then 0 else S (first_index x l') end.
(** uvpspec.py:3638-3645 [_ordered_unique] *)
Definition np_ordered_unique (l : list Z) : list Z :=
  map (fun i => nth i l 0%Z) (isort Nat.leb (map (fun x => first_index x l) (sorted_set Z.eq_dec Z.leb l))).

(** ** pspecdata_time_difference: the constructor of PSpecData checks the number of weights (pspecdata.py:218-220);
    a dataset without a label is called dset0, dset1; no error sets are given *)
Section Diff.
Context {D W : Type} (diff : D -> result D).
(** utils.py:1363-1386 [pspecdata_time_difference] *)
Definition time_difference (dsets : list D) (wgts : list W) : result (list D * list W * list string * list (option D)) :=
  match dsets with
  | d0 :: d1 :: _ =>
      bind (diff d0) (fun a => bind (diff d1) (fun b =>
      require (Nat.eqb (List.length wgts) 2) AssertionError (Ok ([a; b], wgts, ["dset0"; "dset1"]%string, [None; None]))))
  | _ => Err IndexError
  end.
End Diff.
