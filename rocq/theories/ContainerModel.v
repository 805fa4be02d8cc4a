(** Model of PSpecContainer (src/hera_pspec/container.py:12-509) as a state machine.

    What is kept of the HDF5 file: a two-level dictionary group -> spectrum name -> entry; an
    entry is the list of attributes and datasets written into it so far and whether the
    attribute [pspec_type] is present. Every modification of the file is one [write], and the
    state keeps the log of all writes since the container object was made, so that the file
    after a crash at any point is the replay of a prefix of the log (writes are assumed to
    reach the file in program order). The operating system decides which attempts to open the
    file are refused: [env n] says whether attempt number [n] raises OSError.

    Simplifications: names contain no '/' (h5py would make nested groups), names of groups and
    spectra are strings (a list of groups is rejected by the code, container.py:300-301); partial
    I/O keywords of get_pspec are not modelled (C05 covers the selection); [tree] returns the
    dictionary; warnings and history strings are not modelled; process interruption other than
    a crash (KeyboardInterrupt) is not modelled; h5py's own SWMR restrictions are not modelled. *)
From Coq Require Import String.
From Verif Require Import PyDict PyStr.
From Verif Require Import Prelude.
Open Scope nat_scope.

(** equality of names (Coq helper, for [key in list(...keys())], container.py:338, 344) *)
Definition pystr_dec : forall x y : pystr, {x = y} + {x <> y} := list_eq_dec Ascii.ascii_dec.

(** [del grp[name]]: HDF5 link names are unique; container.py:350 *)
Definition dremove {V} (d : list (pystr * V)) (k : pystr) : list (pystr * V) :=
  filter (fun kv => if pystr_dec (fst kv) k then false else true) d.

Section Container.
(** [obj]: UVPSpec objects; [valid]: UVPSpec.check() passes; [items]: what write_to_group
    stores, in order (uvpspec.py:1972-2061) *)
Context {obj item : Type} (valid : obj -> bool) (items : obj -> list item).

(** an HDF5 group holding one power spectrum: container.py:346, 359-362, uvpspec.py:1972-2061 *)
Record entry := mkentry { e_tag : bool; e_body : list item }.
(** [self.data], container.py:151; groups and spectra 338-351 *)
Definition file := list (pystr * list (pystr * entry)).

(** the modifications of the file made by container.py:151, 261, 339, 346, 350-351, 359, 362 *)
Inductive write :=
| WFile                                    (* h5py.File(..., 'a') creates a missing file *)
| WGroup (g : pystr)                       (* create_group at top level *)
| WEntry (g p : pystr)                     (* grp.create_group(psname) *)
| WDelete (g p : pystr)                    (* del grp[psname] *)
| WItem (g p : pystr) (i : item)           (* one attribute or dataset *)
| WTag (g p : pystr).                      (* attrs["pspec_type"] = "UVPSpec" *)

(** [self.data[key1]], [grp[key2]]: container.py:338-347 *)
Definition group_of (f : file) (g : pystr) : list (pystr * entry) :=
  match dget pystr_dec f g with Some e => e | None => [] end.
(** [self.data[key1]], [grp[key2]]: container.py:338-347 *)
Definition find_in (f : file) (g p : pystr) : option entry :=
  match dget pystr_dec f g with Some e => dget pystr_dec e p | None => None end.

(** effect of one modification on the file: container.py:151, 261, 339-362 *)
Definition apply_w (o : option file) (w : write) : option file :=
  match o with
  | None => match w with WFile => Some [] | _ => None end
  | Some f =>
      Some (match w with
            | WFile => f
            | WGroup g => dset pystr_dec f g []
            | WEntry g p => dset pystr_dec f g (dset pystr_dec (group_of f g) p (mkentry false []))
            | WDelete g p => dset pystr_dec f g (dremove (group_of f g) p)
            | WItem g p i =>
                match find_in f g p with
                | Some e => dset pystr_dec f g (dset pystr_dec (group_of f g) p
                              (mkentry (e_tag e) (e_body e ++ [i])))
                | None => f
                end
            | WTag g p =>
                match find_in f g p with
                | Some e => dset pystr_dec f g (dset pystr_dec (group_of f g) p (mkentry true (e_body e)))
                | None => f
                end
            end)
  end.
(** the file after the modifications [ws], in program order (no single source line: container.py:334-362 issue them) *)
Definition replay (o : option file) (ws : list write) : option file := fold_left apply_w ws o.

(** [mode], container.py:102-107 *)
Inductive cmode := ModeR | ModeRW.

(** the container object and the world around it; the attributes set in container.py:100-112 and the file they refer to *)
Record state := mkstate {
  c_mode : cmode;
  c_keep : bool;          (* keep_open *)
  c_swmr : bool;
  c_maxiter : nat;
  c_open : bool;          (* self.data is not None *)
  w_init : option file;   (* the file before the object was made *)
  w_log : list write;
  w_att : nat }.          (* attempts to open so far *)

(** the content of the file seen through [self.data], container.py:151 *)
Definition disk (s : state) : option file := replay (w_init s) (w_log s).
(** [self.data = ...], container.py:110, 151, 196 *)
Definition set_open (s : state) (b : bool) : state :=
  mkstate (c_mode s) (c_keep s) (c_swmr s) (c_maxiter s) b (w_init s) (w_log s) (w_att s).
(** a modification of the file, container.py:339-362 *)
Definition log_w (s : state) (ws : list write) : state :=
  mkstate (c_mode s) (c_keep s) (c_swmr s) (c_maxiter s) (c_open s) (w_init s) (w_log s ++ ws) (w_att s).
(** one attempt to open, container.py:148-178 *)
Definition tick (s : state) : state :=
  mkstate (c_mode s) (c_keep s) (c_swmr s) (c_maxiter s) (c_open s) (w_init s) (w_log s) (S (w_att s)).

(** a method call: new state and returned value or exception; the state threaded through the methods of container.py:12-509 (Coq helper) *)
Definition M (A : Type) := state -> state * result A.
(** return, raise and sequencing of Python statements (Coq helpers; container.py:37-50 uses the distinction) *)
Definition ret {A} (a : A) : M A := fun s => (s, Ok a).
(** return, raise and sequencing of Python statements (Coq helpers; container.py:37-50 uses the distinction) *)
Definition raise {A} (e : pyerr) : M A := fun s => (s, Err e).
(** return, raise and sequencing of Python statements (Coq helpers; container.py:37-50 uses the distinction) *)
Definition mbind {A B} (m : M A) (k : A -> M B) : M B :=
  fun s => match m s with (s', Ok a) => k a s' | (s', Err e) => (s', Err e) end.

(** [self.data] used as an open file; [self.data.keys()] with [self.data] open, container.py:338, 389, 432, 458 *)
Definition with_file {A} (k : file -> M A) : M A :=
  fun s => if c_open s then match disk s with Some f => k f s | None => (s, Err OSError) end
           else (s, Err AttributeError).
(** container.py:339-362 *)
Definition do_writes (ws : list write) : M unit := fun s => (log_w s ws, Ok tt).

Section Env.
Variable env : nat -> bool.   (* attempt n is refused *)

(** container.py:258-261 *)
Definition header : pystr := s_ "header".

(** container.py:253-275 [_update_header] *)
Definition update_header : M unit :=
  with_file (fun f s =>
    match dget pystr_dec f header with
    | Some _ => (s, Ok tt)
    | None => if c_swmr s then (s, Err ValueError) else do_writes [WGroup header] s
    end).

(** container.py:147-178: the retry loop; [n] = attempts left after this one *)
Fixpoint try_open (n : nat) : M unit :=
  fun s =>
    let refused := env (w_att s) || match c_mode s, disk s with ModeR, None => true | _, _ => false end in
    let s1 := tick s in
    if refused then match n with O => (s1, Err OSError) | S n' => try_open n' s1 end
    else (set_open (match c_mode s, disk s with ModeRW, None => log_w s1 [WFile] | _, _ => s1 end) true, Ok tt).

(** container.py:114-187 [_open] (the HDF5 version test is not modelled) *)
Definition open_ : M unit :=
  fun s => if c_open s then (s, Ok tt)
           else mbind (try_open (c_maxiter s))
                  (fun _ => fun s => match c_mode s with ModeRW => update_header s | ModeR => (s, Ok tt) end) s.

(** container.py:189-196 [_close] *)
Definition close_ (s : state) : state := set_open s false.

(** container.py:12-52 [@transactional] *)
Definition transactional {A} (nested : bool) (fn : M A) : M A :=
  fun s => match open_ s with
           | (s1, Err e) => (s1, Err e)
           | (s1, Ok _) =>
               match fn s1 with
               | (s2, Err e) => (if c_keep s2 then s2 else close_ s2, Err e)
               | (s2, Ok a) => (if c_keep s2 || nested then s2 else close_ s2, Ok a)
               end
           end.

(** container.py:448-461 [groups] *)
Definition groups_body : M (list pystr) :=
  with_file (fun f s => (s, Ok (filter (fun g => if pystr_dec g header then false else true) (map fst f)))).
(** container.py:415-446 [spectra]: the tagged entries *)
Definition tagged (es : list (pystr * entry)) : list (pystr * entry) := filter (fun pe => e_tag (snd pe)) es.
(** container.py:430-446 *)
Definition spectra_body (g : pystr) : M (list pystr) :=
  with_file (fun f s =>
    match dget pystr_dec f g with
    | None => (s, Err KeyError)
    | Some es => (s, Ok (map fst (tagged es)))
    end).
(** container.py:463-492 [tree] *)
Fixpoint tree_loop (gs : list pystr) : M (list (pystr * list pystr)) :=
  match gs with
  | [] => ret []
  | g :: gs' => mbind (transactional true (spectra_body g)) (fun l =>
                mbind (tree_loop gs') (fun r => ret ((g, l) :: r)))
  end.
(** container.py:480-492 (return_str = False) *)
Definition tree_body : M (list (pystr * list pystr)) :=
  mbind (transactional true groups_body) tree_loop.

(** container.py:219-251 [_load_pspec] *)
Definition load (e : entry) : result (list item) :=
  if e_tag e then Ok (e_body e) else Err TypeError.
(** container.py:364-413 [get_pspec]; a single spectrum is returned as a one-element list *)
Definition get_body (g : pystr) (p : option pystr) : M (list (list item)) :=
  with_file (fun f s =>
    match dget pystr_dec f g with
    | None => (s, Err KeyError)
    | Some es =>
        match p with
        | Some p => match dget pystr_dec es p with
                    | None => (s, Err KeyError)
                    | Some e => (s, match load e with Ok b => Ok [b] | Err e => Err e end)
                    end
        | None => (s, Ok (map (fun pe => e_body (snd pe)) (tagged es)))
        end
    end).

(** the [pspec] argument of set_pspec: [None] is anything that is not a UVPSpec; container.py:287-291 and the isinstance tests 304-320, 330 *)
Inductive pname := PName (p : pystr) | PNames (ps : list pystr).
(** container.py:287-291 and the isinstance tests 304-320, 330 *)
Inductive parg := PObj (x : option obj) | PList (xs : list (option obj)).

(** container.py:334-362: the file modifications of a single set_pspec, and the exception they
    end with *)
Definition store_writes (g p : pystr) (x : obj) : list write * option pyerr :=
  if valid x then (map (WItem g p) (items x) ++ [WTag g p; WTag g p], None)
  else ([], Some AssertionError).
(** container.py:334-356 followed by the writes of 359-362 *)
Definition set_writes (f : file) (g p : pystr) (x : obj) (overwrite : bool) : list write * option pyerr :=
  let ws1 := match dget pystr_dec f g with None => [WGroup g] | Some _ => [] end in
  let '(ws3, e) := store_writes g p x in
  match find_in f g p with
  | None => (ws1 ++ WEntry g p :: ws3, e)
  | Some _ => if overwrite then (ws1 ++ WDelete g p :: WEntry g p :: ws3, e)
              else (ws1, Some AttributeError)
  end.

(** container.py:326 *)
Definition in_tree (g p : pystr) (t : list (pystr * list pystr)) : bool :=
  match dget pystr_dec t g with
  | None => false
  | Some ps => if in_dec pystr_dec p ps then true else false
  end.

(** container.py:297-362 for one name *)
Definition set_one_body (g p : pystr) (x : option obj) (overwrite : bool) : M unit :=
  fun s =>
  match c_mode s with
  | ModeR => (s, Err OSError)
  | ModeRW =>
      mbind (if c_swmr s then
               mbind (transactional true tree_body) (fun t => if in_tree g p t then ret tt else raise ValueError)
             else ret tt)
        (fun _ =>
         match x with
         | None => raise TypeError
         | Some x => with_file (fun f s =>
             let '(ws, e) := set_writes f g p x overwrite in
             match e with
             | None => do_writes ws s
             | Some e => (fst (do_writes ws s), Err e)
             end)
         end) s
  end.

(** the recursive calls of container.py:304-313 *)
Fixpoint set_list (g : pystr) (ps : list pystr) (xs : list (option obj)) (overwrite : bool) : M unit :=
  match ps, xs with
  | p :: ps', x :: xs' =>
      match x with
      | None => raise TypeError
      | Some _ => mbind (transactional false (set_one_body g p x overwrite))
                        (fun _ => set_list g ps' xs' overwrite)
      end
  | _, _ => ret tt
  end.

(** container.py:277-362 [set_pspec] *)
Definition set_body (g : pystr) (nm : pname) (x : parg) (overwrite : bool) : M unit :=
  fun s =>
  match c_mode s with
  | ModeR => (s, Err OSError)
  | ModeRW =>
      match nm, x with
      | PNames ps, PList xs => if Nat.eqb (length ps) (length xs) then set_list g ps xs overwrite s
                               else (s, Err ValueError)
      | PNames _, PObj _ => (s, Err ValueError)
      | PName _, PList _ => (s, Err ValueError)
      | PName p, PObj x => set_one_body g p x overwrite s
      end
  end.

(** the public operations; the @transactional methods of container.py:277-499 and what they return *)
Inductive op :=
| OSet (g : pystr) (nm : pname) (x : parg) (overwrite : bool)
| OGet (g : pystr) (p : option pystr)
| OSpectra (g : pystr)
| OGroups
| OTree
| OSave.
(** the @transactional methods of container.py:277-499 and what they return *)
Inductive answer :=
| ADone
| ASpectra (l : list (list item))
| ANames (l : list pystr)
| ATree (t : list (pystr * list pystr)).

(** the returned value of a method, container.py:50 (Coq helper) *)
Definition fmap {A B} (f : A -> B) (m : M A) : M B := mbind m (fun a => ret (f a)).
(** dispatch on the method called: container.py:277-499 *)
Definition body (o : op) : M answer :=
  match o with
  | OSet g nm x ov => fmap (fun _ => ADone) (set_body g nm x ov)
  | OGet g p => fmap ASpectra (get_body g p)
  | OSpectra g => fmap ANames (spectra_body g)
  | OGroups => fmap ANames groups_body
  | OTree => fmap ATree tree_body
  | OSave => with_file (fun _ => ret ADone)           (* container.py:494-499 *)
  end.
(** a call of a public method by the user; container.py:25-52 with nested = False (34) *)
Definition run_op (o : op) : M answer := transactional false (body o).

(** container.py:60-112 [__init__] with a valid mode *)
Definition init (mode : cmode) (keep swmr : bool) (maxiter : nat) (d : option file) (att : nat) : state * result unit :=
  let s := mkstate mode keep swmr maxiter false d [] att in
  if keep then open_ s else (s, Ok tt).

(** a history of calls: exceptions are caught by the user; a caller's sequence of calls (no source line; each is container.py:277-499) *)
Fixpoint run (h : list op) (s : state) : state * list (result answer) :=
  match h with
  | [] => (s, [])
  | o :: h' => let '(s1, r) := run_op o s in let '(s2, rs) := run h' s1 in (s2, r :: rs)
  end.
End Env.
End Container.
