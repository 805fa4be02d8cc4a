(** Model of the arguments of the PSpecData constructor and of [add] (pspecdata.py:25-298) and of [dset_idx]
    (pspecdata.py:493-517) for any kind of index: what single objects, lists, tuples and dicts of datasets, weights, error
    sets and calibrations turn into, which calls are refused, and what a refused call has already changed. The labels
    themselves are those of LabelModel.v.
    A UVData object is named by an identity [D], a UVCal object by [C]; [H] is the contents of all UVData objects.
    Simplified: [uvutils.uvcalibrate] is any function of the contents, which may also raise; datasets are taken to have
    the numbers of channels and times they were given with (calibration does not change them); matrix caches, weightings
    and the beam of the constructor are left out; so are dicts with keys that are not strings. *)
From Coq Require Import Ascii String.
From Verif Require Import Prelude PyStr LabelModel.
Open Scope nat_scope.

(** an item of a list or dict: None, an object of the right class, or anything else; pspecdata.py:225-238 *)
Inductive elem (A : Type) := ENone | EIs (a : A) | EBad.
Arguments ENone {A}. Arguments EIs {A} _. Arguments EBad {A}.
(** an argument: None, one object of the right class, a list ([false]) or tuple ([true]), a dict, or anything else;
    pspecdata.py:153-213 *)
Inductive arg (A : Type) := ANone | AOne (a : A) | ASeq (tup : bool) (l : list (elem A)) | ADict (l : list (pystr * elem A)) | ABad.
Arguments ANone {A}. Arguments AOne {A} _. Arguments ASeq {A} _ _. Arguments ADict {A} _. Arguments ABad {A}.
(** the labels argument; pspecdata.py:129-133, 188-189 *)
Inductive labarg := LNone | LStr (s : pystr) | LSeq (l : list pystr).

Section AddArgs.
Context {D C H : Type}.
(** the number of channels and of times of a dataset; pspecdata.py:289-290 *)
Context (nfreqs ntimes : D -> nat).
(** [uvutils.uvcalibrate(dset, cal, inplace=True, prop_flags=cal_flag)] and the keyword set after it, pspecdata.py:260-270:
    the new contents, and whether it raised *)
Context (calib : H -> D -> C -> bool -> H * option pyerr).

(** what the object keeps of its datasets; pspecdata.py:71-79, 272-298 *)
Record pspec := mkps {
  p_dsets : list D; p_wgts : list (option D); p_stds : list (option D); p_labels : list pystr;
  p_Nfreqs : option nat; p_Ntimes : option nat; p_spw : option (nat * nat); p_spwNfreqs : option nat; p_Ndlys : option nat }.
(** pspecdata.py:71-79 *)
Definition p_empty : pspec := mkps [] [] [] [] None None None None None.

(** [d[key] for key in labels]; pspecdata.py:180-183 *)
Fixpoint dlook {A} (d : list (pystr * elem A)) (k : pystr) : option (elem A) :=
  match d with [] => None | (k', v) :: d' => if str_eqb k k' then Some v else dlook d' k end.
(** pspecdata.py:180-183 *)
Definition pick {A} (d : list (pystr * elem A)) (ks : list pystr) : result (list (elem A)) :=
  map_res (fun k => match dlook d k with Some v => Ok v | None => Err KeyError end) ks.
(** None becomes a dict of None, a dict stays, anything else is a TypeError; pspecdata.py:162-177 *)
Definition to_dict {A} (ks : list pystr) (a : arg A) : result (list (pystr * elem A)) :=
  match a with ANone => Ok (map (fun k => (k, ENone)) ks) | ADict d => Ok d | _ => Err TypeError end.

(** the arguments of one call; pspecdata.py:119 *)
Record acall := mkac { a_dsets : arg D; a_wgts : arg D; a_labels : labarg; a_stds : arg D; a_cals : arg C; a_flag : bool }.

(** the unpacking of dicts; pspecdata.py:153-183 *)
Definition unpack (c : acall) : result acall :=
  match a_dsets c with
  | ADict d =>
      match a_labels c with
      | LNone =>
          let ks := map fst d in
          bind (to_dict ks (a_wgts c)) (fun w =>
          bind (to_dict ks (a_stds c)) (fun s =>
          bind (to_dict ks (a_cals c)) (fun k =>
          bind (pick d ks) (fun ds =>
          bind (pick s ks) (fun ss =>
          bind (pick w ks) (fun ws =>
          bind (pick k ks) (fun cs =>
          Ok (mkac (ASeq false ds) (ASeq false ws) (LSeq ks) (ASeq false ss) (ASeq false cs) (a_flag c)))))))))
      | _ => Err ValueError
      end
  | _ => Ok c
  end.

(** [len(dsets)] where it is taken, a TypeError for what has no length; pspecdata.py:185-197. A single UVData object has
    been made a list by then; a text has a length, but ends in the TypeError of pspecdata.py:207-216 all the same *)
Definition seq_of {A} (none : result (list (elem A))) (a : arg A) : result (list (elem A)) :=
  match a with ANone => none | AOne x => Ok [EIs x] | ASeq _ l => Ok l | ADict _ | ABad => Err TypeError end.

(** an object of the right class; None is allowed when [o]; pspecdata.py:234-246 *)
Definition ok_elem {A} (o : bool) (e : elem A) : bool := match e with EIs _ => true | ENone => o | EBad => false end.
(** the object, if there is one; pspecdata.py:272-276 *)
Definition el {A} (e : elem A) : option A := match e with EIs a => Some a | _ => None end.
(** the objects of a list; pspecdata.py:273 *)
Fixpoint objs {A} (l : list (elem A)) : list A := match l with [] => [] | EIs a :: l' => a :: objs l' | _ :: l' => objs l' end.

(** the calibration loop: a call that raises ends it, and what was calibrated stays calibrated; pspecdata.py:257-270 *)
Definition cal1 (h : H) (d : option D) (c : C) (fl : bool) : H * option pyerr :=
  match d with Some d => calib h d c fl | None => (h, None) end.
(** pspecdata.py:257-270 *)
Fixpoint cal_loop (fl : bool) (h : H) (l : list (D * option D * option C)) : H * option pyerr :=
  match l with
  | [] => (h, None)
  | (d, s, None) :: l' => cal_loop fl h l'
  | (d, s, Some c) :: l' =>
      match cal1 h (Some d) c fl with
      | (h', Some e) => (h', Some e)
      | (h', None) =>
          match cal1 h' s c fl with
          | (h'', Some e) => (h'', Some e)
          | (h'', None) => cal_loop fl h'' l'
          end
      end
  end.

(** three lists side by side, [zip(dsets, dsets_std, cals)]; pspecdata.py:258 *)
Fixpoint zip3 {X Y Z} (a : list X) (b : list Y) (c : list Z) : list (X * Y * Z) :=
  match a, b, c with x :: a', y :: b', z :: c' => (x, y, z) :: zip3 a' b' c' | _, _, _ => [] end.

(** the lists and labels of a call that passes every check; pspecdata.py:153-246 *)
Definition checked (c0 : acall) : result (list (elem D) * list (elem D) * list (elem D) * list (elem C) * option (list pystr)) :=
  bind (unpack c0) (fun c =>
  bind (seq_of (Err TypeError) (a_dsets c)) (fun ds =>
  bind (seq_of (Ok [ENone]) (a_wgts c)) (fun ws =>
  bind (seq_of (Ok (repeat ENone (List.length ds))) (a_stds c)) (fun ss =>
  bind (seq_of (Ok (repeat ENone (List.length ds))) (a_cals c)) (fun cs =>
  require (Nat.eqb (List.length ds) (List.length ws)) AssertionError (
  require (Nat.eqb (List.length ss) (List.length ds)) AssertionError (
  require (Nat.eqb (List.length cs) (List.length ds)) AssertionError (
  let ls := match a_labels c with LNone => None | LStr s => Some [s] | LSeq l => Some l end in
  require (match ls with None => true | Some l => Nat.eqb (List.length ds) (List.length l) end) AssertionError (
  require (forallb (ok_elem false) ds && forallb (ok_elem true) ws && forallb (ok_elem true) ss) TypeError (
  require (forallb (ok_elem true) cs) TypeError (
  Ok (ds, ws, ss, cs, ls)))))))))))).

(** [add]: the object and the contents after the call, and the exception if there was one; pspecdata.py:119-298. The
    labels of the appended lists are made unique as in LabelModel.v; the last assignments read [self.dsets[0]] *)
Definition add_call (st : pspec) (h : H) (c : acall) : pspec * H * option pyerr :=
  match checked c with
  | Err e => (st, h, Some e)
  | Ok (ds, ws, ss, cs, ls) =>
      match cal_loop (a_flag c) h (zip3 (objs ds) (map el ss) (map el cs)) with
      | (h', Some e) => (st, h', Some e)
      | (h', None) =>
          let labs := match ls with Some l => l | None => default_labels (List.length (p_dsets st)) (List.length ds) end in
          let dl := p_dsets st ++ objs ds in
          let wl := p_wgts st ++ map el ws in
          let sl := p_stds st ++ map el ss in
          let ll := fix_labels [] (p_labels st ++ labs) in
          match dl with
          | [] => (mkps dl wl sl ll (p_Nfreqs st) (p_Ntimes st) (p_spw st) (p_spwNfreqs st) (p_Ndlys st), h', Some IndexError)
          | d0 :: _ => (mkps dl wl sl ll (Some (nfreqs d0)) (Some (ntimes d0)) (Some (0, nfreqs d0)) (Some (nfreqs d0)) (Some (nfreqs d0)), h', None)
          end
      end
  end.

(** the constructor, pspecdata.py:69-109: absent weights become a list of None (also for a dict of datasets), error sets
    are dropped altogether when None is among them (among the keys, for a dict), and [add] is called when there are any
    datasets. A single UVData object has no length: a TypeError *)
Definition construct (h : H) (c : acall) : H * (pspec + pyerr) :=
  let go n (sds : arg D) :=
    if Nat.eqb n 0 then (h, inl p_empty)
    else
      let w := match a_wgts c with ANone => ASeq false (repeat ENone n) | w => w end in
      match add_call p_empty h (mkac (a_dsets c) w (a_labels c) sds (a_cals c) (a_flag c)) with
      | (st, h', None) => (h', inl st)
      | (_, h', Some e) => (h', inr e)
      end in
  let stds :=
    match a_stds c with
    | ASeq t l => Ok (if existsb (fun e => match e with ENone => true | _ => false end) l then ANone else ASeq t l)
    | ABad => Err TypeError
    | s => Ok s
    end in
  match a_dsets c, stds with
  | ANone, Ok s => go 0 s
  | ASeq _ l, Ok s => go (List.length l) s
  | ADict l, Ok s => go (List.length l) s
  | _, _ => (h, inr TypeError)
  end.

(** a history of calls, refused ones included; calls of pspecdata.py:119-298 [add] *)
Definition add_run (st : pspec) (h : H) (cs : list acall) : pspec * H :=
  fold_left (fun x c => let '(s, h', _) := add_call (fst x) (snd x) c in (s, h')) cs (st, h).

(** the argument of [dset_idx]: a text, a Python or numpy integer (booleans are integers), or anything else; pspecdata.py:507-517 *)
Inductive idxarg := IStr (s : pystr) | IInt (z : Z) | IBad.
(** pspecdata.py:493-517 [dset_idx] *)
Definition idx_of (st : pspec) (i : idxarg) : result Z :=
  match i with
  | IStr s => match index_str s (p_labels st) with Some n => Ok (Z.of_nat n) | None => Err KeyError end
  | IInt z => Ok z
  | IBad => Err TypeError
  end.
End AddArgs.
Arguments pspec : clear implicits.
Arguments acall : clear implicits.
