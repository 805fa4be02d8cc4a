(** Model of [PSpecData.add] (pspecdata.py:119-298) and [dset_idx] (pspecdata.py:493-517):
    the list of datasets (of any type) and their labels. Only labels and datasets are modelled;
    weights, error sets and calibrations are not. *)
From Coq Require Import Ascii String.
From Verif Require Import Prelude PyStr.

(** pspecdata.py:278-286, one label: [while ext < 1e5: if l in self.labels[:i]: l = self.labels[i] + ".ext"; ext += 1
    else: self.labels[i] = l; break]. [lab] is [self.labels[i]], [cur] is [l]; the fuel is the number
    of iterations left *)
Definition dotted (lab : pystr) (ext : Z) : pystr := lab ++ s_ "." ++ str_Z ext.
(** pspecdata.py:278-286 [add] *)
Fixpoint uniq (fuel : nat) (prefix : list pystr) (lab cur : pystr) (ext : Z) : pystr :=
  match fuel with
  | O => lab
  | S f => if existsb (str_eqb cur) prefix then uniq f prefix lab (dotted lab ext) (ext + 1) else cur
  end.
(** ext runs over 1 .. 99999 *)
Definition max_ext : nat := Z.to_nat 99999.
(** pspecdata.py:278-286 [add] *)
Fixpoint fix_labels (done rest : list pystr) : list pystr :=
  match rest with [] => done | l :: r => fix_labels (done ++ [uniq max_ext done l l 1]) r end.

Section Add.
Context {D : Type}.
(** pspecdata.py:119-298 [add] *)
Record pd := mkpd { dsets : list D; labels : list pystr }.
(** pspecdata.py:119-298 [add] *)
Definition pd_init : pd := mkpd [] [].

(** pspecdata.py:227-231 and 247-254 *)
Definition default_labels (k n : nat) : list pystr := map (fun i => s_ "dset" ++ str_Z (Z.of_nat i)) (seq k n).
(** pspecdata.py:119-298 [add] *)
Definition add (st : pd) (ds : list D) (labs : option (list pystr)) : result pd :=
  let ls := match labs with Some l => l | None => default_labels (length (dsets st)) (length ds) end in
  require (Nat.eqb (length ds) (length ls)) AssertionError (
  Ok (mkpd (dsets st ++ ds) (fix_labels [] (labels st ++ ls)))).

(** [self.labels.index(dset)], or KeyError; pspecdata.py:493-517 [dset_idx] *)
Fixpoint index_str (x : pystr) (l : list pystr) : option nat :=
  match l with [] => None | y :: l' => if str_eqb x y then Some 0%nat else option_map S (index_str x l') end.
(** pspecdata.py:493-517 [dset_idx] *)
Definition dset_idx (st : pd) (lab : pystr) : result nat :=
  match index_str lab (labels st) with Some i => Ok i | None => Err KeyError end.

(** a history of calls; a failing call leaves the object as it was; calls of pspecdata.py:119-298 [add] *)
Definition add_all (st : pd) (calls : list (list D * option (list pystr))) : pd :=
  fold_left (fun s c => match add s (fst c) (snd c) with Ok s' => s' | Err _ => s end) calls st.
End Add.
Arguments pd : clear implicits.
