(** What the arguments of PSpecData.add mean (pspecdata.py:119-152, 153-246), stated on the arguments alone: which datasets
    a call gives, and which weights, error set and calibration belong to each. Specification for AddProps.v; nothing here
    models code beyond the arguments of AddModel.v. *)
From Coq Require Import Ascii String.
From Verif Require Import Prelude PyStr LabelModel AddModel.
Open Scope nat_scope.

(** an optional object as an item of a list; pspecdata.py:225-238 *)
Definition lift {A} (o : option A) : elem A := match o with Some a => EIs a | None => ENone end.

Section Spec.
Context {D C : Type}.
(** one dataset with its weights, error set and calibration; the docstring at pspecdata.py:121-152 *)
Record entry := mke { e_dset : D; e_wgt : option D; e_std : option D; e_cal : option C }.

(** a single object is a list of one, tuples are lists; pspecdata.py:185-205 *)
Inductive by_position {A} : arg A -> list (option A) -> Prop :=
| bp_one : forall x, by_position (AOne x) [Some x]
| bp_seq : forall t l, by_position (ASeq t (map lift l)) l.
(** absent error sets and calibrations are None for every dataset; pspecdata.py:194-197 *)
Definition by_position_or_none {A} (n : nat) (a : arg A) (l : list (option A)) : Prop := by_position a l \/ (a = ANone /\ l = repeat None n).
(** absent weights are one None; pspecdata.py:192-193 *)
Definition weights_by_position {A} (a : arg A) (l : list (option A)) : Prop := by_position a l \/ (a = ANone /\ l = [None]).
(** the entries of a dict under given keys; an absent dict has None under each; pspecdata.py:153-183 *)
Definition by_key {A} (ks : list pystr) (a : arg A) (l : list (option A)) : Prop :=
  (exists d, a = ADict d /\ Forall2 (fun k o => dlook d k = Some (lift o)) ks l) \/ (a = ANone /\ l = repeat None (List.length ks)).
(** pspecdata.py:188-189, 222-226 *)
Definition labels_mean (n : nat) (a : labarg) (l : option (list pystr)) : Prop :=
  match a with LNone => l = None | LStr s => n = 1 /\ l = Some [s] | LSeq ls => List.length ls = n /\ l = Some ls end.

(** what an acceptable call gives: its entries, and the labels it asks for, if any; pspecdata.py:153-246 *)
Inductive call_means : acall D C -> list entry -> option (list pystr) -> Prop :=
| means_lists : forall ds ws labs ss cs fl es ls,
    by_position ds (map (fun e => Some (e_dset e)) es) ->
    weights_by_position ws (map e_wgt es) ->
    by_position_or_none (List.length es) ss (map e_std es) ->
    by_position_or_none (List.length es) cs (map e_cal es) ->
    labels_mean (List.length es) labs ls ->
    call_means (mkac ds ws labs ss cs fl) es ls
| means_dict : forall d ws ss cs fl es,
    by_key (map fst d) (ADict d) (map (fun e => Some (e_dset e)) es) ->
    by_key (map fst d) ws (map e_wgt es) ->
    by_key (map fst d) ss (map e_std es) ->
    by_key (map fst d) cs (map e_cal es) ->
    call_means (mkac (ADict d) ws LNone ss cs fl) es (Some (map fst d)).

(** calibrating the datasets of a call, one entry after another, the error set after its dataset; it stops where a
    calibration raises; pspecdata.py:257-270 *)
Fixpoint calibrate {H} (calib : H -> D -> C -> bool -> H * option pyerr) (fl : bool) (h : H) (es : list entry) : H * option pyerr :=
  match es with
  | [] => (h, None)
  | e :: es' =>
      match e_cal e with
      | None => calibrate calib fl h es'
      | Some c =>
          let r := calib h (e_dset e) c fl in
          let r := match e_std e, r with Some s, (h', None) => calib h' s c fl | _, _ => r end in
          match r with (h', None) => calibrate calib fl h' es' | _ => r end
      end
  end.
(** the object as a list of entries: the four lists have one length, pspecdata.py:272-276 *)
Definition aligned (st : pspec D) : Prop :=
  List.length (p_wgts st) = List.length (p_dsets st) /\ List.length (p_stds st) = List.length (p_dsets st) /\ List.length (p_labels st) = List.length (p_dsets st).

End Spec.
Arguments entry : clear implicits.
