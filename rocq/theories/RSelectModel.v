(** Model of what [_select] does to r_params (uvpspec_utils.py:929-947), of the keys under which [PSpecData.pspec] looks
    them up (pspecdata.py:3834-3849) and of what it stores (pspecdata.py:4215).
    A key is a tuple of integers and strings; [_select] runs in every select, every read and every fold. *)
From Coq Require Import Ascii String.
From Verif Require Import PyDict PyStr RParamsModel.
From Verif Require Import Prelude.
Open Scope nat_scope.

Inductive atom := AInt (z : Z) | AStr (s : pystr).
(** keys at uvpspec_utils.py:929-947 [_select], pspecdata.py:3834-3849 [pspec] *)
Definition atom_eq (a b : atom) : {a = b} + {a <> b}.
Proof. decide equality; [apply Z.eq_dec|apply (list_eq_dec ascii_dec)]. Defined.
(** keys at uvpspec_utils.py:929-947 [_select], pspecdata.py:3834-3849 [pspec] *)
Definition rkey := list atom.
(** keys at uvpspec_utils.py:929-947 [_select], pspecdata.py:3834-3849 [pspec] *)
Definition rkey_eq : forall a b : rkey, {a = b} + {a <> b} := list_eq_dec atom_eq.

(** an element of [get_all_keys()]: (spw, ((ant, ant), (ant, ant)), (pol, pol)), polarizations as strings; keys at uvpspec_utils.py:929-947 [_select], pspecdata.py:3834-3849 [pspec] *)
Record akey := mkakey { ak_spw : nat; ak_bl1 : Z * Z; ak_bl2 : Z * Z; ak_pol1 : pystr; ak_pol2 : pystr }.
(** [blpkey[1][0] + (blpkey[2][0],)]; keys at uvpspec_utils.py:929-947 [_select], pspecdata.py:3834-3849 [pspec] *)
Definition bl_key (bl : Z * Z) (p : pystr) : rkey := [AInt (fst bl); AInt (snd bl); AStr p].
(** pspecdata.py:3836-3837 [(dsets[0],) + blp[0] + (p_str[0],)] *)
Definition dset_key (d : atom) (bl : Z * Z) (p : pystr) : rkey := d :: bl_key bl p.

Section RSelect.
Context {V : Type} (eqv : forall x y : V, {x = y} + {x <> y}).
(** uvpspec.py:784-803 [get_r_params] *)
Definition stored := option (list (jdict rkey V)).      (* None: the empty string *)

(** uvpspec_utils.py:930-938 *)
Definition blkeys (ks : list akey) : list rkey :=
  flat_map (fun k => [bl_key (ak_bl1 k) (ak_pol1 k); bl_key (ak_bl2 k) (ak_pol2 k)]) ks.
(** the parameters as read from JSON are dictionaries of values; uvpspec.py:784-803 [get_r_params] *)
Definition values (j : jdict rkey V) : params V :=
  flat_map (fun fv => match snd fv with JVal v => [(fst fv, v)] | JBls _ => [] end) j.
(** uvpspec_utils.py:939-947 *)
Definition select_r (ks : list akey) (s : stored) : result stored :=
  bind (decompress rkey_eq s) (fun d =>
  Ok (compress eqv (map (fun kv => (fst kv, values (snd kv)))
       (filter (fun kv => if in_dec rkey_eq (fst kv) (blkeys ks) then true else false) d)))).
(** [get_r_params()]; uvpspec.py:784-803 [get_r_params] *)
Definition get_r (s : stored) : result (list (rkey * params V)) :=
  bind (decompress rkey_eq s) (fun d => Ok (map (fun kv => (fst kv, values (snd kv))) d)).

(** pspecdata.py:3834-3849 for dayenu weighting: every key of the datasets and baselines used must be there *)
Definition pspec_accepts (d1 d2 : atom) (ks : list akey) (r : list (rkey * params V)) : bool :=
  forallb (fun k => match dget rkey_eq r (dset_key d1 (ak_bl1 k) (ak_pol1 k)), dget rkey_eq r (dset_key d2 (ak_bl2 k) (ak_pol2 k)) with
                    | Some _, Some _ => true | _, _ => false end) ks.
(** pspecdata.py:4215 *)
Definition pspec_stores (r : list (rkey * params V)) : stored := compress eqv r.
End RSelect.
