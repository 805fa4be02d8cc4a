(** Model of compress_r_params / decompress_r_params, src/hera_pspec/uvpspec_utils.py:144-225,
    used by UVPSpec.get_r_params (uvpspec.py:784-803).
    Baseline keys have type [K], parameter values type [V] with decidable equality; the JSON
    text in between is modelled as the (nested) dictionary it encodes: JSON is assumed to
    preserve values, turns tuple keys into lists (undone by [tuple(blkey)]) and integer
    dictionary keys into strings (never looked at by the decoder). *)
From Coq Require Import Ascii String.
From Verif Require Import PyDict PyStr.
From Verif Require Import Prelude.

Definition field := pystr.
(** uvpspec_utils.py:144-225 *)
Definition field_eq (a b : field) : {a = b} + {a <> b} := list_eq_dec ascii_dec a b.
(** uvpspec_utils.py:144-225 *)
Definition BASELINES : field := s_ "baselines".
Arguments field_eq : simpl never.
Arguments BASELINES : simpl never.

Section RParams.
Context {K V : Type} (eqk : forall x y : K, {x = y} + {x <> y})
        (eqv : forall x y : V, {x = y} + {x <> y}).

(** uvpspec_utils.py:144-225 *)
Definition params := list (field * V).

(** Python [d1 == d2] on dictionaries: same keys with equal values, any order; uvpspec_utils.py:144-225 *)
Definition dict_eqb (d1 d2 : params) : bool :=
  Nat.eqb (length d1) (length d2) &&
  forallb (fun kv => match dget field_eq d2 (fst kv) with
                     | Some v => if eqv (snd kv) v then true else false
                     | None => false end) d1.

(** one unique parameter set with its baselines, as stored: a parameter value or the
    baseline list under the field "baselines"; uvpspec_utils.py:144-225 *)
Inductive jval := JVal (v : V) | JBls (l : list K).
(** uvpspec_utils.py:144-225 *)
Definition jdict := list (field * jval).

(** uvpspec_utils.py:170-181, the loop body: append to every equal unique set, else add *)
Definition uniq_step (u : list (params * list K)) (kv : K * params) : list (params * list K) :=
  let hit := existsb (fun e => dict_eqb (fst e) (snd kv)) u in
  if hit then map (fun e => if dict_eqb (fst e) (snd kv) then (fst e, snd e ++ [fst kv]) else e) u
  else u ++ [(snd kv, [fst kv])].

(** uvpspec_utils.py:144-187 [compress_r_params] *)
Definition uniques (d : list (K * params)) : list (params * list K) := fold_left uniq_step d [].

(** uvpspec_utils.py:183-184: [r_params_unique[rpi]["baselines"] = ...] *)
Definition attach (e : params * list K) : jdict :=
  dset field_eq (map (fun fv => (fst fv, JVal (snd fv))) (fst e)) BASELINES (JBls (snd e)).

(** uvpspec_utils.py:164-186 [compress_r_params]; [None] is the empty string *)
Definition compress (d : list (K * params)) : option (list jdict) :=
  match d with
  | [] => None
  | _ => Some (map attach (uniques d))
  end.

(** uvpspec_utils.py:214-217: drop the "baselines" field *)
Definition strip_baselines (j : jdict) : list (field * jval) :=
  filter (fun fv => if field_eq (fst fv) BASELINES then false else true) j.

(** uvpspec_utils.py:218-219; a missing or non-list "baselines" raises *)
Definition decomp_step (acc : result (list (K * jdict))) (j : jdict) : result (list (K * jdict)) :=
  bind acc (fun a =>
  match dget field_eq j BASELINES with
  | None => Err KeyError
  | Some (JVal _) => Err TypeError
  | Some (JBls bls) => Ok (fold_left (fun a b => dset eqk a b (strip_baselines j)) bls a)
  end).

(** uvpspec_utils.py:210-225 [decompress_r_params] *)
Definition decompress (s : option (list jdict)) : result (list (K * jdict)) :=
  match s with
  | None => Ok []
  | Some l => fold_left decomp_step l (Ok [])
  end.
End RParams.
Arguments params : clear implicits.
Arguments jval : clear implicits.
Arguments jdict : clear implicits.
