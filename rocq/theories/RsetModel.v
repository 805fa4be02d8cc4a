(** Model of [set_R] (pspecdata.py:1047-1064) and of [set_C], [set_iC] (646-661, 1031-1045) on the state of PdModel; [set_r_param]
    (1284-1317) is [SetRParam] of PdModel.  The keys are those [R] looks up (1097-1105); a key of another form is never read. *)
From Verif Require Import Prelude PyDict PyStr SphModel PdModel.

Section Set_.
Context {P : Type}.
(** for k in d: self._R[k] = d[k]; pspecdata.py:1047-1064 *)
Definition set_R (st : pds P) (d : list (rkey * mat)) : pds P :=
  up_cache st (cC st) (cI st) (ciC st) (cY st) (fold_left (fun c km => dset rkey_dec c (fst km) (snd km)) d (cR st)).
End Set_.
