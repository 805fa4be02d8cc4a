(** Model of the polarization-pair integer codec, src/hera_pspec/uvpspec_utils.py:388-475.
    Polarizations are integers (the conversion of polarization strings, done by pyuvdata's
    polstr2num / polnum2str, is external and not modelled). *)
From Verif Require Import Prelude PyStr.
Open Scope Z_scope.

(** uvpspec_utils.py:409-431 [polpair_int2tuple], integer argument, pol_strings=False *)
Definition polpair_int2tuple (polpair : Z) : result (Z * Z) :=
  let s := str_Z polpair in
  bind (py_int (drop_end 2 s)) (fun i1 =>
  bind (py_int (take_end 2 s)) (fun i2 =>
  let pol1 := i1 - 20 in
  let pol2 := i2 - 20 in
  if ((pol1 <? -8) || (pol1 >? 4)) || ((pol2 <? -8) || (pol2 >? 4)) then Err ValueError
  else Ok (pol1, pol2))).

(** uvpspec_utils.py:405-407, list or array argument *)
Definition polpair_int2tuple_list (l : list Z) : result (list (Z * Z)) :=
  map_res polpair_int2tuple l.

(** uvpspec_utils.py:461-476 [polpair_tuple2int], tuple of integers *)
Definition polpair_tuple2int (p : Z * Z) : Z := (20 + fst p) * 100 + (20 + snd p).

(** uvpspec_utils.py:458-459, list argument *)
Definition polpair_tuple2int_list (l : list (Z * Z)) : list Z := map polpair_tuple2int l.
