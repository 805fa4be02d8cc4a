(** Model of [PSpecData.__str__] (pspecdata.py:300-329): the text that printing a PSpecData object gives. *)
From Coq Require Import Ascii String ZArith.
From Verif Require Import Prelude PyStr.
Open Scope Z_scope.

(** what is printed of a dataset: its label, and how many baselines, channels, times and polarizations it has; pspecdata.py:311-328 *)
Record dsum := mkdsum { d_label : option pystr; d_bls : Z; d_freqs : Z; d_times : Z; d_pols : Z }.
(** the end of a line, after the bracket before the index; pspecdata.py:312-313, 320-321 *)
Definition line_end (i : nat) (d : dsum) : pystr :=
  str_Z (Z.of_nat i) ++ s_ "): " ++ str_Z (d_bls d) ++ s_ " bls (freqs=" ++ str_Z (d_freqs d) ++ s_ ", times=" ++ str_Z (d_times d) ++
  s_ ", pols=" ++ str_Z (d_pols d) ++ s_ ")" ++ ["010"%char].
(** pspecdata.py:311-328 *)
Definition line (i : nat) (d : dsum) : pystr :=
  match d_label d with None => s_ "  dset (" ++ line_end i d | Some l => s_ "  dset '" ++ l ++ s_ "' (" ++ line_end i d end.
(** pspecdata.py:310 *)
Fixpoint lines_from (i : nat) (ds : list dsum) : pystr := match ds with [] => [] | d :: ds' => line i d ++ lines_from (S i) ds' end.
(** pspecdata.py:305-329; nothing separates the first line from the second, except without datasets *)
Definition summary (ds : list dsum) : pystr :=
  s_ "PSpecData object" ++ ["010"%char] ++ s_ "  " ++ str_Z (Z.of_nat (List.length ds)) ++ s_ " datasets" ++ lines_from 0 ds.
