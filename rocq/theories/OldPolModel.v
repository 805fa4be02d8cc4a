(** Model of how [read_from_group] reads polarizations from files of the present format (polpair_array) and an older one (pol_array), and the
    [exact_windows] of files that have none (uvpspec.py:1802-1832). *)
From Coq Require Import ZArith.
From Verif Require Import Prelude PolPairModel.
Open Scope Z_scope.
(** the attributes of the file, None if it has none; uvpspec.py:1803-1832 *)
Record polfile := mkpolfile { pf_polpairs : option (list Z); pf_pols : option (list Z); pf_exact : option bool }.
(** polpair_array of the object before the selection; uvpspec.py:1803-1827 *)
Definition read_polpairs (f : polfile) : option (list Z) :=
  match pf_pols f with None => pf_polpairs f | Some ps => Some (map (fun p => polpair_tuple2int (p, p)) ps) end.
(** exact_windows; uvpspec.py:1829-1831 *)
Definition read_exact (f : polfile) : bool := match pf_exact f with None => false | Some b => b end.
