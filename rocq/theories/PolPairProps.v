(** Property C03: the polarization-pair integer codec. *)
From Coq Require Import ZArith List.
Import ListNotations.
From Verif Require Import Prelude PyStr PolPairModel PolPairProofs.
Open Scope Z_scope.

(** C03. every list of pairs of valid polarization numbers survives encoding and decoding *)
Theorem C03_polpair_round_trip : forall l : list (Z * Z),
  (forall p, In p l -> -8 <= fst p <= 4 /\ -8 <= snd p <= 4) ->
  polpair_int2tuple_list (polpair_tuple2int_list l) = Ok l.
Proof. exact polpair_list_round_trip_lem. Qed.
Print Assumptions C03_polpair_round_trip.

Example C03_polpair_round_trip_case :
  polpair_tuple2int_list [(-5, -5); (1, 2)] = [1515; 2122] /\
  polpair_int2tuple_list [1515; 2122] = Ok [(-5, -5); (1, 2)].
Proof. split; vm_compute; reflexivity. Qed.

(** C03. every integer whatsoever either is the code of one valid pair, and decodes to it,
    or is the code of none, and is rejected with a ValueError *)
Theorem C03_polpair_decode_total : forall n : Z,
  (exists p1 p2, -8 <= p1 <= 4 /\ -8 <= p2 <= 4 /\ n = (20 + p1) * 100 + (20 + p2) /\
                 polpair_int2tuple n = Ok (p1, p2)) \/
  ((forall p1 p2, -8 <= p1 <= 4 -> -8 <= p2 <= 4 -> n <> (20 + p1) * 100 + (20 + p2)) /\
   polpair_int2tuple n = Err ValueError).
Proof. exact polpair_decode_iff_lem. Qed.
Print Assumptions C03_polpair_decode_total.

Example C03_polpair_decode_case :
  polpair_int2tuple 1412 = Ok (-6, -8) /\ polpair_int2tuple 1511 = Err ValueError /\
  polpair_int2tuple 15 = Err ValueError /\ polpair_int2tuple (-1515) = Err ValueError.
Proof. repeat split; vm_compute; reflexivity. Qed.

(** C03. different pairs get different codes *)
Theorem C03_polpair_injective : forall p1 p2 q1 q2 : Z,
  -8 <= p1 <= 4 -> -8 <= p2 <= 4 -> -8 <= q1 <= 4 -> -8 <= q2 <= 4 ->
  polpair_tuple2int (p1, p2) = polpair_tuple2int (q1, q2) -> (p1, p2) = (q1, q2).
Proof. exact polpair_injective_lem. Qed.
Print Assumptions C03_polpair_injective.

Example C03_polpair_injective_case : polpair_tuple2int (-5, -6) <> polpair_tuple2int (-6, -5).
Proof. discriminate. Qed.
