(** Properties C01 and C02: the baseline(-pair) integer codec.
    All arithmetic in the model is IEEE binary64 arithmetic, see BlCodecModel.v. *)
From Coq Require Import ZArith List Lia.
Import ListNotations.
From Verif Require Import Prelude BlCodecModel BlCodecProofs.
Open Scope Z_scope.

(** C01. antenna numbers 0..899: decode (encode x) = x for baselines and baseline-pairs,
    computed in double precision, and the integer of a pair is made of the integers of its
    two baselines. *)
Theorem C01_codec_round_trip : forall a1 a2 a3 a4 : Z,
  0 <= a1 < 900 -> 0 <= a2 < 900 -> 0 <= a3 < 900 -> 0 <= a4 < 900 ->
  blpair_to_antnums (antnums_to_blpair ((a1, a2), (a3, a4))) = ((a1, a2), (a3, a4)) /\
  bl_to_antnums (antnums_to_bl (a1, a2)) = (a1, a2) /\
  blpair_to_bls (antnums_to_blpair ((a1, a2), (a3, a4))) =
    (antnums_to_bl (a1, a2), antnums_to_bl (a3, a4)) /\
  antnums_to_blpair ((a1, a2), (a3, a4)) =
    antnums_to_bl (a1, a2) * 1000000 + antnums_to_bl (a3, a4).
Proof. exact codec_round_trip_lem. Qed.
Print Assumptions C01_codec_round_trip.

Example C01_codec_round_trip_case :
  blpair_to_antnums (antnums_to_blpair ((899, 0), (37, 512))) = ((899, 0), (37, 512)).
Proof. apply blpair_round_trip_lem; lia. Qed.

(** C01. conjugation is reversal of the antenna tuples, and undoing it gives the original *)
Theorem C01_conjugation : forall a1 a2 a3 a4 : Z,
  0 <= a1 < 900 -> 0 <= a2 < 900 -> 0 <= a3 < 900 -> 0 <= a4 < 900 ->
  let b := antnums_to_blpair ((a1, a2), (a3, a4)) in
  conj_blpair_int b = antnums_to_blpair ((a3, a4), (a1, a2)) /\
  conj_blpair_int (conj_blpair_int b) = b /\
  conj_bl_int (antnums_to_bl (a1, a2)) = antnums_to_bl (a2, a1) /\
  conj_bl_int (conj_bl_int (antnums_to_bl (a1, a2))) = antnums_to_bl (a1, a2) /\
  conj_blpair b First = Ok (antnums_to_blpair ((a2, a1), (a3, a4))) /\
  conj_blpair b Second = Ok (antnums_to_blpair ((a1, a2), (a4, a3))) /\
  conj_blpair b Both = Ok (antnums_to_blpair ((a2, a1), (a4, a3))) /\
  conj_blpair b OtherWhich = Err ValueError.
Proof. exact conj_involutive_lem. Qed.
Print Assumptions C01_conjugation.

Example C01_conjugation_case :
  conj_blpair_int (antnums_to_blpair ((1, 2), (3, 4))) = antnums_to_blpair ((3, 4), (1, 2)).
Proof. apply conj_blpair_int_lem; lia. Qed.

(** C01/C02. encodings are distinct as long as every antenna number is below 1000 *)
Theorem C01_blpair_injective : forall p q : (Z * Z) * (Z * Z),
  (forall x, In x [fst (fst p); snd (fst p); fst (snd p); snd (snd p);
                   fst (fst q); snd (fst q); fst (snd q); snd (snd q)] -> 0 <= x < 1000) ->
  antnums_to_blpair p = antnums_to_blpair q -> p = q.
Proof. exact blpair_inj_lem. Qed.
Print Assumptions C01_blpair_injective.

Example C01_blpair_injective_case :
  antnums_to_blpair ((1, 2), (3, 4)) <> antnums_to_blpair ((1, 2), (4, 3)).
Proof.
  intros H. assert (E : ((1, 2), (3, 4)) = ((1, 2), (4, 3))).
  { apply C01_blpair_injective; [|exact H]. clear H.
    cbn [fst snd In]; intros x Hx; lia. }
  clear H. discriminate E.
Qed.

(** C02 as stated (any array size) is false: antenna 1000 collides. *)
Theorem C02_blpair_unique_refuted : exists p q : (Z * Z) * (Z * Z),
  p <> q /\
  (forall x, In x [fst (fst p); snd (fst p); fst (snd p); snd (snd p);
                   fst (fst q); snd (fst q); fst (snd q); snd (snd q)] -> 0 <= x) /\
  antnums_to_blpair p = antnums_to_blpair q.
Proof.
  exists ((0, 1000), (0, 0)), ((1, 0), (0, 0)). split; [discriminate|]. split.
  - cbn [fst snd In]; intros x Hx; lia.
  - exact blpair_collision_lem.
Qed.
Print Assumptions C02_blpair_unique_refuted.

(** C02, decoding side: an antenna number in 900..999 is silently decoded to a wrong,
    negative antenna number (and a neighbour off by one), for every such pair *)
Theorem C02_decode_wrong_from_900 : forall a1 a2 a3 a4 : Z,
  0 <= a1 < 899 -> 900 <= a2 < 1000 -> 0 <= a3 < 900 -> 0 <= a4 < 900 ->
  blpair_to_antnums (antnums_to_blpair ((a1, a2), (a3, a4))) = ((a1 + 1, a2 - 1000), (a3, a4)).
Proof. exact blpair_decode_wrong_lem. Qed.
Print Assumptions C02_decode_wrong_from_900.

Example C02_decode_wrong_case :
  blpair_to_antnums (antnums_to_blpair ((0, 900), (0, 0))) = ((1, -100), (0, 0)).
Proof. exact blpair_900_lem. Qed.

(** the split [bl1 = floor(blpair/1e6)], [blpair - bl1*1e6] used by select and by the redundancy
    helpers, in double precision, is integer division with remainder for 12-digit integers *)
Theorem C01_float_split : forall b : Z, 0 <= b < 1000000000000 ->
  let bl1 := int_floor (fdiv (fl b) f1e6) in
  bl1 = b / 1000000 /\ fsub (fl b) (fmul (fl bl1) f1e6) = Rdefinitions.IZR (b mod 1000000).
Proof. exact float_split_lem. Qed.
Print Assumptions C01_float_split.
