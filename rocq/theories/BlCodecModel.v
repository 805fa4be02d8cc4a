(** Model of the baseline / baseline-pair integer codec of
    src/hera_pspec/uvpspec_utils.py, lines 950-1153, in IEEE binary64 arithmetic:
    every Python float operation is the real operation followed by rounding to nearest
    even (Flocq's generic format with 53 bits; overflow to infinity is not modelled, all
    values here stay below 2^53 or are only rounded). Python ints are [Z]. *)
From Coq Require Import ZArith Reals Psatz.
From Flocq Require Import Core.
From Verif Require Import Prelude.
Open Scope R_scope.

(** binary64 rounding to nearest, ties to even *)
Definition rnd (x : R) : R := round radix2 (FLT_exp (-1074) 53) ZnearestE x.
(** int -> float conversion; the Python and numpy arithmetic of uvpspec_utils.py:950-1062 *)
Definition fl (n : Z) : R := rnd (IZR n).
(** the Python and numpy arithmetic of uvpspec_utils.py:950-1062 *)
Definition fadd (x y : R) : R := rnd (x + y).
(** the Python and numpy arithmetic of uvpspec_utils.py:950-1062 *)
Definition fsub (x y : R) : R := rnd (x - y).
(** the Python and numpy arithmetic of uvpspec_utils.py:950-1062 *)
Definition fmul (x y : R) : R := rnd (x * y).
(** the Python and numpy arithmetic of uvpspec_utils.py:950-1062 *)
Definition fdiv (x y : R) : R := rnd (x / y).
(** np.floor followed by int(): floor of a float is exact; uvpspec_utils.py:950-1062 *)
Definition int_floor (x : R) : Z := Zfloor x.
(** int(float): truncation towards zero; uvpspec_utils.py:950-1062 *)
Definition int_ (x : R) : Z := Ztrunc x.

(** uvpspec_utils.py:950-1062 *)
Definition f1e3 : R := fl 1000.
(** uvpspec_utils.py:950-1062 *)
Definition f1e6 : R := fl 1000000.
(** uvpspec_utils.py:950-1062 *)
Definition f1e9 : R := fl 1000000000.

(** uvpspec_utils.py:950-1062 *)
Definition antpair : Set := (Z * Z)%type.
(** uvpspec_utils.py:950-1062 *)
Definition blpair_ants : Set := (antpair * antpair)%type.

(** uvpspec_utils.py:950-978 [_blpair_to_antnums] *)
Definition blpair_to_antnums (b : Z) : blpair_ants :=
  let ant1 := int_floor (fdiv (fl b) f1e9) in
  let ant2 := int_floor (fsub (fdiv (fl b) f1e6) (fmul (fl ant1) f1e3)) in
  let ant3 := int_floor (fsub (fsub (fdiv (fl b) f1e3) (fmul (fl ant1) f1e6))
                              (fmul (fl ant2) f1e3)) in
  let ant4 := int_floor (fsub (fsub (fsub (fl b) (fmul (fl ant1) f1e9))
                                    (fmul (fl ant2) f1e6))
                              (fmul (fl ant3) f1e3)) in
  (((ant1 - 100)%Z, (ant2 - 100)%Z), ((ant3 - 100)%Z, (ant4 - 100)%Z)).

(** uvpspec_utils.py:981-1008 [_antnums_to_blpair] *)
Definition antnums_to_blpair (a : blpair_ants) : Z :=
  let ant1 := (fst (fst a) + 100)%Z in
  let ant2 := (snd (fst a) + 100)%Z in
  let ant3 := (fst (snd a) + 100)%Z in
  let ant4 := (snd (snd a) + 100)%Z in
  int_ (fadd (fadd (fadd (fmul (fl ant1) f1e9) (fmul (fl ant2) f1e6))
                   (fmul (fl ant3) f1e3)) (fl ant4)).

(** uvpspec_utils.py:1011-1034 [_bl_to_antnums] *)
Definition bl_to_antnums (b : Z) : antpair :=
  let ant1 := int_floor (fdiv (fl b) f1e3) in
  let ant2 := int_floor (fsub (fl b) (fmul (fl ant1) f1e3)) in
  ((ant1 - 100)%Z, (ant2 - 100)%Z).

(** uvpspec_utils.py:1037-1062 [_antnums_to_bl] *)
Definition antnums_to_bl (a : antpair) : Z :=
  let ant1 := (fst a + 100)%Z in
  let ant2 := (snd a + 100)%Z in
  int_ (fadd (fmul (fl ant1) f1e3) (fl ant2)).

(** uvpspec_utils.py:1065-1082 [_blpair_to_bls] (integer argument) *)
Definition blpair_to_bls (b : Z) : Z * Z :=
  let a := blpair_to_antnums b in (antnums_to_bl (fst a), antnums_to_bl (snd a)).

(** Python [t[::-1]] on a length-2 tuple; uvpspec_utils.py:1085-1122 *)
Definition rev2 {A} (t : A * A) : A * A := (snd t, fst t).

(** uvpspec_utils.py:1085-1102 [_conj_blpair_int] *)
Definition conj_blpair_int (b : Z) : Z := antnums_to_blpair (rev2 (blpair_to_antnums b)).

(** uvpspec_utils.py:1105-1122 [_conj_bl_int] *)
Definition conj_bl_int (b : Z) : Z := antnums_to_bl (rev2 (bl_to_antnums b)).

(** the [which] argument of [_conj_blpair]; any other string raises ValueError; uvpspec_utils.py:1125-1154 [_conj_blpair] *)
Inductive which := First | Second | Both | OtherWhich.

(** uvpspec_utils.py:1125-1154 [_conj_blpair] *)
Definition conj_blpair (b : Z) (w : which) : result Z :=
  let a := blpair_to_antnums b in
  match w with
  | First => Ok (antnums_to_blpair (rev2 (fst a), snd a))
  | Second => Ok (antnums_to_blpair (fst a, rev2 (snd a)))
  | Both => Ok (antnums_to_blpair (rev2 (fst a), rev2 (snd a)))
  | OtherWhich => Err ValueError
  end.
