(** Model of [testing.build_vanilla_uvpspec] (testing.py:12-187).
    Numbers are exact; [num] and [vec] embed numbers and vectors into the type of stored entries; [JD2LST] is an arbitrary function; the
    linear arrays are those of np.linspace, the delays those of utils.get_delays (utils.py:536-571) for a spacing of 100 kHz.
    Not modelled: the beam arrays (taken from the beam that is given), history, units, cosmology, the imaginary part of the covariance,
    which equals the real part. *)
From Coq Require Import QArith.
From Verif Require Import Prelude UvpModel.
Open Scope nat_scope.

(** np.tile(l, n); testing.py:12-187 [build_vanilla_uvpspec] *)
Definition tile {A} (l : list A) (n : nat) : list A := concat (repeat l n).
Section Vanilla.
Context {X : Type} (num : Q -> X) (vec : Q -> Q -> Q -> X) (JD2LST : Q -> Q).

(** testing.py:49-54 *)
Definition v_Ntimes : nat := 10.
(** testing.py:12-187 [build_vanilla_uvpspec] *)
Definition v_Nfreqs : nat := 50.
(** testing.py:12-187 [build_vanilla_uvpspec] *)
Definition v_blpairs : list Z := [101102101102; 102103102103; 101103101103]%Z.
(** testing.py:12-187 [build_vanilla_uvpspec] *)
Definition v_bls : list Z := [101102; 102103; 101103]%Z.
(** 56-62: np.linspace(2458042.1, 2458042.2, 10); the second time half a step later if the times are to differ *)
Definition v_time (k : nat) : Q := (24580421 # 10) + inject_Z (Z.of_nat k) * (1 # 90).
(** testing.py:12-187 [build_vanilla_uvpspec] *)
Definition v_time2 (equal : bool) (k : nat) : Q := if equal then v_time k else v_time k + (1 # 180).
(** testing.py:12-187 [build_vanilla_uvpspec] *)
Definition v_times : list Q := map v_time (seq 0 v_Ntimes).
(** 90: np.linspace(100e6, 105e6, 50, endpoint=False) *)
Definition v_freq (k : nat) : Q := inject_Z (100000000 + Z.of_nat k * 100000).
(** 91: fftshift(fftfreq(nd, 1e5)) *)
Definition v_dly (nd k : nat) : Q := inject_Z (Z.of_nat k - Z.of_nat (nd / 2)) / inject_Z (Z.of_nat nd * 100000).
(** testing.py:12-187 [build_vanilla_uvpspec] *)
Definition ones (n : nat) : list X := repeat (num 1) n.
(** 65-66, 129-150: the data of a row are blpair / 1e9, everything else is 1; 153-168: identity matrices *)
Definition identity (n : nat) : list X := flat_map (fun i => map (fun j => num (if Nat.eqb i j then 1%Q else 0%Q)) (seq 0 n)) (seq 0 n).
(** testing.py:12-187 [build_vanilla_uvpspec] *)
Definition vanilla (Ndlys : option nat) (equal : bool) : uvp X :=
  let nd := match Ndlys with None => v_Nfreqs | Some n => n end in
  let t1 := tile v_times (length v_blpairs) in
  let t2 := if equal then t1 else map (fun t => (t + (1 # 180))%Q) t1 in
  let ta := map2 (fun a b => ((a + b) / 2)%Q) t1 t2 in
  let b := tile v_blpairs v_Ntimes in
  let rows {Y} (f : Z -> Y) := map (fun blp => [f blp]) b in
  mkuvp false 1 [0] (repeat 0 v_Nfreqs) (repeat 0 nd) (map (fun k => num (v_freq k)) (seq 0 v_Nfreqs)) (map (v_dly nd) (seq 0 nd)) [[num 1]]
    b t1 t2 ta (map JD2LST t1) (map JD2LST t2) (map JD2LST ta)
    v_bls [vec (533391548 # 100000000) (-135907816 # 10000000) (-791624188 # 100000000000000000); vec (-867982998 # 100000000) (443554478 # 100000000) (-108695203 # 10000000);
           vec (-334591450 # 100000000) (-915523687 # 100000000) (-108695203 # 10000000)]
    [1515%Z]
    [(0, rows (fun blp => repeat (num (inject_Z blp / 1000000000)%Q) nd))]
    [(0, rows (fun _ => ones (v_Nfreqs * 2)))] [(0, rows (fun _ => ones 1))] [(0, rows (fun _ => ones 1))]
    (Some [(0, rows (fun _ => identity nd))]) (Some [(0, rows (fun _ => identity nd))]) None
    [rows (fun _ => 0)] [rows (fun _ => 1)] [].
End Vanilla.
