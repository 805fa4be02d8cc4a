(** Model of [utils.cov] (utils.py:66-131) and of [PSpecData.get_analytic_covariance]
    (pspecdata.py:1978-2481), over exact complex numbers. The covariance models of each integration are inputs
    (functions of the time index); E are the matrices of [get_unnormed_E]. *)
From Coq Require Import Reals.
From Verif Require Import Prelude CNum OqeModel.
Open Scope R_scope.

Fixpoint rsum (n : nat) (f : nat -> R) : R := match n with O => 0 | S m => rsum m f + f m end.

(** utils.py:66-131; d is (channel, time), w real; negative weights are refused *)
Definition cov (m n : nat) (d1 : mat) (w1 : nat -> nat -> R) (d2 : mat) (w2 : nat -> nat -> R) (conj_1 conj_2 : bool)
  : result mat :=
  if existsb (fun i => existsb (fun t => if Rlt_dec (w1 i t) 0 then true else if Rlt_dec (w2 i t) 0 then true else false) (seq 0 n)) (seq 0 m)
  then Err ValueError
  else
    let pos x := if Rlt_dec 0 x then x else 1 in
    let mean (d : mat) (w : nat -> nat -> R) i := (csum n (fun t => RtoC (w i t) * d i t) / RtoC (pos (rsum n (w i))))%C in
    let cj (b : bool) z := if b then Cconj z else z in
    Ok (fun i j =>
          (csum n (fun t => cj conj_1 (RtoC (w1 i t) * d1 i t) * cj conj_2 (RtoC (w2 j t) * d2 j t))
             / RtoC (pos (rsum n (fun t => (w1 i t * w2 j t)%R)))
           - cj conj_1 (mean d1 w1 i) * cj conj_2 (mean d2 w2 j))%C).

(** [np.isclose(x, 0).all()]: every modulus is at most 1e-8; np.isclose's default absolute tolerance, as used at pspecdata.py:2180, 2357-2399, 2410-2439 *)
Definition tiny8 : R := / 10 ^ 8.
(** np.isclose / np.zeros as used at pspecdata.py:2165-2180, 2357-2399, 2410-2439 *)
Definition close0 (z : C) : bool := if Rle_dec (Cabs2 z) (tiny8 * tiny8) then true else false.
(** np.isclose / np.zeros as used at pspecdata.py:2165-2180, 2357-2399, 2410-2439 *)
Definition all_close0 (n : nat) (g : mat) : bool :=
  forallb (fun i => forallb (fun j => close0 (g i j)) (seq 0 n)) (seq 0 n).
(** [np.isclose(a, b)]: |a - b| <= 1e-8 + 1e-5 |b|; np.isclose / np.zeros as used at pspecdata.py:2165-2180, 2357-2399, 2410-2439 *)
Definition Cmod (z : C) : R := sqrt (Cabs2 z).
(** np.isclose / np.zeros as used at pspecdata.py:2165-2180, 2357-2399, 2410-2439 *)
Definition isclose (a b : C) : bool := if Rle_dec (Cmod (a - b)%C) (tiny8 + Cmod b / 10 ^ 5) then true else false.
(** np.isclose / np.zeros as used at pspecdata.py:2165-2180, 2357-2399, 2410-2439 *)
Definition all_close (n : nat) (a b : mat) : bool :=
  forallb (fun i => forallb (fun j => isclose (a i j) (b i j)) (seq 0 n)) (seq 0 n).

(** np.isclose / np.zeros as used at pspecdata.py:2165-2180, 2357-2399, 2410-2439 *)
Definition zero : mat := fun _ _ => C0.
(** the second moments of q: <q q>, <q^* q^*>, <q q^*>; the (q_q, qdagger_qdagger, q_qdagger) triple of pspecdata.py:2185-2399 *)
Record moments := mkmom { q_q : mat; qd_qd : mat; q_qd : mat }.

(** pspecdata.py:2186-2203 (models 'dsets', 'autos'): only the diagonals of C11 and C22 are used *)
Definition mom_diag (ne : nat) (E : nat -> mat) (C11 C22 : mat) : moments :=
  mkmom zero zero
    (fun b c => csum ne (fun i => csum ne (fun j => (E b i j * C22 j j) * (Cconj (E c i j) * C11 i i))))%C.

(** pspecdata.py:2227-2275 ('foreground_dependent'): the signal-noise term *)
Definition sn_raw (ne : nat) (E : nat -> mat) (C11 C22 : mat) (x1 x2 : vec) : mat :=
  let E12 x b i := csum ne (fun j => (E b i j * x j)%C) in          (* np.dot(E, x) *)
  let xE12 x b j := csum ne (fun i => (E b i j * Cconj (x i))%C) in (* np.dot(E^T, x.conj()) *)
  fun b c =>
    (csum ne (fun i => E12 x1 b i * Cconj (E12 x2 c i) * C11 i i) / RtoC 2
     + csum ne (fun i => E12 x2 b i * Cconj (E12 x1 c i) * C11 i i) / RtoC 2
     + csum ne (fun j => xE12 x2 b j * Cconj (xE12 x1 c j) * C22 j j) / RtoC 2
     + csum ne (fun j => xE12 x1 b j * Cconj (xE12 x2 c j) * C22 j j) / RtoC 2)%C.
(** pspecdata.py:2276-2278: rows, then columns, whose diagonal is not positive are set to zero *)
Definition nonpos (z : C) : bool := if Rle_dec (re z) 0 then true else false.
(** pspecdata.py:2272-2274 *)
Definition clip_sn (s : mat) : mat :=
  let r := (fun b c => if nonpos (s b b) then C0 else s b c) : mat in
  fun b c => if nonpos (r c c) then C0 else r b c.
(** pspecdata.py:2204-2275 *)
Definition mom_fg (ne : nat) (E : nat -> mat) (C11 C22 : mat) (x1 x2 : vec) : moments :=
  let d := mom_diag ne E C11 C22 in
  let s := clip_sn (sn_raw ne E C11 C22 x1 x2) in
  mkmom (q_q d) (qd_qd d) (madd (q_qd d) s).

(** pspecdata.py:2280-2387 (the general case) *)
Record gmodel := mkgm { gC11 : mat; gC22 : mat; gC21 : mat; gC12 : mat; gP11 : mat; gS11 : mat; gP22 : mat; gS22 : mat; gP21 : mat; gS21 : mat }.
(** pspecdata.py:2276-2399 *)
Definition trans (a : mat) : mat := fun i j => a j i.
(** pspecdata.py:2276-2399 *)
Definition mom_general (ne : nat) (E : nat -> mat) (g : gmodel) : moments :=
  let tr A B := trace2 ne ne A B in
  let dot := mmul ne in
  mkmom
    (fun b c =>
       ((if (all_close0 ne (gP22 g) || all_close0 ne (gS11 g))%bool then C0
         else tr (dot (E b) (gP22 g)) (dot (trans (E c)) (gS11 g)))
        + (if all_close0 ne (gC21 g) then C0 else tr (dot (E b) (gC21 g)) (dot (E c) (gC21 g))))%C)
    (fun b c =>
       ((if all_close0 ne (gC12 g) then C0 else tr (dot (ctrans (E b)) (gC12 g)) (dot (ctrans (E c)) (gC12 g)))
        + (if (all_close0 ne (gP11 g) || all_close0 ne (gS22 g))%bool then C0
           else tr (dot (ctrans (E b)) (gP11 g)) (dot (mconj (E c)) (gS22 g))))%C)
    (fun b c =>
       (tr (dot (E b) (gC22 g)) (dot (ctrans (E c)) (gC11 g))
        + (if (all_close0 ne (gP21 g) || all_close0 ne (gS21 g))%bool then C0
           else tr (dot (E b) (gP21 g)) (dot (mconj (E c)) (gS21 g))))%C).

(** pspecdata.py:2389-2396 *)
Definition quarter : C := RtoC (/ 4).
(** pspecdata.py:2401-2406 *)
Definition cov_q_real (m : moments) : mat := fun b c =>
  (quarter * (q_q m b c + qd_qd m b c + q_qd m b c + Cconj (q_qd m b c)))%C.
(** pspecdata.py:2401-2406 *)
Definition cov_q_imag (m : moments) : mat := fun b c =>
  (quarter * - (q_q m b c + qd_qd m b c - q_qd m b c - Cconj (q_qd m b c)))%C.
(** [np.einsum("ab,cd,bd->ac", m1, m2, q)]; pspecdata.py:2410-2451 *)
Definition einsum3 (n : nat) (m1 m2 q : mat) : mat :=
  fun a c => csum n (fun b => csum n (fun d => (m1 a b * m2 c d * q b d)%C)).
(** pspecdata.py:2398-2449: each term is dropped when its matrix is [isclose] to zero *)
Definition gated (n : nat) (q : mat) (m : mat) : mat := if all_close0 n q then zero else m.
(** pspecdata.py:2410-2418 *)
Definition MMqq (nd : nat) (M : mat) (m : moments) := gated nd (q_q m) (einsum3 nd M M (q_q m)).
(** pspecdata.py:2421-2437 *)
Definition MMqqd (nd : nat) (M : mat) (m : moments) := gated nd (q_qd m) (einsum3 nd M (mconj M) (q_qd m)).
(** pspecdata.py:2421-2437 *)
Definition MMqqd' (nd : nat) (M : mat) (m : moments) := gated nd (q_qd m) (einsum3 nd (mconj M) M (mconj (q_qd m))).
(** pspecdata.py:2439-2451 *)
Definition MMqdqd (nd : nat) (M : mat) (m : moments) := gated nd (qd_qd m) (einsum3 nd (mconj M) (mconj M) (qd_qd m)).
(** pspecdata.py:2453-2458 *)
Definition cov_p_real (nd : nat) (M : mat) (m : moments) : mat := fun a c =>
  (quarter * (MMqq nd M m a c + MMqqd nd M m a c + MMqqd' nd M m a c + MMqdqd nd M m a c))%C.
(** pspecdata.py:2453-2458 *)
Definition cov_p_imag (nd : nat) (M : mat) (m : moments) : mat := fun a c =>
  (quarter * - (MMqq nd M m a c - MMqqd nd M m a c - MMqqd' nd M m a c + MMqdqd nd M m a c))%C.

(** pspecdata.py:2461-2481 *)
Record covs := mkcovs { c_qr : mat; c_qi : mat; c_pr : mat; c_pi : mat }.
(** pspecdata.py:2461-2481 *)
Definition covs_at (nd : nat) (M : mat) (m : moments) : covs :=
  mkcovs (cov_q_real m) (cov_q_imag m) (cov_p_real nd M m) (cov_p_imag nd M m).

(** pspecdata.py:2160-2183, 2453-2470: the loop over times, with the shortcut taken when the first and last
    C11 are close (never for 'foreground_dependent', [fg] true). [mom t] are the moments of time [t]; the
    shortcut breaks out of the loop at time 0. *)
Definition analytic_covariance (ne nd ntimes : nat) (fg : bool) (C11 : nat -> mat) (M : nat -> mat) (mom : nat -> moments)
  : list covs :=
  let uniform := (negb fg && all_close ne (C11 0%nat) (C11 (ntimes - 1)%nat))%bool in
  if (uniform && Nat.ltb 0 ntimes)%bool then repeat (covs_at nd (M 0%nat) (mom 0%nat)) ntimes
  else map (fun t => covs_at nd (M t) (mom t)) (seq 0 ntimes).
