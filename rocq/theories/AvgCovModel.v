(** Model of what [average_spectra] does to the covariances, the frequency weights, the error bars (with time averaging) and the
    baseline metadata (grouping.py:469-606, 620-672); the spectra themselves are in AvgModel.v, whose weights, broadcasting ([bc]),
    [clip], [colsum] and [expand] are used here.
    Simplifications: real arithmetic; real and imaginary part of the covariance are averaged by the same code and have one model;
    error bars are numbers or infinite, never nan. *)
From Coq Require Import Reals QArith.
From Verif Require Import PyDict.
From Verif Require Import Prelude UvpModel AvgModel.
Open Scope R_scope.

Definition mat := list (list R).
(** the covariance arrays of grouping.py:428-431 *)
Definition mget (m : mat) (i j : nat) : R := nth j (nth i m []) 0.
(** the covariance arrays of grouping.py:428-431 *)
Definition mkmat (n : nat) (f : nat -> nat -> R) : mat := map (fun i => map (f i) (seq 0 n)) (seq 0 n).

(** one integration: its covariance and its row of weights; the covariance arrays of grouping.py:428-431 *)
Definition cterm := (mat * list R)%type.
(** [np.sum(cov * w[:, :, None] * w[:, None, :], axis=0)]: grouping.py:494-504 and 537-543, 552-562 *)
Definition cov_sum (n : nat) (l : list cterm) : mat :=
  mkmat n (fun i j => Rsum (map (fun cw => mget (fst cw) i j * bc (snd cw) i * bc (snd cw) j) l)).
(** [/ wsum[:, None] / wsum[None, :]] with the clipped sum of the weights; grouping.py:494-504, 552-562 *)
Definition cov_mean (n : nat) (l : list cterm) : mat :=
  let wsum := map clip (colsum (map snd l)) in mkmat n (fun i j => mget (cov_sum n l) i j / bc wsum i / bc wsum j).
(** one baseline-pair: one term per integration. grouping.py:493-504, 513: after time averaging there is one, with the summed weights *)
Definition cblock := list cterm.
(** grouping.py:493-513 *)
Definition cov_time_average (n : nat) (b : cblock) : cblock := [(cov_mean n b, colsum (map snd b))].
(** grouping.py:520-562: [int(weight)] copies of every member, then the mean per integration *)
Definition cov_group (n : nat) (cs : list cblock) : result (list mat) :=
  match cs with
  | [] => Err IndexError
  | c :: _ => require (forallb (fun b => Nat.eqb (length b) (length c)) cs) ValueError
                (Ok (map (fun r => cov_mean n (map (fun b => nth r b ([], [])) cs)) (seq 0 (length c))))
  end.
(** grouping.py:469-562 *)
Definition avg_cov (n : nat) (time_avg : bool) (group : list (cblock * R)) : result (list mat) :=
  cov_group n (expand (if time_avg then map (fun bw => (cov_time_average n (fst bw), snd bw)) group else group)).

(** ** wgts_array, one channel and dataset: (value, row of weights) for every integration; only the weight of the first bin is used
    ([w[:, :1, None]]): grouping.py:472-474, 522, 549 *)
Definition first_w (w : list R) : R := hd 0 w.
(** grouping.py:470-474, 513, 522, 549 *)
Definition wgt_mean (l : list (R * list R)) : R := Rsum (map (fun vw => fst vw * first_w (snd vw)) l) / clip (Rsum (map (fun vw => first_w (snd vw)) l)).
(** grouping.py:470-474, 513, 522, 549 *)
Definition wgt_time_average (l : list (R * list R)) : list (R * list R) := [(wgt_mean l, colsum (map snd l))].

(** ** error bars of one bin: squares, None: infinite. [clip(0, 1e40)]: grouping.py:507, 527 *)
Definition big : R := IZR (10 ^ 40).
(** grouping.py:432-439, 505-512, 525-527, 563-568 *)
Definition clip40 (e : option R) : R := match e with Some x => Rmin (Rmax x 0) big | None => big end.
(** grouping.py:432-439, 505-512, 525-527, 563-568 *)
Definition square (e : option R) : option R := match e with Some x => Some (x ^ 2) | None => None end.
(** [np.isclose(x, 0)] becomes infinite: 511-512, 563-568 *)
Definition zero_is_inf (v : R) : option R := if Rle_dec (Rabs v) (/ IZR (10 ^ 8)) then None else Some v.
(** grouping.py:432-439, 505-512, 525-527, 563-568 *)
Definition err_mean (l : list (option R * R)) : option R :=
  zero_is_inf (Rsum (map (fun ew => clip40 (fst ew) * snd ew ^ 2) l) / clip (Rsum (map snd l)) ^ 2).
(** members of the group (with copies); each a list of (error, weight), one per integration that is averaged; grouping.py:505-513, 563-568 *)
Definition err_of_pair (l : list (option R * R)) : option R * R := (err_mean (map (fun ew => (square (fst ew), snd ew)) l), Rsum (map snd l)).
(** grouping.py:505-513, 563-568 *)
Definition err_time_averaged (members : list (list (option R * R))) : option R := option_map sqrt (err_mean (map err_of_pair members)).

(** ** baselines: grouping.py:630, 650-651 [sorted(set(bl_arr))]; [firsts]: the first baseline-pair of every group *)
Definition avg_bls (firsts : list Z) : list Z := uniqueZ (flat_map (fun b => [fst (split_bls b); snd (split_bls b)]) firsts).
(** grouping.py:651 *)
Definition avg_bl_vecs {V} (bl_array : list Z) (bl_vecs : list V) (new : list Z) : result (list V) :=
  map_res (fun b => match index_of Z.eq_dec b bl_array with Some i => match nth_error bl_vecs i with Some v => Ok v | None => Err IndexError end | None => Err ValueError end) new.

(** ** Ntpairs: grouping.py:657-662; [np.round] rounds half to even *)
Definition rint (x : R) : Z :=
  let f := Int_part (x + / 2) in if Req_EM_T (IZR f) (x + / 2) then if Z.even f then f else (f - 1)%Z else f.
(** grouping.py:657-662 *)
Definition pair_dec : forall p q : Z * Z, {p = q} + {p <> q}.
Proof. decide equality; apply Z.eq_dec. Defined.
(** grouping.py:657-662 *)
Definition Ntpairs (tol : R) (t1 t2 : list R) : nat :=
  length (nodup pair_dec (map (fun ab => (rint (fst ab / tol), rint (snd ab / tol))) (combine t1 t2))).
