(** Model of [PSpecData.cov_q_hat] (pspecdata.py:1376-1481) and [utils.variance_from_auto_correlations] (utils.py:133-190),
    in exact arithmetic.  Complex division by zero gives None (numpy: nan). *)
From Coq Require Import String.
From Coq Require Import Reals Lra.
From Verif Require Import Prelude CNum.
Open Scope R_scope.

(** ** cov_q_hat; pspecdata.py:1432-1449 [cov_q_hat] *)
Inductive targ := TNone | TInt (z : Z) | TList (l : list Z) | TOther.
(** 1432-1449 *)
Definition time_list (nt : nat) (a : targ) : result (list Z) :=
  match (match a with TNone => Some (map Z.of_nat (seq 0 nt)) | TInt z => Some [z] | TList l => Some l | TOther => None end) with
  | None => Err ValueError
  | Some l => require (forallb (fun t => (0 <=? t) && (t <=? Z.of_nat nt))%Z l) ValueError (Ok l)
  end.
(** pspecdata.py:1376-1481 [cov_q_hat] *)
Definition Ceqb0 (z : C) : bool := if Req_EM_T (Cabs2 z) 0 then true else false.
(** pspecdata.py:1376-1481 [cov_q_hat] *)
Definition odiv (a : C) (b : option C) : option C := match b with Some z => if Ceqb0 z then None else Some (Cdiv a z) | None => None end.
(** pspecdata.py:1376-1481 [cov_q_hat] *)
Definition oadd (a b : option C) : option C := match a, b with Some x, Some y => Some (Cadd x y) | _, _ => None end.
Section Covq.
Context {K : Type}.
(** get_unnormed_V of a pair of keys: with the model "dsets" at a time (an IndexError beyond the last), with "empirical" one matrix *)
Context (Vt : K -> K -> nat -> nat -> nat -> C) (Ve : K -> K -> nat -> nat -> C).
(** pspecdata.py:1376-1481 [cov_q_hat] *)
Inductive keys := One (k : K) | Many (l : list K).
(** pspecdata.py:1376-1481 [cov_q_hat] *)
Definition as_list (k : keys) : list K := match k with One x => [x] | Many l => l end.
(** pspecdata.py:1376-1481 [cov_q_hat] *)
Definition is_many (k : keys) : bool := match k with Many _ => true | One _ => false end.
(** pspecdata.py:1376-1481 [cov_q_hat] *)
Definition entry_sum (model : string) (pairs : list (K * K)) (t i j : nat) : option C :=
  fold_left (fun acc kk => oadd acc
      (if string_dec model "dsets" then odiv C1 (Some (Vt (fst kk) (snd kk) t i j)) else odiv C1 (Some (Ve (fst kk) (snd kk) i j)))) pairs (Some C0).
Definition cov_q_hat (nt : nat) (model : string) (k1 k2 : keys) (a : targ) : result (list (nat -> nat -> option C)) :=
  match (match a with TOther => Err ValueError | _ => Ok tt end) with Err e => Err e | Ok _ =>
  require (Bool.eqb (is_many k1) (is_many k2) && Nat.eqb (length (as_list k1)) (length (as_list k2))) AssertionError (
  bind (time_list nt a) (fun ts =>
  let pairs := combine (as_list k1) (as_list k2) in
  if (if string_dec model "dsets" then true else false)
  then (if (existsb (fun t => t =? Z.of_nat nt)%Z ts && negb (Nat.eqb (length pairs) 0))%bool then Err IndexError
        else Ok (map (fun t i j => odiv (RtoC (INR (length (as_list k1)))) (entry_sum model pairs (Z.to_nat t) i j)) ts))
  else if string_dec model "empirical"
       then Ok (map (fun t i j => odiv (RtoC (INR (length (as_list k1)))) (entry_sum model pairs (Z.to_nat t) i j)) ts)
       else (* no branch of 1460-1479 is taken: the zeros of 1456 *) Ok (map (fun _ _ _ => odiv (RtoC (INR (length (as_list k1)))) (Some C0)) ts))) end.
End Covq.

(** ** variance_from_auto_correlations.  [None] is np.inf; utils.py:133-188 [variance_from_auto_correlations] *)
Fixpoint insertR (x : R) (l : list R) : list R := match l with [] => [x] | y :: l' => if Rle_dec x y then x :: l else y :: insertR x l' end.
(** utils.py:133-188 [variance_from_auto_correlations] *)
Definition sortR (l : list R) : list R := fold_right insertR [] l.
(** np.median; utils.py:133-188 [variance_from_auto_correlations] *)
Definition medianR (l : list R) : R := let s := sortR l in (nth ((length s - 1) / 2) s 0 + nth (length s / 2) s 0) / 2.
(** utils.py:133-188 [variance_from_auto_correlations] *)
Definition posb (x : R) : bool := if Rlt_dec 0 x then true else false.
(** 175-181 *)
Definition fill_nsamples (ns : list R) : list R :=
  let pos := filter posb ns in
  map (fun x => if posb x then x else match pos with [] => 0 | _ => medianR pos end) ns.
(** utils.py:133-188 [variance_from_auto_correlations] *)
Definition Cmod (z : C) : R := sqrt (Cabs2 z).
(** 182-188 for the channels of the window: [x1], [x2] the autocorrelations, [ns] the nsamples of the baseline, [df] the channel widths,
    [tint] the integration times of all baselines and times of the data *)
Definition var_autos (tint : list R) (x1 x2 : list C) (ns df : list R) : list (option R) :=
  map (fun q => match q with (a, b, n, w) => if Req_EM_T n 0 then None else Some (Cmod (Cmul a (Cconj b)) / medianR tint / w / n) end)
      (combine (combine (combine x1 x2) (fill_nsamples ns)) df).
