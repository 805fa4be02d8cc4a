(** Model of [grouping.bootstrap_resampled_error] and [bootstrap_run] (grouping.py:1790-2078) and of the control flow of
    [pspecdata.pspec_run] (pspecdata.py:4885-5187: labels, dataset pairs, baseline-pairs, output names, writing).

    The container is the dictionary (group, name) -> object that its methods show (ContainerModel.v, C14-C16 say that they do);
    names contain no '/'.  Simplification: an object that fails its check leaves an entry that is not listed (C15); here, no entry.
    The order of listing is arbitrary (h5py: alphabetical). *)
From Coq Require Import String Ascii.
From Verif Require Import PyDict PyStr.
From Verif Require Import Prelude.
Open Scope nat_scope.

Definition skey := (pystr * pystr)%type.
(** the groups and spectra of the container file, container.py:278-363 [set_pspec] *)
Definition skey_dec : forall x y : skey, {x = y} + {x <> y}.
Proof. decide equality; apply list_eq_dec, Ascii.ascii_dec. Defined.

Section Run.
Context {obj : Type} (valid : obj -> bool).
(** the groups and spectra of the container file, container.py:278-363 [set_pspec] *)
Definition store := list (skey * obj).
(** container.py:278-363 [set_pspec] *)
Definition put (s : store) (k : skey) (x : obj) (overwrite : bool) : store * result unit :=
  match dget skey_dec s k with
  | Some _ => if overwrite then (if valid x then (dset skey_dec s k x, Ok tt) else (ddel skey_dec s k, Err AssertionError)) else (s, Err AttributeError)
  | None => if valid x then (dset skey_dec s k x, Ok tt) else (s, Err AssertionError)
  end.
(** the groups and spectra of the container file, container.py:278-363 [set_pspec] *)
Fixpoint put_all (s : store) (l : list (skey * obj)) (overwrite : bool) : store * result unit :=
  match l with
  | [] => (s, Ok tt)
  | (k, x) :: l' => match put s k x overwrite with (s1, Ok _) => put_all s1 l' overwrite | (s1, Err e) => (s1, Err e) end
  end.

(** ** bootstrap.  [average]: the uniform average (with the given or computed groups); [resample]: bootstrap_average_blpairs
    with seed=None, drawing from the global generator; [errors]: the statistics added to the average *)
Section Boot.
Context {rng : Type} (reseed : Z -> rng) (average : obj -> result obj) (resample : obj -> rng -> result obj * rng) (errors : obj -> list obj -> result obj).
(** grouping.py:1872-1879 *)
Fixpoint draws (n : nat) (x : obj) (r : rng) : result (list obj) * rng :=
  match n with
  | O => (Ok [], r)
  | S n' => match resample x r with
            | (Err e, r1) => (Err e, r1)
            | (Ok b, r1) => match draws n' x r1 with (Err e, r2) => (Err e, r2) | (Ok bs, r2) => (Ok (b :: bs), r2) end
            end
  end.
(** grouping.py:1790-1927 *)
Definition bootstrap_error (seed : option Z) (n : nat) (x : obj) (r : rng) : result (obj * list obj) * rng :=
  match average x with
  | Err e => (Err e, r)
  | Ok a =>
      match draws n x (match seed with Some z => reseed z | None => r end) with
      | (Err e, r2) => (Err e, r2)
      | (Ok bs, r2) => (match errors a bs with Err e => Err e | Ok a' => Ok (a', bs) end, r2)
      end
  end.
(** grouping.py:2070, 2075 *)
Definition avg_name (k : skey) : skey := (fst k, snd k ++ s_ "_avg").
(** grouping.py:1930-2077 [bootstrap_run] *)
Definition bs_name (k : skey) (i : nat) : skey := (fst k, snd k ++ s_ "_bs" ++ str_Z (Z.of_nat i)).
(** grouping.py:1930-2077 [bootstrap_run] *)
Definition outputs (keep : bool) (k : skey) (a : obj) (bs : list obj) : list (skey * obj) :=
  (avg_name k, a) :: (if keep then map (fun ib => (bs_name k (fst ib), snd ib)) (combine (seq 0 (length bs)) bs) else []).
(** grouping.py:2047-2075 *)
Fixpoint boot_loop (seed : option Z) (n : nat) (keep overwrite : bool) (ks : list skey) (s : store) (r : rng) : store * rng * result unit :=
  match ks with
  | [] => (s, r, Ok tt)
  | k :: ks' =>
      match dget skey_dec s k with
      | None => (s, r, Err KeyError)
      | Some x =>
          match bootstrap_error seed n x r with
          | (Err e, r1) => (s, r1, Err e)
          | (Ok (a, bs), r1) =>
              match put_all s (outputs keep k a bs) overwrite with
              | (s1, Err e) => (s1, r1, Err e)
              | (s1, Ok _) => boot_loop seed n keep overwrite ks' s1 r1
              end
          end
      end
  end.
(** grouping.py:2012-2044; [groups]: the groups of the file, which may be empty *)
Definition selected (spectra : option (list skey)) (s : store) : list skey :=
  match spectra with None => map fst s | Some l => filter (fun k => if in_dec skey_dec k (map fst s) then true else false) l end.
(** grouping.py:1930-2077 [bootstrap_run] *)
Definition bootstrap_run (groups : list pystr) (spectra : option (list skey)) (seed : option Z) (n : nat) (keep overwrite : bool) (s : store) (r : rng)
  : store * rng * result unit :=
  if Nat.eqb (length groups) 0 then (s, r, Err AssertionError)
  else match spectra, selected spectra s with
       | Some _, [] => (s, r, Err AssertionError)
       | _, ks => boot_loop seed n keep overwrite ks s r
       end.
End Boot.

(** ** pspec_run *)
Section Pspec.
(** baselines of a dataset, its redundant pairs with another one, and the estimate for a pair of datasets; antenna pairs at pspecdata.py:5091-5128 [pspec_run] *)
Definition bl := (Z * Z)%type.
(** antenna pairs at pspecdata.py:5091-5128 [pspec_run] *)
Definition bl_dec : forall x y : bl, {x = y} + {x <> y}.
Proof. decide equality; apply Z.eq_dec. Defined.
Context (dset_bls : nat -> list bl) (reds : nat -> nat -> list (bl * bl)) (pspec : nat -> nat -> list (bl * bl) -> result obj).
(** pspecdata.py:4885-4898 [pspec_run] (the check of the labels) *)
Definition us : ascii := "_"%char.
(** pspecdata.py:4885-4898 [pspec_run] (the check of the labels) *)
Definition has_us (l : pystr) : bool := existsb (Ascii.eqb us) l.
(** pspecdata.py:5091-5128 [pspec_run] *)
Definition flip (b : bl) : bl := (snd b, fst b).
(** pspecdata.py:5091-5128 [pspec_run] *)
Definition memb (b : bl) (l : list bl) : bool := if in_dec bl_dec b l then true else false.
(** pspecdata.py:5091-5128 [pspec_run] *)
Definition available (i : nat) (b : bl) : bool := (memb b (dset_bls i) || memb (flip b) (dset_bls i))%bool.
(** itertools.combinations(range(n), 2); pspecdata.py:4885-4898 [pspec_run] *)
Definition combos (n : nat) : list (nat * nat) := flat_map (fun i => map (fun j => (i, j)) (seq (S i) (n - S i))) (seq 0 n).
(** pspecdata.py:4885-4898 *)
Definition run_pairs (nds : nat) (pairs : option (list (nat * nat))) : list (nat * nat) :=
  match pairs with Some l => l | None => if Nat.ltb 1 nds then combos nds else [(0, 0)] end.
(** pspecdata.py:4885-4898 [pspec_run] *)
Definition run_labels (nds : nat) (labels : option (list pystr)) : result (list pystr) :=
  match labels with
  | None => Ok (map (fun i => s_ "dset" ++ str_Z (Z.of_nat i)) (seq 0 nds))
  | Some l => require (negb (existsb has_us l)) AssertionError (require (Nat.eqb (length l) nds) AssertionError (Ok l))
  end.
(** pspecdata.py:5091-5128 *)
Definition run_blpairs (blpairs : option (list (bl * bl))) (p : nat * nat) : list (bl * bl) :=
  match blpairs with
  | None => reds (fst p) (snd p)
  | Some l => filter (fun bb => available (fst p) (fst bb) && available (snd p) (snd bb))%bool l
  end.
(** pspecdata.py:5174-5177 *)
Definition ps_name (li lj ext : pystr) : pystr := li ++ s_ "_x_" ++ lj ++ ext.
(** pspecdata.py:4885-5187 [pspec_run] *)
Fixpoint run_loop (group ext : pystr) (labels : list pystr) (blpairs : option (list (bl * bl))) (overwrite : bool) (ps : list (nat * nat)) (s : store) (stored : bool)
  : store * result bool :=
  match ps with
  | [] => (s, Ok stored)
  | p :: ps' =>
      match run_blpairs blpairs p with
      | [] => run_loop group ext labels blpairs overwrite ps' s stored
      | bbs => match pspec (fst p) (snd p) bbs with
               | Err e => (s, Err e)
               | Ok u => match put s (group, ps_name (nth (fst p) labels []) (nth (snd p) labels []) ext) u overwrite with
                         | (s1, Err e) => (s1, Err e)
                         | (s1, Ok _) => run_loop group ext labels blpairs overwrite ps' s1 true
                         end
               end
      end
  end.
(** the returned boolean: something was stored (otherwise a warning); pspecdata.py:4885-5187 [pspec_run] *)
Definition pspec_run (nds : nat) (labels : option (list pystr)) (pairs : option (list (nat * nat))) (blpairs : option (list (bl * bl)))
    (group ext : option pystr) (overwrite : bool) (s : store) : store * result bool :=
  match run_labels nds labels with
  | Err e => (s, Err e)
  | Ok ls =>
      let ps := run_pairs nds pairs in
      if forallb (fun p => Nat.ltb (fst p) nds && Nat.ltb (snd p) nds)%bool ps
      then run_loop (match group with Some g => g | None => join [us] ls end) (match ext with Some e => e | None => [] end) ls blpairs overwrite ps s false
      else (s, Err IndexError)
  end.
End Pspec.
End Run.
