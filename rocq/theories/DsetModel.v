(** Model of the handling of datasets in PSpecData: keys ([dset_idx], pspecdata.py:493-517; [parse_blkey], 519-562),
    [validate_datasets] (331-417) and [rephase_to_dset] (4291-4404). *)
From Coq Require Import String.
From Coq Require Import Reals Lra.
From Verif Require Import Prelude CNum.
Open Scope R_scope.

(** ** keys: the elements of a Python tuple; keys given to pspecdata.py:493-562 *)
Inductive kelt := KI (z : Z) | KS (s : string) | KT (t : list kelt) | KO (* any other type *).
(** pspecdata.py:493-517: a label is looked up, an integer is returned as it is *)
Fixpoint lab_index (s : string) (l : list string) : option Z :=
  match l with [] => None | x :: l' => if string_dec s x then Some 0%Z else option_map Z.succ (lab_index s l') end.
(** pspecdata.py:493-517 [dset_idx] *)
Definition dset_idx (labels : list string) (k : kelt) : result Z :=
  match k with
  | KS s => match lab_index s labels with Some i => Ok i | None => Err KeyError end
  | KI z => Ok z
  | _ => Err TypeError
  end.
(** 539-562; the key is a tuple *)
Definition parse_blkey (labels : list string) (key : list kelt) : result (Z * list kelt) :=
  match key with
  | d :: b :: rest =>
      bind (dset_idx labels d) (fun i =>
      bind (match b with
            | KI _ => match rest with x :: rest' => Ok ([b; x], rest') | [] => Err AssertionError end
            | KT t => Ok (t, rest)
            | _ => Err AssertionError
            end) (fun br =>
      match snd br with
      | [] => Ok (i, fst br)
      | (KS _ | KI _) as p :: _ => Ok (i, fst br ++ [p])
      | _ :: _ => Err AssertionError
      end))
  | _ => Err AssertionError
  end.

(** ** datasets.  [u_lsts], [u_freqs]: the distinct values in ascending order (np.unique); [u_cat]: the types in the phase center catalog; phase center types read at pspecdata.py:403-417 [validate_datasets], 4342-4357 [rephase_to_dset] *)
Inductive cat := Unprojected | Unknown | OtherCat (n : nat).
(** phase center types read at pspecdata.py:403-417 [validate_datasets], 4342-4357 [rephase_to_dset] *)
Definition cat_eqb (a b : cat) : bool :=
  match a, b with Unprojected, Unprojected | Unknown, Unknown => true | OtherCat n, OtherCat m => Nat.eqb n m | _, _ => false end.
Section Dset.
Context {B : Type} (ang : B -> nat -> R -> R) (* baseline, channel, change of LST: the angle of hera_cal's phasor *).
(** the parts of a UVData object used by pspecdata.py:331-417 [validate_datasets] and 4291-4404 [rephase_to_dset] *)
Record uv := mkuv {
  u_nf : nat; u_nt : nat; u_cw : list R; u_lsts : list R; u_freqs : list R; u_cat : list cat;
  u_tlst : list R (* LST of each time *); u_pols : list Z; u_data : B -> nat -> nat -> nat -> C (* baseline, time, channel, slot *) }.

(** *** 331-417.  numpy's allclose; [np.unique(a) - np.unique(b)] of different sizes is an error (not modelled: sizes of which one is 1);
    the check of phase centers (403-417) is never reached with pyuvdata's catalog types.  The result: the warnings raised. *)
Inductive warning := LstMisaligned | FreqMisaligned.
(** pspecdata.py:331-417 [validate_datasets] *)
Definition closeb (a b : R) : bool := if Rle_dec (Rabs (a - b)) (/ 10 ^ 8 + / 10 ^ 5 * Rabs b) then true else false.
(** pspecdata.py:331-417 [validate_datasets] *)
Fixpoint all2 {A} (f : A -> A -> bool) (l l' : list A) : bool :=
  match l, l' with [], [] => true | x :: l, y :: l' => f x y && all2 f l l' | _, _ => false end.
(** pspecdata.py:331-417 [validate_datasets] *)
Definition farb (tol a b : R) : bool := if Rlt_dec tol (Rabs (a - b)) then true else false.
(** pspecdata.py:331-417 [validate_datasets] *)
Fixpoint any2 {A} (f : A -> A -> bool) (l l' : list A) : bool :=
  match l, l' with x :: l, y :: l' => f x y || any2 f l l' | _, _ => false end.
(** pspecdata.py:331-417 [validate_datasets] *)
Definition single {A} (l : list A) : bool := match l with [_] => true | _ => false end.
(** pspecdata.py:331-417 [validate_datasets] *)
Definition validate (nlabels nwgts nstd : nat) (ds : list uv) : result (list warning) :=
  require (Nat.eqb nwgts (length ds) && Nat.eqb nstd (length ds) && Nat.eqb nlabels (length ds)) ValueError (
  match ds with
  | [] => Err IndexError (* channel_widths[0] *)
  | d0 :: rest =>
      require (forallb (fun d => Nat.eqb (u_nf d) (u_nf d0)) rest) ValueError (
      require (forallb (fun d => all2 closeb (u_cw d0) (u_cw d)) ds) ValueError (
      require (forallb (fun d => Nat.eqb (u_nt d) (u_nt d0)) rest) ValueError (
      require (forallb (fun d => Nat.eqb (length (u_lsts d)) (length (u_lsts d0))) rest) ValueError (
      require (forallb (fun d => Nat.eqb (length (u_freqs d)) (length (u_freqs d0))) rest) ValueError (
      require (forallb (fun d => single (u_cat d)) ds) ValueError (
      require (forallb (fun d => all2 cat_eqb (u_cat d) (u_cat d0)) rest) ValueError (
      Ok ((if existsb (fun d => any2 (farb (1 / 1000)) (u_lsts d0) (u_lsts d)) rest then [LstMisaligned] else []) ++
          (if existsb (fun d => any2 (farb 1000) (u_freqs d0) (u_freqs d)) rest then [FreqMisaligned] else []))))))))) end).

(** *** 4291-4404; list.index at pspecdata.py:4380-4399 [rephase_to_dset] *)
Fixpoint index_z (p : Z) (l : list Z) : option nat :=
  match l with [] => None | x :: l' => if Z.eqb p x then Some O else option_map S (index_z p l') end.
Fixpoint nodupR (seen l : list R) : list R := (* 4330-4336: values in order of first appearance *)
  match l with [] => [] | x :: l' => if in_dec Req_EM_T x seen then nodupR seen l' else x :: nodupR (x :: seen) l' end.
(** the rephased value of (baseline, polarization with slot [i]); pspecdata.py:4291-4404 [rephase_to_dset] *)
Definition rephased (grid : list R) (d : uv) (b : B) (t f i : nat) : C :=
  Cmul (u_data d b t f i) (Cexpi (ang b f (nth t grid 0 - nth t (u_tlst d) 0))).
(** 4380-4399: the polarization is looked up in the polarization array of the anchor *)
Fixpoint insert_pols (anchor : list Z) (new : B -> nat -> nat -> nat -> C) (ps : list Z) (i : nat) (acc : B -> nat -> nat -> nat -> C) : result (B -> nat -> nat -> nat -> C) :=
  match ps with
  | [] => Ok acc
  | p :: ps' =>
      match index_z p anchor with
      | None => Err ValueError
      | Some j => insert_pols anchor new ps' (S i) (fun b t f s => if Nat.eqb s j then new b t f i else acc b t f s)
      end
  end.
(** pspecdata.py:4291-4404 [rephase_to_dset] *)
Definition set_cat (d : uv) (c : list cat) : uv := mkuv (u_nf d) (u_nt d) (u_cw d) (u_lsts d) (u_freqs d) c (u_tlst d) (u_pols d) (u_data d).
(** pspecdata.py:4291-4404 [rephase_to_dset] *)
Definition set_data (d : uv) x : uv := mkuv (u_nf d) (u_nt d) (u_cw d) (u_lsts d) (u_freqs d) (u_cat d) (u_tlst d) (u_pols d) x.
(** 4342-4404 for one dataset; a type other than unprojected only makes a warning (4356-4357: there is no [continue]) *)
Definition rephase_one (grid : list R) (anchor : list Z) (d : uv) : result uv :=
  require (Nat.eqb (length grid) (length (u_tlst d))) ValueError (
  bind (insert_pols anchor (rephased grid d) (u_pols d) 0 (u_data d)) (fun x => Ok (set_cat (set_data d x) [Unknown]))).
(** the datasets after the call, and the error if any; [k] is the position of the anchor as given; pspecdata.py:4291-4404 [rephase_to_dset] *)
Fixpoint rephase_loop (grid : list R) (anchor : list Z) (k : Z) (i : Z) (ds : list uv) : list uv * option pyerr :=
  match ds with
  | [] => ([], None)
  | d :: ds' =>
      if Z.eqb i k then let (r, e) := rephase_loop grid anchor k (i + 1) ds' in (set_cat d [Unknown] :: r, e)
      else match rephase_one grid anchor d with
           | Ok d' => let (r, e) := rephase_loop grid anchor k (i + 1) ds' in (d' :: r, e)
           | Err e => (d :: ds', Some e)
           end
  end.
(** Python's [l[k]]; pspecdata.py:4291-4404 [rephase_to_dset] *)
Definition pynth {A} (l : list A) (k : Z) : option A :=
  let n := Z.of_nat (length l) in
  if (0 <=? k)%Z && (k <? n)%Z then nth_error l (Z.to_nat k) else if (- n <=? k)%Z && (k <? 0)%Z then nth_error l (Z.to_nat (n + k)) else None.
(** pspecdata.py:4291-4404 [rephase_to_dset] *)
Definition rephase_to_dset (labels : list string) (dset : kelt) (inplace : bool) (ds : list uv) : list uv * result (option (list uv)) :=
  match validate (length labels) (length ds) (length ds) ds with
  | Err e => (ds, Err e)
  | Ok _ =>
      match dset_idx labels dset with
      | Err e => (ds, Err e)
      | Ok k =>
          match pynth ds k with
          | None => (ds, Err IndexError)
          | Some a =>
              let '(r, e) := rephase_loop (nodupR [] (u_tlst a)) (u_pols a) k 0 ds in
              (if inplace then r else ds, match e with Some e => Err e | None => Ok (if inplace then None else Some r) end)
          end
      end
  end.
End Dset.
Arguments uv : clear implicits.
