(** Shared vocabulary of the model: Python exceptions as values, and the numpy
    list idioms (boolean masks, index gathers) that several modelled functions use. *)
From Coq Require Export List Arith ZArith Lia Bool.
Export ListNotations.

(** The exception classes raised by the modelled code (class only, no message). *)
Inductive pyerr : Set :=
| ValueError | KeyError | AssertionError | IndexError | TypeError
| AttributeError | OSError | NotImplementedError | ZeroDivisionError
| NameError | UnboundLocalError.

Inductive result (A : Type) : Type :=
| Ok (a : A)
| Err (e : pyerr).
Arguments Ok {A} _.
Arguments Err {A} _.

Definition bind {A B} (r : result A) (f : A -> result B) : result B :=
  match r with Ok a => f a | Err e => Err e end.

(** Python [assert c, ...]; continue with [k] *)
Definition require {A} (c : bool) (e : pyerr) (k : result A) : result A :=
  if c then k else Err e.

(** [arr[mask]] with a boolean mask: keep the entries whose mask bit is set. *)
Fixpoint mask {A} (bs : list bool) (l : list A) : list A :=
  match bs, l with
  | b :: bs', x :: l' => if b then x :: mask bs' l' else mask bs' l'
  | _, _ => []
  end.

(** [np.where(mask)[0]] / indices with a given offset. *)
Fixpoint where_from (k : nat) (bs : list bool) : list nat :=
  match bs with
  | [] => []
  | b :: bs' => if b then k :: where_from (S k) bs' else where_from (S k) bs'
  end.
Definition where_ (bs : list bool) : list nat := where_from 0 bs.

(** [arr[idx]] with an integer index array; out of range is an IndexError. *)
Fixpoint gather {A} (l : list A) (idx : list nat) : result (list A) :=
  match idx with
  | [] => Ok []
  | i :: idx' =>
      match nth_error l i with
      | None => Err IndexError
      | Some x => bind (gather l idx') (fun r => Ok (x :: r))
      end
  end.

Fixpoint map_res {A B} (f : A -> result B) (l : list A) : result (list B) :=
  match l with
  | [] => Ok []
  | x :: l' => bind (f x) (fun y => bind (map_res f l') (fun ys => Ok (y :: ys)))
  end.

(** Python negative-index-free slice [l[a:b]] with 0 <= a. *)
Definition slice {A} (a b : nat) (l : list A) : list A := skipn a (firstn b l).
