(** Model of [UVPSpec.__eq__] (uvpspec.py:2461-2492).
    Simplifications: numbers are rationals or NaN (complex data as one number each, without rounding); arrays are
    one-dimensional ([np.isclose] and [==] broadcast an array of length 1; other lengths that differ raise ValueError);
    [verbose] only prints. *)
From Coq Require Import String Ascii QArith Qabs.
From Verif Require Import PyDict PyStr H5Model.
From Verif Require Import Prelude.
Open Scope nat_scope.

Definition num := option Q.                 (* None: NaN; uvpspec.py:2461-2491 [__eq__] *)
Inductive val :=
| VImm (z : Z)                              (* int, str, bool: compared with == *)
| VArr (l : list num)
| VStr (l : list pystr)                     (* array of strings *)
| VDict (d : list (nat * list num)).
(** uvpspec.py:2461-2491 [__eq__] *)
Definition uobj := list (pystr * val).
(** uvpspec.py:2461-2491 [__eq__] *)
Definition attr (o : uobj) (p : pystr) : option val := dget name_dec o p.

(** [np.isclose] of two numbers: rtol = 1e-5, atol = 1e-8; false on NaN; uvpspec.py:2461-2491 [__eq__] *)
Definition isclose (x y : num) : bool :=
  match x, y with
  | Some a, Some b => Qle_bool (Qabs (a - b)) ((1 # 100000000) + (1 # 100000) * Qabs b)
  | _, _ => false
  end.
(** an elementwise test of two arrays, then [.all()]; uvpspec.py:2461-2491 [__eq__] *)
Definition all2 {A} (f : A -> A -> bool) (l m : list A) : result bool :=
  if Nat.eqb (length l) (length m) then Ok (forallb (fun xy => f (fst xy) (snd xy)) (combine l m))
  else match l, m with
       | [x], _ => Ok (forallb (f x) m)
       | _, [y] => Ok (forallb (fun x => f x y) l)
       | _, _ => Err ValueError
       end.
(** uvpspec.py:2461-2491 [__eq__] *)
Definition py_and (a : result bool) (k : result bool) : result bool := bind a (fun b => if b then k else Ok false).

(** uvpspec.py:2467-2484: one parameter; [Ok false] is the AssertionError that makes [__eq__] return False; a type that does
    not fit raises *)
Definition eq_param (a b : uobj) (p : pystr) : result bool :=
  match attr a p, attr b p with
  | None, None => if memn p req_params then (if memn p immutables || memn p ndarrays || memn p dicts then Err AttributeError else Ok true) else Ok true
  | x, y =>
    if memn p immutables then
      match x, y with Some (VImm u), Some (VImm v) => Ok (Z.eqb u v) | Some _, Some _ => Ok false | _, _ => Err AttributeError end
    else if memn p ndarrays then
      match x, y with
      | Some (VStr u), Some (VStr v) => all2 str_eqb u v
      | Some (VArr u), Some (VArr v) => all2 isclose u v
      | Some _, Some _ => Err TypeError
      | _, _ => Err AttributeError
      end
    else if memn p dicts then
      match x, y with
      | Some (VDict u), Some (VDict v) =>
          fold_right (fun iw acc => py_and (match dget Nat.eq_dec v (fst iw) with None => Err KeyError | Some w' => all2 isclose (snd iw) w' end) acc) (Ok true) u
      | Some _, Some _ => Err TypeError
      | Some (VDict []), None => Ok true
      | _, _ => Err AttributeError
      end
    else Ok true                            (* dicts of dicts: not compared *)
  end.
(** uvpspec.py:2463-2492 *)
Definition eq_obj (params : list pystr) (a b : uobj) : result bool :=
  fold_right (fun p acc => py_and (eq_param a b p) acc) (Ok true) params.
(** [a == b]; uvpspec.py:2461-2491 [__eq__] *)
Definition py_eq (a b : uobj) : result bool := eq_obj all_params a b.
