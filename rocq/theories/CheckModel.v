(** Model of [UVPSpec.check] (uvpspec.py:2346-2429), of the argument normalisers [_normalize_nested_sequence] and
    [_normalize_spw_array_input] (uvpspec.py:18-51) and of [utils.load_config] (utils.py:746-780).
    Simplifications: array contents are an arbitrary type; whether an array or value can be cast, and to what, is an arbitrary
    function; a value that is not an array has no [tostring]. *)
From Coq Require Import String Ascii.
From Verif Require Import PyDict PyStr H5Model.
From Verif Require Import Prelude.
Open Scope nat_scope.

(** ** check *)
(** the expected types of uvpspec.py:71-395 *)
Inductive ety := EInt | EStr | EBool | EC128 | EF64 | EU16 | EI32 | EI64 | ECosmo.
(** uvpspec.py:71-395 (expected_type of every declared parameter) *)
Definition expected (p : pystr) : ety :=
  if memn p (names ["Ntimes"; "Ntpairs"; "Nbltpairs"; "Nblpairs"; "Nspwdlys"; "Nspwfreqs"; "Nspws"; "Ndlys"; "Nfreqs"; "Npols"; "Nbls"]%string) then EInt
  else if memn p (names ["history"; "r_params"; "cov_model"; "weighting"; "norm"; "taper"; "vis_units"; "norm_units"; "labels"; "beamfile"]%string) then EStr
  else if memn p (names ["exact_windows"; "folded"]%string) then EBool
  else if memn p (names ["data_array"; "stats_array"]%string) then EC128
  else if memn p (names ["spw_array"; "spw_dly_array"; "spw_freq_array"]%string) then EU16
  else if memn p (names ["polpair_array"; "bl_array"; "label_1_array"; "label_2_array"]%string) then EI32
  else if memn p (names ["blpair_array"]%string) then EI64
  else if memn p (names ["cosmo"]%string) then ECosmo
  else EF64.

Section Check.
(** contents of arrays, with their shape; Python values that are not arrays or dictionaries; keys of dictionaries *)
Context {P V K : Type}.
(** [ty]: the expected type the dtype is a subclass of, if any; the attributes of a UVPSpec object as uvpspec.py:2346-2429 [check] sees them *)
Record arr := mkarr { a_ty : option ety; a_val : P }.
(** the attributes of a UVPSpec object as uvpspec.py:2346-2429 [check] sees them *)
Inductive val := VArr (a : arr) | VObj (v : V) | VDict (d : list (K * val)).
Context (isinst : V -> ety -> bool)                 (* isinstance(v, type) *)
        (astype : ety -> arr -> option P)           (* a.astype(type), or type(a) for an array *)
        (conv : ety -> val -> option V).            (* type(v) *)
(** contents of an integer array; value of an int *)
Context (ints : P -> list Z) (intv : V -> option Z) (truth : V -> bool).
(** the attributes of a UVPSpec object as uvpspec.py:2346-2429 [check] sees them *)
Definition uobj := list (pystr * val).
(** the attributes of a UVPSpec object as uvpspec.py:2346-2429 [check] sees them *)
Definition attr (o : uobj) (p : pystr) : option val := dget name_dec o p.
(** uvpspec.py:2346-2429 [check] *)
Definition ety_eqb (a b : ety) : bool :=
  match a, b with EInt, EInt | EStr, EStr | EBool, EBool | EC128, EC128 | EF64, EF64 | EU16, EU16 | EI32, EI32 | EI64, EI64 | ECosmo, ECosmo => true | _, _ => false end.
(** uvpspec.py:2346-2429 [check] *)
Definition has_ty (a : arr) (t : ety) : bool := match a_ty a with Some t' => ety_eqb t' t | None => false end.
(** inner dictionaries of stats_array: values are cast in place; uvpspec.py:2346-2429 [check] *)
Fixpoint cast_inner (t : ety) (d : list (K * val)) : list (K * val) * option pyerr :=
  match d with
  | [] => ([], None)
  | (j, VArr a) :: d' =>
      match astype t a with
      | Some p => let r := cast_inner t d' in ((j, VArr (mkarr (Some t) p)) :: fst r, snd r)
      | None => ((j, VArr a) :: d', Some AssertionError)
      end
  | d => (d, Some AssertionError)
  end.
(** uvpspec.py:2346-2429 [check] *)
Fixpoint cast_outer (t : ety) (d : list (K * val)) : list (K * val) * option pyerr :=
  match d with
  | [] => ([], None)
  | (j, VDict e) :: d' =>
      match cast_inner t e with
      | (e', None) => let r := cast_outer t d' in ((j, VDict e') :: fst r, snd r)
      | (e', Some x) => ((j, VDict e') :: d', Some x)
      end
  | d => (d, Some AssertionError)
  end.
(** uvpspec.py:2369-2418: one attribute that exists: its new value and the exception *)
Definition check_value (p : pystr) (v : val) : val * option pyerr :=
  let t := expected p in
  if memn p ndarrays then
    match v with
    | VArr a => if has_ty a t then (v, None) else match astype t a with Some x => (VArr (mkarr (Some t) x), None) | None => (v, Some ValueError) end
    | _ => (v, Some AttributeError)                 (* the message of the assertion calls .tostring() *)
    end
  else if memn p dicts then
    match v with
    | VDict d => (v, if forallb (fun e => match snd e with VArr a => has_ty a t | _ => false end) d then None else Some AssertionError)
    | _ => (v, Some AssertionError)
    end
  else if memn p immutables then
    if match v with VObj x => isinst x t | _ => false end then (v, None)
    else match conv t v with Some x => (VObj x, None) | None => (v, Some AssertionError) end
  else if memn p dicts_of_dicts then
    match v with
    | VDict d => let r := cast_outer t d in (VDict (fst r), snd r)
    | _ => (v, Some AssertionError)
    end
  else (v, None).
(** uvpspec.py:2346-2429 [check] *)
Definition check_param (just_meta : bool) (p : pystr) (o : uobj) : uobj * option pyerr :=
  match attr o p with
  | None => (o, if (negb just_meta && memn p req_params)%bool then Some AssertionError else None)
  | Some v => let r := check_value p v in (dset name_dec o p (fst r), snd r)
  end.
(** uvpspec.py:2346-2429 [check] *)
Fixpoint check_params (just_meta : bool) (ps : list pystr) (o : uobj) : uobj * option pyerr :=
  match ps with
  | [] => (o, None)
  | p :: ps' => match check_param just_meta p o with (o', None) => check_params just_meta ps' o' | r => r end
  end.
(** uvpspec.py:2346-2429 [check] *)
Definition a_Nspws : pystr := s_ "Nspws".
(** uvpspec.py:2419-2422: set(spw_array) == set(np.arange(Nspws)) *)
Definition check_spw (o : uobj) : option pyerr :=
  match attr o a_spw, attr o a_Nspws with
  | Some (VArr a), Some (VObj n) =>
      match intv n with
      | Some n => if (forallb (fun s => (0 <=? s)%Z && (s <? n)%Z) (ints (a_val a)) && forallb (fun k => existsb (Z.eqb (Z.of_nat k)) (ints (a_val a))) (seq 0 (Z.to_nat n)))%bool then None else Some AssertionError
      | None => Some TypeError
      end
  | Some _, Some _ => Some TypeError
  | _, _ => Some AttributeError
  end.
(** uvpspec.py:2424-2429 *)
Definition check_windows (just_meta : bool) (o : uobj) : option pyerr :=
  match attr o a_exact with
  | Some (VObj b) => if (truth b && negb just_meta)%bool then (if match attr o d_win, attr o d_kperp with Some _, Some _ => true | _, _ => false end then None else Some AssertionError) else None
  | Some _ => None
  | None => Some AttributeError
  end.
(** the parameters are in alphabetical order; uvpspec.py:2346-2429 [check] (order in which np.sort lists the parameters) *)
Fixpoint str_leb (a b : pystr) : bool :=
  match a, b with
  | [], _ => true
  | _ :: _, [] => false
  | x :: a', y :: b' => if Nat.ltb (nat_of_ascii x) (nat_of_ascii y) then true else if Nat.ltb (nat_of_ascii y) (nat_of_ascii x) then false else str_leb a' b'
  end.
(** uvpspec.py:2346-2429 [check] (order in which np.sort lists the parameters) *)
Fixpoint ins_name (x : pystr) (l : list pystr) : list pystr := match l with [] => [x] | y :: l' => if str_leb x y then x :: l else y :: ins_name x l' end.
(** uvpspec.py:2346-2429 [check] (order in which np.sort lists the parameters) *)
Definition sorted_params : list pystr := fold_right ins_name [] all_params.
(** uvpspec.py:2346-2429 [check] *)
Definition check (just_meta : bool) (o : uobj) : uobj * option pyerr :=
  match check_params just_meta sorted_params o with
  | (o', None) => (o', match check_spw o' with Some e => Some e | None => check_windows just_meta o' end)
  | r => r
  end.
End Check.
Arguments arr P : clear implicits.
Arguments val P V K : clear implicits.
Arguments uobj P V K : clear implicits.

(** ** normalisers *)
(** Python values fed: integers (also numpy's), sequences (list, tuple, ndarray), others (strings, sets, None, ...); uvpspec.py:18-49 *)
Inductive parg := PInt (z : Z) | PSeq (l : list parg) | PNone | POther.
(** uvpspec.py:18-30 *)
Definition normalize_nested (v : parg) : result (list (list parg)) :=
  match v with
  | PSeq l => map_res (fun g => match g with PSeq [] => Err ValueError | PSeq m => Ok m | _ => Err TypeError end) l
  | _ => Err TypeError
  end.
(** uvpspec.py:33-51 *)
Definition is_int (g : parg) : bool := match g with PInt _ => true | _ => false end.
(** uvpspec.py:18-49 *)
Definition int_of (g : parg) : Z := match g with PInt z => z | _ => 0%Z end.
(** uvpspec.py:18-49 *)
Definition normalize_spws (v : parg) (valid : list Z) : result (list Z) :=
  match v with
  | PNone => Ok valid
  | PInt z => require (existsb (Z.eqb z) valid) ValueError (Ok [z])
  | PSeq l => require (forallb is_int l) TypeError (require (forallb (fun z => existsb (Z.eqb z) valid) (map int_of l)) ValueError (Ok (map int_of l)))
  | POther => Err TypeError
  end.

(** ** load_config.  What the YAML reader gives: strings, None, lists, dictionaries (string keys), others; tuples after replacement; utils.py:746-778 *)
Inductive yaml := YNone | YStr (s : pystr) | YNum (z : Z) | YList (l : list yaml) | YTup (l : list yaml) | YDict (d : list (pystr * yaml)).
(** utils.py:746-778 *)
Definition is_list (y : yaml) : bool := match y with YList _ => true | _ => false end.
(** utils.py:746-778 *)
Definition as_tuple (y : yaml) : yaml := match y with YList l => YTup l | y => y end.
(** utils.py:746-778 *)
Definition s_None : pystr := s_ "None".
(** utils.py:754-767: the new value of d[k] *)
Fixpoint replace_value (y : yaml) : yaml :=
  match y with
  | YStr s => if str_eqb s s_None then YNone else y
  | YList l => if forallb is_list l then YList (map as_tuple l) else y
  | YDict d => YDict (map (fun kv => (fst kv, replace_value (snd kv))) d)
  | y => y
  end.
(** the top level is touched only if it is a dictionary; utils.py:746-778 *)
Definition replace (y : yaml) : yaml := match y with YDict d => replace_value y | y => y end.
