(** Model of testing.uvpspec_from_data (testing.py:190-338) up to the call of PSpecData.pspec, and of PSpecData.check_key_in_dset (pspecdata.py:419-451).
    The pairs of baselines are those of SimModel.v [from_data_bls], Python's argument binding that of ScriptModel.v, PSpecData's constructor
    that of AddModel.v. UVData objects are named by identities; reading files, loading beams and [UVData._key2inds] are parameters. *)
From Coq Require Import String.
From Verif Require Import Prelude PyDict PyStr UtilsModel SimModel ScriptModel AddModel.
Open Scope nat_scope.
Open Scope string_scope.

(** a path, a UVData object, or anything else (None included); testing.py:251-266 *)
Inductive visarg (U : Type) := VPath (p : string) | VObj (u : U) | VElse.
Arguments VPath {U} p. Arguments VObj {U} u. Arguments VElse {U}.
(** None, a path, or a beam object; testing.py:279-283 *)
Inductive beamarg (B : Type) := BNone | BPath (p : string) | BObj (b : B).
Arguments BNone {B}. Arguments BPath {B} p. Arguments BObj {B} b.

(** two antenna pairs are equal; testing.py:304-320 *)
Definition pair_eqb (a b : Z * Z) : bool := (Z.eqb (fst a) (fst b) && Z.eqb (snd a) (snd b))%bool.
(** a baseline, and a list of baselines, as a Python value; testing.py:314-324 *)
Definition val_bl (b : Z * Z) : pyval := VList [VInt (fst b); VInt (snd b)].
(** testing.py:314-324 *)
Definition val_bls (l : list (Z * Z)) : pyval := VList (map val_bl l).

Section FromData.
Context {U B Cosmo H C : Type}.
(** UVData.read_miriad; testing.py:252-264 *)
Context (read : string -> result U).
(** polarization_array; testing.py:276 *)
Context (pols : U -> list Z).
(** PSpecBeamUV(path, cosmo=cosmo), and a copy of a beam with another cosmology; testing.py:279-283 *)
Context (load : string -> option Cosmo -> result B) (with_cosmo : B -> Cosmo -> B).

(** testing.py:251-256: another object leaves [uvd] without a value *)
Definition data_of (a : visarg U) : result (option U) :=
  match a with VPath p => bind (read p) (fun u => Ok (Some u)) | VObj u => Ok (Some u) | VElse => Ok None end.
(** testing.py:279-283 *)
Definition beam_of (b : beamarg B) (cosmo : option Cosmo) : result (option B) :=
  match b with
  | BPath p => bind (load p cosmo) (fun x => Ok (Some x))
  | BObj x => Ok (Some match cosmo with Some c => with_cosmo x c | None => x end)
  | BNone => Ok None
  end.
(** the datasets, error sets and weights given to PSpecData, the beam, and the arguments of pspec; testing.py:286-337 *)
Record fromdata := mkfd { fd_call : acall U C; fd_beam : option B; fd_args : list (string * pyval) }.
(** None or an object as an item of a list; testing.py:287-293 *)
Definition item_of (o : option U) : elem U := match o with Some u => EIs u | None => ENone end.
(** testing.py:286-292 *)
Definition ds_call (u : U) (s : option U) : acall U C :=
  mkac (ASeq false [EIs u; EIs u]) (ASeq false [ENone; ENone]) (LSeq [s_ "d1"; s_ "d2"]) (ASeq false [item_of s; item_of s]) ANone true.

(** the keywords written in the call of pspec; testing.py:327-336 *)
Definition own_kw (weight spws taper verbose ndlys rp : pyval) (std : bool) : list (string * pyval) :=
  [("input_data_weight", weight); ("spw_ranges", spws); ("taper", taper); ("verbose", verbose); ("store_cov", VBool std);
   ("n_dlys", ndlys); ("r_params", rp); ("cov_model", VStr (if std then "dsets" else "empirical"))].
(** a call with keywords and [**kwargs]: a name that occurs in both is a TypeError; testing.py:322-337 *)
Definition call_pspec (pos : list pyval) (own extra : list (string * pyval)) : result (list (string * pyval)) :=
  if existsb (fun e => existsb (String.eqb (fst e)) (map fst own)) extra then Err TypeError else py_call pspec_sig pos (own ++ extra)%list.

(** testing.py:251-337 *)
Definition from_data (data std : visarg U) (groups : blarg (Z * Z)) (beam : beamarg B) (cosmo : option Cosmo)
    (weight spws taper verbose ndlys rp : pyval) (extra : list (string * pyval)) : result fromdata :=
  bind (data_of data) (fun uvd =>
  bind (data_of std) (fun uvd_std =>
  match uvd with
  | None => Err UnboundLocalError
  | Some u =>
      match pols u with
      | [] => Err IndexError
      | p :: _ =>
          bind (beam_of beam cosmo) (fun b =>
          bind (from_data_bls pair_eqb groups) (fun bls =>
          bind (call_pspec [val_bls (fst bls); val_bls (snd bls); VList [VInt 0; VInt 1]; VList [VInt p; VInt p]]
                           (own_kw weight spws taper verbose ndlys rp (match uvd_std with Some _ => true | None => false end)) extra) (fun kw =>
          Ok (mkfd (ds_call u uvd_std) b kw))))
      end
  end)).
End FromData.
Arguments fromdata : clear implicits.

(** ** check_key_in_dset *)

(** an item of a key: a number or a text; pspecdata.py:435-437 *)
Inductive kitem := KI (z : Z) | KS (s : string).
(** a key: a text, a number, a tuple, or another object with ([KIter]) or without items; pspecdata.py:423-427 *)
Inductive dkey := DStr (s : string) | DInt (z : Z) | DTup (l : list kitem) | DIter | DOther.
(** an index into the list of datasets: a number or, as elsewhere in PSpecData, a label; pspecdata.py:429, 446 *)
Inductive dindex := DPos (z : Z) | DLab (s : string).
(** an item of a Python list, negative indices counting from its end; pspecdata.py:446 *)
Definition py_item {U} (l : list U) (i : Z) : result U :=
  let n := Z.of_nat (List.length l) in
  let j := (if i <? 0 then i + n else i)%Z in
  if ((0 <=? j) && (j <? n))%Z%bool then match nth_error l (Z.to_nat j) with Some u => Ok u | None => Err IndexError end else Err IndexError.
Section Check.
Context {U : Type}.
(** [dset._key2inds(key)]: pyuvdata, a KeyError for keys it does not have; pspecdata.py:446 *)
Context (key2inds : U -> list kitem -> result unit).
(** [_get_iterable], the text of one item, and the length; an object that is no number, text or iterable is a tuple of itself, which _key2inds then
    sees as [other]; pspecdata.py:434-442 *)
Definition norm_key (other : list kitem) (k : dkey) : result (list kitem) :=
  match k with
  | DStr s => Ok [KS s]
  | DInt z => Ok [KI z]
  | DTup l => if existsb (Nat.eqb (List.length l)) [1; 2; 3] then Ok l else Err KeyError
  | DIter => Err KeyError
  | DOther => Ok other
  end.
(** pspecdata.py:419-451 *)
Definition check_key (other : list kitem) (dsets : list U) (k : dkey) (i : dindex) : result bool :=
  bind (norm_key other k) (fun key =>
  match (match i with DPos z => py_item dsets z | DLab _ => Err TypeError end) with
  | Err KeyError => Ok false
  | Err e => Err e
  | Ok d => match key2inds d key with Ok _ => Ok true | Err KeyError => Ok false | Err e => Err e end
  end).
End Check.
