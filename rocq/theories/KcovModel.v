(** Covariance matrices that the user supplies: [PSpecData.clear_cache] with keys (pspecdata.py:453-491),
    [w] (615-644), [set_C] (646-661), [get_spw] (663-686), [C_model] with every model name and known_cov (688-806),
    [cross_covar_model] (808-908), [iC] with every model name (935-988), [set_iC] (1031-1045), [R] with
    iC weighting (1090-1200, the lookup and the call of iC). A call changes the state even when it raises.
    Simplified: keys are already parsed (DsetModel has parse_blkey); the data, the window and the arithmetic
    are an environment [world] that other calls may change; matrices are an arbitrary type; [R] is under one fixed taper. *)
From Coq Require Import String.
From Verif Require Import Prelude PyStr PyDict.
Open Scope Z_scope.

(** dataset and baseline with polarization: what [parse_blkey] returns; pspecdata.py:519-562 [parse_blkey] *)
Definition bkey : Type := (nat * (nat * nat * nat))%type.
(** the fourth entry of a covariance key; [NoSlot] is a key without that entry, as in the example of the docstrings
    (pspecdata.py:656, 3453: 5 entries) *)
Inductive tslot := NoSlot | TNone | TInt (t : Z).
(** [((dset1, dset2), (bl1, bl2), model, time_index, conj_1, conj_2)]; pspecdata.py:738-755 [C_model], 965-975 [iC] *)
Definition ckey : Type := (bkey * bkey * pystr * tslot * bool * bool)%type.
(** equality of the dictionary keys of pspecdata.py:738-755, 965-975 *)
Definition ckey_dec (a b : ckey) : {a = b} + {a <> b}.
Proof. repeat decide equality. Defined.
(** equality of the dictionary keys of pspecdata.py:738-755, 965-975 *)
Definition bkey_dec (a b : bkey) : {a = b} + {a <> b}.
Proof. repeat decide equality. Defined.

(** [del d[k]], of a dictionary, KeyError ignored; pspecdata.py:453-491 [clear_cache] *)
Definition drop {K V} (eqk : forall x y : K, {x = y} + {x <> y}) (d : list (K * V)) (k : K) : list (K * V) :=
  filter (fun kv => if eqk (fst kv) k then false else true) d.

(** model names at pspecdata.py:747-804 [C_model] *)
Definition empirical : pystr := s_ "empirical".
(** model names at pspecdata.py:747-804 [C_model] *)
Definition dsets_ : pystr := s_ "dsets".
(** model names at pspecdata.py:747-804 [C_model] *)
Definition autos : pystr := s_ "autos".
(** pspecdata.py:747-755 [C_model] *)
Definition slot (t : option Z) : tslot := match t with Some z => TInt z | None => TNone end.

Section Cov.
Context {M : Type}.

(** what the computations give with the current data and window; the values computed at pspecdata.py:766-804 [C_model], 976-988 [iC], 1098-1200 [R] *)
Record world := mkworld {
  w_cov : bkey -> bkey -> bool -> bool -> result M; (* utils.cov of two weighted data arrays *)
  w_std : bkey -> Z -> result M;                    (* np.diag(abs(w * dx)**2) of one time *)
  w_auto : bkey -> Z -> result M;                   (* np.diag(variance_from_auto_correlations) *)
  w_zero : M;                                       (* np.zeros of the window *)
  w_cut : M -> M;                                   (* known_cov[Ckey][spw, spw] *)
  w_inv : M -> M;                                   (* inv or pinv *)
  w_R : bkey -> M -> result M }.                    (* taper, flags: from iC(key) to R(key) *)

(** the dictionaries _C, _iC, _R of pspecdata.py:453-491 [clear_cache] *)
Record kst := mkkst { kC : list (ckey * M); kiC : list (ckey * M); kR : list (bkey * M) }.

(** pspecdata.py:463-491 (of the dictionaries modelled here; covariance keys are not keys of _R or r_params) *)
Definition clear_all (st : kst) : kst := mkkst [] [] [].
(** pspecdata.py:453-491 [clear_cache] *)
Definition clear_key (st : kst) (k : ckey) : kst := mkkst (drop ckey_dec (kC st) k) (drop ckey_dec (kiC st) k) (kR st).
(** pspecdata.py:453-491 [clear_cache] *)
Definition clear_keys (st : kst) (ks : list ckey) : kst := fold_left clear_key ks st.
(** pspecdata.py:659-661 *)
Definition set_C (st : kst) (cov : list (ckey * M)) : kst :=
  let s := clear_keys st (map fst cov) in
  mkkst (fold_left (fun d kv => dset ckey_dec d (fst kv) (snd kv)) cov (kC s)) (kiC s) (kR s).
(** pspecdata.py:1044-1045 *)
Definition set_iC (st : kst) (cov : list (ckey * M)) : kst :=
  mkkst (kC st) (fold_left (fun d kv => dset ckey_dec d (fst kv) (snd kv)) cov (kiC st)) (kR st).

(** pspecdata.py:747-755: the empirical model ignores the time index *)
Definition c_key (k : bkey) (model : pystr) (t : option Z) : ckey :=
  if str_eqb model empirical then (k, k, model, TNone, false, true) else (k, k, model, slot t, false, true).
(** pspecdata.py:756-765 [C_model] *)
Definition known_get (known : option (list (ckey * M))) (ck : ckey) : option M :=
  match known with Some d => dget ckey_dec d ck | None => None end.
(** pspecdata.py:766-804 *)
Definition compute (w : world) (k : bkey) (model : pystr) (t : option Z) : result M :=
  if str_eqb model empirical then w_cov w k k false true
  else match t with
       | None => Err AssertionError
       | Some z => if str_eqb model dsets_ then w_std w k z
                   else if str_eqb model autos then w_auto w k z
                   else Err ValueError
       end.
(** pspecdata.py:738-806 *)
Definition C_model (w : world) (st : kst) (k : bkey) (model : pystr) (t : option Z) (known : option (list (ckey * M))) : kst * result M :=
  if negb (str_eqb model empirical) && match t with None => true | _ => false end then (st, Err AssertionError)
  else
  let ck := c_key k model t in
  let st1 := match known_get known ck with Some m => set_C st [(ck, w_cut w m)] | None => st end in
  match dget ckey_dec (kC st1) ck with
  | Some m => (st1, Ok m)
  | None => match compute w k model t with
            | Ok m => (set_C st1 [(ck, m)], Ok m)
            | Err e => (st1, Err e)
            end
  end.

(** pspecdata.py:872-908; the caches are neither read nor written *)
Definition cross_covar_model (w : world) (k1 k2 : bkey) (model : pystr) (t : option Z) (conj_1 conj_2 : bool)
    (known : option (list (ckey * M))) : result M :=
  bind (if str_eqb model empirical then bind (w_cov w k1 k2 conj_1 conj_2) (fun m => Ok (Some m)) else Ok None) (fun c0 =>
  let c1 := if str_eqb model dsets_ || str_eqb model autos then Some (w_zero w) else c0 in
  let c2 := match known_get known (k1, k2, model, slot t, conj_1, conj_2) with Some m => Some (w_cut w m) | None => c1 end in
  match c2 with Some m => Ok m | None => Err ValueError end).

(** pspecdata.py:965-988: the key of the inverse keeps the time index of an empirical model *)
Definition iC (w : world) (st : kst) (k : bkey) (model : pystr) (t : option Z) : kst * result M :=
  let ck := (k, k, model, slot t, false, true) in
  match dget ckey_dec (kiC st) ck with
  | Some m => (st, Ok m)
  | None => let (s, r) := C_model w st k model t None in
            match r with
            | Ok c => (set_iC s [(ck, w_inv w c)], Ok (w_inv w c))
            | Err e => (s, Err e)
            end
  end.

(** pspecdata.py:1098-1150, 1200 with iC weighting: the cached matrix, else from [iC(key)] *)
Definition R (w : world) (st : kst) (k : bkey) : kst * result M :=
  match dget bkey_dec (kR st) k with
  | Some m => (st, Ok m)
  | None => let (s, r) := iC w st k empirical None in
            match bind r (w_R w k) with
            | Ok m => (mkkst (kC s) (kiC s) (dset bkey_dec (kR s) k m), Ok m)
            | Err e => (s, Err e)
            end
  end.

(** calls of the API, each with the data and window of its moment; sequences of calls of the methods of pspecdata.py:453-1200 *)
Inductive kop :=
| KSetC (cov : list (ckey * M)) | KClear | KClearKeys (ks : list ckey)
| KC (w : world) (k : bkey) (model : pystr) (t : option Z) (known : option (list (ckey * M)))
| KiC (w : world) (k : bkey) (model : pystr) (t : option Z)
| KR (w : world) (k : bkey).
(** sequences of calls of the methods of pspecdata.py:453-1200 *)
Definition kstep (st : kst) (o : kop) : kst :=
  match o with
  | KSetC c => set_C st c
  | KClear => clear_all st
  | KClearKeys ks => clear_keys st ks
  | KC w k m t kn => fst (C_model w st k m t kn)
  | KiC w k m t => fst (iC w st k m t)
  | KR w k => fst (R w st k)
  end.
(** sequences of calls of the methods of pspecdata.py:453-1200 *)
Definition krun (st : kst) (ops : list kop) : kst := fold_left kstep ops st.
(** sequences of calls of the methods of pspecdata.py:453-1200 *)
Definition kinit : kst := mkkst [] [] [].
End Cov.

(** pspecdata.py:678-686 with the argument *)
Definition get_spw (spw ext : Z * Z) (include_extension : bool) : Z * Z :=
  if (if Z.ltb 0 (fst ext + snd ext) then true else include_extension)
  then (fst spw - fst ext, snd spw + snd ext) else spw.

(** pspecdata.py:634-644: weights if there are any, else the flags, negated, as numbers; (channel, time); pspecdata.py:615-644 [w] *)
Definition w_of {A} (one zero : A) (wgts : option (nat -> nat -> A)) (flags : nat -> nat -> bool) : nat -> nat -> A :=
  match wgts with Some v => v | None => fun f t => if negb (flags f t) then one else zero end.
