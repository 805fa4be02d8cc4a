(** Model of the settings and matrix caches of [PSpecData]: [clear_cache] (pspecdata.py:453-491),
    [w] and [get_spw] (615-686), [C_model] with the empirical model (688-806), [I] (910-933),
    [iC] (935-988), [Y] (990-1029), [R] (1066-1200), the setters
    (1202-1374) and the reset in [add] (287-295), as a state machine: a call has an effect on the
    state even when it raises. Not modelled: which baselines exist ([parse_blkey]), covariance models
    other than the empirical one, [clear_cache] of selected keys. Array shapes that differ are
    an error; numpy's broadcasting of axes of length 1 is not modelled. *)
From Coq Require Import Reals String.
From Verif Require Import Prelude PyStr PyDict DelayBinModel SphModel.
Open Scope Z_scope.

(** a parsed key: dataset, two antennas, polarization; pspecdata.py:519-562 [parse_blkey] (the tuple returned) *)
Definition key : Type := (nat * nat * nat * nat)%type.
(** pspecdata.py:519-562 [parse_blkey] (the tuple returned) *)
Definition key_dec (a b : key) : {a = b} + {a <> b}.
Proof. repeat decide equality. Defined.

(** pspecdata.py:1273-1282, 1133-1198 *)
Inductive weighting := Identity | InvCov | Dayenu.

(** numpy array with two axes; the arrays cached in pspecdata.py:72-108 *)
Record mat := mkmat { rows : nat; cols : nat; ent : nat -> nat -> R }.

(** pspecdata.py:1097-1105: [key + (data_weighting, taper)], and for dayenu [+ filter_extension + (spw_Nfreqs, symmetric_taper)] *)
Definition rkey : Type := (key * weighting * pystr * option (Z * Z * Z * bool))%type.
(** equality of dictionary keys (Coq helper), pspecdata.py:1090-1106 *)
Definition rkey_dec (a b : rkey) : {a = b} + {a <> b}.
Proof. repeat decide equality. Defined.
(** equality of dictionary keys (Coq helper), pspecdata.py:1090-1106 *)
Definition wkey_dec (a b : weighting * key) : {a = b} + {a <> b}.
Proof. repeat decide equality. Defined.

Section World.
Context {P : Type}. (* the contents of an r_params dictionary *)

(** pspecdata.py:72-108, 287-295 *)
Record pds := mkpds {
  NF : nat;                         (* number of channels of the data *)
  spw : Z * Z;
  nfreqs : Z;                       (* spw_Nfreqs *)
  ndlys : Z;
  ext : Z * Z;                      (* filter_extension *)
  sym : bool;                       (* symmetric_taper *)
  taper : pystr;
  weight : weighting;
  rpar : list ((weighting * key) * P);
  cC : list (key * mat);            (* self._C *)
  cI : list (key * mat);            (* self._I *)
  ciC : list (key * mat);           (* self._iC *)
  cY : list (key * list R);         (* self._Y, diagonals *)
  cR : list (rkey * mat) }.         (* self._R *)

(** pspecdata.py:72-108 and 287-295 *)
Definition init (n : nat) : pds :=
  mkpds n (0, Z.of_nat n) (Z.of_nat n) (Z.of_nat n) (0, 0) true (s_ "none") Identity [] [] [] [] [] [].

(** the environment: weights (maximum over times), data covariance of a set of channels, inverse,
    taper windows, dayenu covariance of a set of channels, pseudo-inverse *)
Context (wmax : key -> nat -> R) (covdata : key -> list nat -> mat) (minv : mat -> mat)
        (gen_window : pystr -> nat -> nat -> R) (dayenu_inv : P -> list nat -> mat) (pinv : mat -> mat).

(** pspecdata.py:663-686: the extension is included whenever its sum is positive *)
Definition get_spw (st : pds) : Z * Z :=
  if Z.gtb (fst (ext st) + snd (ext st)) 0
  then (fst (spw st) - fst (ext st), snd (spw st) + snd (ext st)) else spw st.
(** the channels that [slice] of that window selects; pspecdata.py:564-644 *)
Definition chans (st : pds) : list nat := py_slice (get_spw st) (seq 0 (NF st)).
(** pspecdata.py:1170-1173 *)
Definition dayenu_chans (st : pds) : list nat :=
  py_slice (fst (spw st) - fst (ext st), snd (spw st) + snd (ext st)) (seq 0 (NF st)).

(** pspecdata.py:1025-1027: [np.isclose(Y, 0) + np.isclose(Y, 1)]; pspecdata.py:1025-1027 *)
Definition close (x y : R) : bool := if Rle_dec (Rabs (x - y)) (IZR 1 / IZR (10 ^ 8) + IZR 1 / IZR (10 ^ 5) * Rabs y) then true else false.
(** pspecdata.py:1025-1027 *)
Definition binary (x : R) : bool := close x 0 || close x 1.

(** setters of the record; record update (Coq helper) for the assignments of pspecdata.py:1202-1374 *)
Definition up_spw (st : pds) s n := mkpds (NF st) s n (ndlys st) (ext st) (sym st) (taper st) (weight st) (rpar st) (cC st) (cI st) (ciC st) (cY st) (cR st).
(** record update (Coq helper) for the assignments of pspecdata.py:1202-1374 *)
Definition up_ndlys (st : pds) n := mkpds (NF st) (spw st) (nfreqs st) n (ext st) (sym st) (taper st) (weight st) (rpar st) (cC st) (cI st) (ciC st) (cY st) (cR st).
(** record update (Coq helper) for the assignments of pspecdata.py:1202-1374 *)
Definition up_ext (st : pds) e := mkpds (NF st) (spw st) (nfreqs st) (ndlys st) e (sym st) (taper st) (weight st) (rpar st) (cC st) (cI st) (ciC st) (cY st) (cR st).
(** record update (Coq helper) for the assignments of pspecdata.py:1202-1374 *)
Definition up_sym (st : pds) b := mkpds (NF st) (spw st) (nfreqs st) (ndlys st) (ext st) b (taper st) (weight st) (rpar st) (cC st) (cI st) (ciC st) (cY st) (cR st).
(** record update (Coq helper) for the assignments of pspecdata.py:1202-1374 *)
Definition up_taper (st : pds) t := mkpds (NF st) (spw st) (nfreqs st) (ndlys st) (ext st) (sym st) t (weight st) (rpar st) (cC st) (cI st) (ciC st) (cY st) (cR st).
(** record update (Coq helper) for the assignments of pspecdata.py:1202-1374 *)
Definition up_weight (st : pds) w := mkpds (NF st) (spw st) (nfreqs st) (ndlys st) (ext st) (sym st) (taper st) w (rpar st) (cC st) (cI st) (ciC st) (cY st) (cR st).
(** record update (Coq helper) for the assignments of pspecdata.py:1202-1374 *)
Definition up_rpar (st : pds) p := mkpds (NF st) (spw st) (nfreqs st) (ndlys st) (ext st) (sym st) (taper st) (weight st) p (cC st) (cI st) (ciC st) (cY st) (cR st).
(** record update (Coq helper) for the assignments of pspecdata.py:1202-1374 *)
Definition up_cache (st : pds) c i ic y r := mkpds (NF st) (spw st) (nfreqs st) (ndlys st) (ext st) (sym st) (taper st) (weight st) (rpar st) c i ic y r.

(** pspecdata.py:1017-1029: the entry is stored before the check *)
Definition callY (st : pds) (k : key) : pds * result (list R) :=
  match dget key_dec (cY st) k with
  | Some y => (st, Ok y)
  | None => let y := map (wmax k) (chans st) in
            (up_cache st (cC st) (cI st) (ciC st) (dset key_dec (cY st) k y) (cR st),
             if forallb binary y then Ok y else Err NotImplementedError)
  end.

(** pspecdata.py:926-933; np.identity, pspecdata.py:930-932 *)
Definition eye : nat -> nat -> R := fun i j => if Nat.eqb i j then 1%R else 0%R.
(** np.identity, pspecdata.py:930-932 *)
Definition ident (n : Z) : result mat := if Z.ltb n 0 then Err ValueError else Ok (mkmat (Z.to_nat n) (Z.to_nat n) eye).
(** pspecdata.py:910-933 *)
Definition callI (st : pds) (k : key) : pds * result mat :=
  match dget key_dec (cI st) k with
  | Some m => (st, Ok m)
  | None => match ident (nfreqs st + fst (ext st) + snd (ext st)) with
            | Ok m => (up_cache st (cC st) (dset key_dec (cI st) k m) (ciC st) (cY st) (cR st), Ok m)
            | Err e => (st, Err e)
            end
  end.

(** pspecdata.py:741-806, model "empirical", no known_cov; [set_C] also drops the entry of the inverse *)
Definition callC (st : pds) (k : key) : pds * mat :=
  match dget key_dec (cC st) k with
  | Some m => (st, m)
  | None => let m := covdata k (chans st) in (up_cache st (dset key_dec (cC st) k m) (cI st) (ddel key_dec (ciC st) k) (cY st) (cR st), m)
  end.
(** pspecdata.py:965-988 *)
Definition calliC (st : pds) (k : key) : pds * mat :=
  match dget key_dec (ciC st) k with
  | Some m => (st, m)
  | None => let (s, c) := callC st k in let m := minv c in
            (up_cache s (cC s) (cI s) (dset key_dec (ciC s) k m) (cY s) (cR s), m)
  end.

(** pspecdata.py:1109-1123: square root of the taper, nan (a negative entry) replaced by 0 as [sqrt] does *)
Definition sqrtT (st : pds) (n i : nat) : R := if str_eqb (taper st) (s_ "none") then 1%R else sqrt (gen_window (taper st) n i).
(** pspecdata.py:1118, 1123 *)
Definition sqY (y : list R) (i : nat) : R := sqrt (nth i y 0%R).

(** pspecdata.py:1135, 1143, 1165-1181: [sqrtT.T * ... * K * ... * sqrtT] *)
Definition sandwich (a : nat -> R) (m : mat) : mat := mkmat (rows m) (cols m) (fun i j => (a i * ent m i j * a j)%R).
(** shapes numpy requires in the products of pspecdata.py:1133-1198 *)
Definition shape_is (m : mat) (n : nat) : bool := Nat.eqb (rows m) n && Nat.eqb (cols m) n.
(** pspecdata.py:1135, 1143, 1165-1181 *)
Definition r_symmetric (n : nat) (sT : nat -> R) (y : list R) (yky : mat) : result mat :=
  require (Nat.eqb (length y) n && shape_is yky n) ValueError (Ok (sandwich sT yky)).
(** pspecdata.py:1126-1131, 1137-1139, 1145-1147, 1183-1198: [sqrtT.T**2 * np.dot(tmat, ...)] where tmat picks the window out of the extended window *)
Definition tmat (f0 : nat) : nat -> nat -> R := fun i l => if Nat.eqb l (i + f0) then 1%R else 0%R.
(** pspecdata.py:1126-1131, 1137-1139, 1145-1147, 1183-1198 *)
Definition r_asymmetric (n f0 f1 : nat) (sT : nat -> R) (y : list R) (yky : mat) : result mat :=
  require (Nat.eqb (length y) (n + f0 + f1) && shape_is yky (n + f0 + f1)) ValueError
  (Ok (mkmat n (n + f0 + f1) (fun i j => (sT i ^ 2 * sum (n + f0 + f1) (fun l => tmat f0 i l * ent yky l j))%R))).
(** pspecdata.py:1126-1198 *)
Definition assemble (st : pds) (y : list R) (yky : mat) : result mat :=
  let n := Z.to_nat (nfreqs st) in
  if sym st then r_symmetric n (sqrtT st n) y yky
  else r_asymmetric n (Z.to_nat (fst (ext st))) (Z.to_nat (snd (ext st))) (sqrtT st n) y yky.

(** pspecdata.py:1097-1105 *)
Definition rkey_of (st : pds) (k : key) : rkey :=
  (k, weight st, taper st,
   match weight st with Dayenu => Some (fst (ext st), snd (ext st), nfreqs st, sym st) | _ => None end).
(** pspecdata.py:1133-1200, the assignments to self._R *)
Definition storeR (st : pds) (k : key) (r : result mat) : pds * result mat :=
  match r with
  | Ok m => (up_cache st (cC st) (cI st) (ciC st) (cY st) (dset rkey_dec (cR st) (rkey_of st k) m), Ok m)
  | Err e => (st, Err e)
  end.
(** pspecdata.py:1090-1200 *)
Definition callR (st : pds) (k : key) : pds * result mat :=
  match dget rkey_dec (cR st) (rkey_of st k) with
  | Some m => (st, Ok m)
  | None =>
    if Z.ltb (nfreqs st) 0 then (st, Err ValueError)      (* np.ones, gen_window *)
    else
    let (s1, ry) := callY st k in
    match ry with
    | Err e => (s1, Err e)
    | Ok y =>
      match weight st with
      | Identity =>
          let (s2, ri) := callI s1 k in
          match ri with
          | Err e => (s2, Err e)
          | Ok m => storeR s2 k (require (shape_is m (length y)) ValueError (assemble s2 y (sandwich (sqY y) m)))
          end
      | InvCov =>
          let (s2, m) := calliC s1 k in
          storeR s2 k (require (shape_is m (length y)) ValueError (assemble s2 y (sandwich (sqY y) m)))
      | Dayenu =>
          match dget wkey_dec (rpar s1) (Dayenu, k) with
          | None => (s1, Err ValueError)
          | Some p =>
              let m := dayenu_inv p (dayenu_chans s1) in
              storeR s1 k (require (shape_is m (length y)) ValueError (assemble s1 y (pinv (sandwich (sqY y) m))))
          end
      end
    end
  end.

(** the public methods of pspecdata.py:453-491, 646-806, 910-1374 and [add] (119-298) *)
Inductive op :=
| SetSpw (s : Z * Z) (nd : option Z) | SetNdlys (nd : option Z) | SetExt (e : Z * Z) | SetSym (b : bool)
| SetTaper (t : pystr) | SetWeighting (w : weighting) | SetRParam (k : key) (p : P) | ClearCache | AddDataset
| CallR (k : key) | CallY (k : key) | CallI (k : key) | CallC (k : key) | CalliC (k : key).

(** pspecdata.py:1352-1374 *)
Definition set_ndlys (st : pds) (nd : option Z) : pds * result unit :=
  match nd with
  | None => (up_ndlys st (nfreqs st), Ok tt)
  | Some d => if Z.ltb (nfreqs st) d then (st, Err ValueError) else (up_ndlys st d, Ok tt)
  end.
(** pspecdata.py:1330-1350: the window is changed before the number of delays is checked *)
Definition set_spw (st : pds) (s : Z * Z) (nd : option Z) : pds * result unit := set_ndlys (up_spw st s (snd s - fst s)) nd.
(** pspecdata.py:1202-1224 *)
Definition set_sym (st : pds) (b : bool) : pds * result unit :=
  if b && (Z.gtb (fst (ext st)) 0 || Z.gtb (snd (ext st)) 0) then (st, Err ValueError) else (up_sym st b, Ok tt).
(** pspecdata.py:1226-1272 *)
Definition set_ext (st : pds) (e : Z * Z) : pds * result unit :=
  let st' := if sym st && negb (Z.eqb (fst e) 0) && negb (Z.eqb (snd e) 0) then up_sym st false else st in
  if Z.geb (fst e) 0 && Z.geb (snd e) 0
  then (up_ext st' (Z.min (fst (spw st)) (fst e), Z.min (Z.of_nat (NF st) - snd (spw st)) (snd e)), Ok tt)
  else (st', Err AssertionError).

(** the value of a call is not used further (Coq helper; pspecdata.py:910-1374) *)
Definition void {A} (r : result A) : result unit := bind r (fun _ => Ok tt).
(** pspecdata.py:453-491, 287-295, 688-806, 910-1374 *)
Definition step (st : pds) (o : op) : pds * result unit :=
  match o with
  | SetSpw s nd => set_spw st s nd
  | SetNdlys nd => set_ndlys st nd
  | SetExt e => set_ext st e
  | SetSym b => set_sym st b
  | SetTaper t => (up_taper st t, Ok tt)
  | SetWeighting w => (up_weight st w, Ok tt)
  | SetRParam k p => (up_rpar st (dset wkey_dec (rpar st) (weight st, k) p), Ok tt)
  | ClearCache => (up_cache st [] [] [] [] [], Ok tt)
  | AddDataset => (up_ndlys (up_spw st (0, Z.of_nat (NF st)) (Z.of_nat (NF st))) (Z.of_nat (NF st)), Ok tt)
  | CallR k => let (s, r) := callR st k in (s, void r)
  | CallY k => let (s, r) := callY st k in (s, void r)
  | CallI k => let (s, r) := callI st k in (s, void r)
  | CallC k => let (s, _) := callC st k in (s, Ok tt)
  | CalliC k => let (s, _) := calliC st k in (s, Ok tt)
  end.
(** a history: every call runs, whether or not the previous ones raised; a caller's sequence of calls (no source line; each is one of pspecdata.py:453-1374) *)
Definition run (st : pds) (ops : list op) : pds := fold_left (fun s o => fst (step s o)) ops st.

(** the setter calls of [PSpecData.pspec] (pspecdata.py:3541-3543; per window 3708-3712 and 4130) *)
Definition pspec_prologue (t : pystr) (b : bool) (w : weighting) : list op := [SetTaper t; SetSym b; SetWeighting w].
(** pspecdata.py:3708-3712, 4130 *)
Definition window_prologue (s : Z * Z) (nd : option Z) (e : Z * Z) : list op := [SetSpw s nd; SetExt e; ClearCache].
End World.
Arguments pds : clear implicits.
Arguments op : clear implicits.
