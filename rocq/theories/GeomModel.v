(** Model of [utils.circular_average] (utils.py:22-63), [utils.get_bl_lens_angs] (1189-1224), [pspecdata.validate_blpairs]
    (pspecdata.py:5492-5548), [utils.spw_range_from_redshifts] (654-705) and the bookkeeping of [utils.config_pspec_blpairs] (877-980),
    in exact arithmetic. *)
From Coq Require Import String.
From Coq Require Import Reals Lra.
From Flocq Require Import Core.
From Verif Require Import PyDict PyStr H5Model.
From Verif Require Import Prelude UvpModel StatModel.
Open Scope R_scope.

(** np.arctan2 (without signed zeros); used by utils.py:62, 1217 *)
Definition atan2 (y x : R) : R :=
  if Rlt_dec 0 x then atan (y / x)
  else if Rlt_dec x 0 then (if Rle_dec 0 y then atan (y / x) + PI else atan (y / x) - PI)
  else if Rlt_dec 0 y then PI / 2 else if Rlt_dec y 0 then - PI / 2 else 0.
(** Python's [a % m] for positive m; Python's remainder, utils.py:62, 1218 *)
Definition pymod (a m : R) : R := a - m * IZR (Zfloor (a / m)).
(** utils.py:57-63 *)
Definition circular_average (l : list R) : R := pymod (atan2 (mean (map sin l)) (mean (map cos l))) (2 * PI).

(** ** get_bl_lens_angs, 1214-1223; [z] is 0 for two-dimensional vectors; utils.py:1212-1213 *)
Record vec := mkvec { vx : R; vy : R; vz : R }.
(** np.linalg.norm and differences of vectors, utils.py:1216; pspecdata.py:5529, 5542-5544 *)
Definition vsub (a b : vec) : vec := mkvec (vx a - vx b) (vy a - vy b) (vz a - vz b).
(** np.linalg.norm and differences of vectors, utils.py:1216; pspecdata.py:5529, 5542-5544 *)
Definition vneg (a : vec) : vec := mkvec (- vx a) (- vy a) (- vz a).
(** np.linalg.norm and differences of vectors, utils.py:1216; pspecdata.py:5529, 5542-5544 *)
Definition norm (a : vec) : R := sqrt (vx a ^ 2 + vy a ^ 2 + vz a ^ 2).
(** utils.py:1216 *)
Definition bl_len (v : vec) : R := norm v.
(** utils.py:1217-1218 *)
Definition raw_ang (v : vec) : R := let a := atan2 (vy v) (vx v) * 180 / PI in if Rlt_dec a 0 then pymod (a + 180) 360 else a.
(** utils.py:1220-1222 *)
Definition bl_ang (tol : R) (v : vec) : R :=
  if Rlt_dec (- tol) (vy v) then if Rlt_dec (vy v) 0 then if Rlt_dec 0 (vx v) then 0 else raw_ang v else raw_ang v else raw_ang v.

(** ** validate_blpairs.  Positions by antenna; returns the pairs that are warned about; pspecdata.py:5498-5505 *)
Definition bpair := ((Z * Z) * (Z * Z))%type.
(** pspecdata.py:5520-5524 (uvd.get_enu_data_ants as a dictionary) *)
Definition antpos := list (Z * vec).
(** pspecdata.py:5520-5524 (uvd.get_enu_data_ants as a dictionary) *)
Definition pos (ap : antpos) (k : Z) : option vec := dget Z.eq_dec ap k.
(** pspecdata.py:5526-5532 *)
Definition shared_ok (tol : R) (ap1 ap2 : antpos) : bool :=
  forallb (fun kv => match pos ap2 (fst kv) with Some v => if Rle_dec (norm (vsub (snd kv) v)) tol then true else false | None => true end) ap1.
(** ap1.update(ap2), looked up; pspecdata.py:5533-5534 *)
Definition merged_pos (ap1 ap2 : antpos) (k : Z) : option vec := match pos ap2 k with Some v => Some v | None => pos ap1 k end.
(** pspecdata.py:5542-5543 *)
Definition bl_vec (p : Z -> option vec) (b : Z * Z) : result vec :=
  match p (fst b), p (snd b) with Some u, Some v => Ok (vsub u v) | _, _ => Err KeyError end.
(** pspecdata.py:5538-5548 *)
Fixpoint vb_loop (tol : R) (p : Z -> option vec) (l : list bpair) : result (list bpair) :=
  match l with
  | [] => Ok []
  | b :: l' => bind (bl_vec p (fst b)) (fun v1 => bind (bl_vec p (snd b)) (fun v2 =>
               bind (vb_loop tol p l') (fun ws => Ok (if Rle_dec tol (norm (vsub v1 v2)) then b :: ws else ws))))
  end.
(** elements of blpairs are pairs or lists of pairs; pspecdata.py:5492-5548 *)
Definition validate_blpairs (tol : R) (ap1 ap2 : antpos) (groups : list (list bpair)) : result (list bpair) :=
  require (shared_ok tol ap1 ap2) AssertionError (vb_loop tol (merged_pos ap1 ap2) (concat groups)).

(** ** spw_range_from_redshifts for one range (with spw_range_from_freqs, 574-651, over the reals); np.min, np.max, utils.py:574-651 *)
Definition minR (l : list R) : R := fold_right Rmin (hd 0 l) l.
(** np.min, np.max, utils.py:574-651 *)
Definition maxR (l : list R) : R := fold_right Rmax (hd 0 l) l.
(** comparisons of floats, utils.py:574-651 *)
Definition ltbR (a b : R) : bool := if Rlt_dec a b then true else false.
(** comparisons of floats, utils.py:574-651 *)
Definition lebR (a b : R) : bool := if Rle_dec a b then true else false.
(** utils.py:574-651 *)
Definition rspw_range (freqs : list R) (fmin fmax : R) (bounds_error : bool) : result (option (nat * nat)) :=
  require (negb (ltbR fmax fmin)) ValueError
  (require (match freqs with [] => false | _ => true end) ValueError
  (require (negb (ltbR fmin (minR freqs) && bounds_error)) ValueError
  (require (negb (ltbR (maxR freqs) fmax && bounds_error)) ValueError
   (let idxs := where_ (map (fun f => lebR fmin f && ltbR f fmax)%bool freqs) in
    Ok (match idxs with [] => None | i :: _ => Some (i, List.last idxs i) end))))).
(** [f21]: the rest frequency of the line; z2f (conversions.py) *)
Definition spw_range_z (f21 : R) (freqs : list R) (zmin zmax : R) (be : bool) := rspw_range freqs (f21 / (zmax + 1)) (f21 / (zmin + 1)) be.

(** ** config_pspec_blpairs, utils.py:877-980.  [found t pol grp]: the names that glob finds for template t, pol and grp, with the fields {pol} and
    {group} put back (utils.py:891-906); a name filled in with a pol and group is taken to exist on disk iff it was found for them;
    [pairs_of f pol grp]: the pairs of the baselines of that file (C25); the strings of pol_pairs and group_pairs, utils.py:788-800 *)
Definition label := pystr.
(** Coq helper: equality of dictionary keys, utils.py:971-978 *)
Definition lab_dec : forall x y : label * label, {x = y} + {x <> y}.
Proof. decide equality; apply list_eq_dec, Ascii.ascii_dec. Defined.
(** utils.py:971-978 *)
Definition gkey := ((label * label) * (label * label))%type.   (* group pair, pol pair; Coq helper: equality of dictionary keys, utils.py:971-978 *)
Definition gkey_dec : forall x y : gkey, {x = y} + {x <> y}.
Proof. decide equality; apply lab_dec. Defined.
(** utils.py:955-969 *)
Definition blp_ok (xants : list Z) (b : bpair) : bool :=
  negb (existsb (fun a => if in_dec Z.eq_dec a xants then true else false) [fst (fst b); snd (fst b); fst (snd b); snd (snd b)]).
(** utils.py:884-886 *)
Definition pairs_flat {A} (l : list (A * A)) : list A := concat (map (fun p => [fst p; snd p]) l).
(** [in] (Coq helper), utils.py:971-978 *)
Definition inb {A} (dec : forall x y : A, {x = y} + {x <> y}) (x : A) (l : list A) : bool := if in_dec dec x l then true else false.
Section Config.
Context {T : Type} (found : T -> label -> label -> list pystr) (pairs_of : pystr -> label -> label -> list bpair) (templates : list T).
(** utils.py:884-906 *)
Definition all_found (pol grp : label) : list pystr := concat (map (fun t => found t pol grp) templates).
(** utils.py:884-906 *)
Definition searched (pol_pairs group_pairs : list (label * label)) : list (label * label) := list_prod (unique_str (pairs_flat pol_pairs)) (unique_str (pairs_flat group_pairs)).
(** utils.py:884-906 *)
Definition pol_grps (pps gps : list (label * label)) : list (label * label) :=
  concat (map (fun t => filter (fun pg => negb (Nat.eqb (length (found t (fst pg) (snd pg))) 0)) (searched pps gps)) templates).
(** utils.py:884-906 *)
Definition unique_files (pps gps : list (label * label)) : list pystr :=
  unique_str (concat (map (fun t => concat (map (fun pg => found t (fst pg) (snd pg)) (searched pps gps))) templates)).
(** utils.py:908-930 *)
Definition excluded (exclude : option (list pystr)) (f : pystr) : bool := match exclude with None => false | Some ex => existsb (fun p => substr p f) ex end.
(** None: the empty list that is returned when no files remain; utils.py:877-980 *)
Definition config_blpairs (pps gps : list (label * label)) (xants : list Z) (exclude : option (list pystr)) : result (option (list (gkey * list bpair))) :=
  require (Nat.eqb (length pps) (length gps)) AssertionError
  (let pg := pol_grps pps gps in
   match filter (fun f => negb (excluded exclude f)) (unique_files pps gps), pg with
   | [], _ => match exclude with Some _ => Ok None | None => Err IndexError end
   | _, [] => Err IndexError
   | f0 :: _, (p0, g0) :: _ =>
     require (inb (list_eq_dec Ascii.ascii_dec) f0 (all_found p0 g0)) OSError
     (let blps := filter (blp_ok xants) (pairs_of f0 p0 g0) in
      Ok (Some (fold_left (fun d pg2 => if inb lab_dec (fst (fst pg2), fst (snd pg2)) pg && inb lab_dec (snd (fst pg2), snd (snd pg2)) pg
                                        then dset gkey_dec d (snd pg2, fst pg2) blps else d)%bool (combine pps gps) [])))
   end).
End Config.
