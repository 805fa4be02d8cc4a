(** Model of the loops of [PSpecData.pspec] (pspecdata.py:3676-4180) that decide which rows the
    returned object has, and of the cache of normalisation matrices used with identity weighting
    (pspecdata.py:3853-3889). *)
From Coq Require Import Reals.
From Verif Require Import Prelude PyDict PdModel.
Open Scope nat_scope.

(** * Rows and metadata *)
Section Rows.
Context {Pol Bl Time Row : Type}.
(** pspecdata.py:3676-4180 [pspec] *)
Definition blpair : Type := (Bl * Bl)%type.
(** an element of bl_pairs: a pair, or a group of pairs (pspecdata.py:3597-3603) *)
Inductive blp := Single (b : blpair) | Group (l : list blpair).

(** the environment: times of a baseline in the two datasets; polarizations present in them; and what is
    computed for window [i], polarization pair, baseline-pair and time index: a row of everything that is
    appended per spectrum (data, integration, weights, window function, covariance) *)
Context (times1 times2 : Bl -> list Time) (valid : Pol -> bool) (est : nat -> Pol -> blpair -> nat -> Row).

(** pspecdata.py:3676-4180 [pspec] *)
Record acc := mkacc { a_time1 : list Time; a_time2 : list Time; a_blp : list blpair }.
(** pspecdata.py:3676-4180 [pspec] *)
Definition acc0 := mkacc [] [] [].

(** pspecdata.py:3790-4078, one baseline-pair: the rows, one per time ([pv.T], the product of arrays with
    unequal numbers of times is a ValueError; one time against several is broadcast there and fails later, at 4046 or 4053,
    with IndexError or ValueError: the model has ValueError for all), and, [if i < 1 and j < 1], its times and identity *)
Definition do_blp (i j : nat) (p : Pol) (a : acc) (b : blp) : result (acc * list Row) :=
  match b with
  | Group _ => Err NotImplementedError
  | Single b =>
      require (Nat.eqb (length (times1 (fst b))) (length (times2 (snd b)))) ValueError (
      let rows := map (est i p b) (seq 0 (length (times1 (fst b)))) in
      let a' := if Nat.ltb i 1 && Nat.ltb j 1
                then mkacc (a_time1 a ++ times1 (fst b)) (a_time2 a ++ times2 (snd b)) (a_blp a ++ repeat b (length (times1 (fst b))))
                else a in
      Ok (a', rows))
  end.
(** pspecdata.py:3791: [for k, blp in enumerate(bl_pairs)] *)
Fixpoint do_blps (i j : nat) (p : Pol) (a : acc) (bs : list blp) : result (acc * list Row) :=
  match bs with
  | [] => Ok (a, [])
  | b :: bs' => bind (do_blp i j p a b) (fun r => bind (do_blps i j p (fst r) bs') (fun r' => Ok (fst r', snd r ++ snd r')))
  end.
(** pspecdata.py:3733-4088: [for j, p in enumerate(pols)]; an invalid pair is skipped *)
Fixpoint do_pols (i j : nat) (bs : list blp) (a : acc) (ps : list Pol) : result (acc * list (Pol * list Row)) :=
  match ps with
  | [] => Ok (a, [])
  | p :: ps' =>
      if valid p
      then bind (do_blps i j p a bs) (fun r => bind (do_pols i (S j) bs (fst r) ps') (fun r' => Ok (fst r', (p, snd r) :: snd r')))
      else do_pols i (S j) bs a ps'
  end.
(** pspecdata.py:3705-4131: [for i in range(len(spw_ranges))]; no valid polarization is an error *)
Fixpoint do_spws (i n : nat) (bs : list blp) (ps : list Pol) (a : acc) : result (acc * list (list (Pol * list Row))) :=
  match n with
  | O => Ok (a, [])
  | S n' => bind (do_pols i 0 bs a ps) (fun r =>
            require (match snd r with [] => false | _ => true end) ValueError (
            bind (do_spws (S i) n' bs ps (fst r)) (fun r' => Ok (fst r', snd r :: snd r'))))
  end.
(** the returned object: per window and polarization pair the rows, the per-row metadata, and the number of
    rows that the header announces (pspecdata.py:4152-4159: the number of distinct (blpair, time 1, time 2)) *)
Record pspec_out := mkout { o_data : list (list (Pol * list Row)); o_time1 : list Time; o_time2 : list Time; o_blp : list blpair; o_nblt : nat }.
Context (row_dec : forall x y : blpair * Time * Time, {x = y} + {x <> y}).
(** pspecdata.py:3676-4180 [pspec] *)
Definition pspec_rows (nspw : nat) (bs : list blp) (ps : list Pol) : result pspec_out :=
  bind (do_spws 0 nspw bs ps acc0) (fun r =>
  let a := fst r in
  Ok (mkout (snd r) (a_time1 a) (a_time2 a) (a_blp a) (length (nodup row_dec (combine (combine (a_blp a) (a_time1 a)) (a_time2 a)))))).
End Rows.
Arguments blp : clear implicits.
Arguments acc : clear implicits.
Arguments pspec_out : clear implicits.

(** * The cache of G and H with identity weighting *)
Section Norm.
Context {Pol GH : Type}.
(** [Ymat k]: the diagonal of Y(key); [gh k1 k2 p]: what get_G and get_H return for the two keys and the
    polarization [p] *)
Context (Ymat : key -> list R) (gh : key -> key -> Pol -> GH).
(** [np.isclose(Y, y).all()] for the two stacked diagonals; entries are 0 or 1, so this is equality; pspecdata.py:3853-3889 [pspec] *)
Definition same_flags (y y' : list R * list R) : bool :=
  (if list_eq_dec Req_EM_T (fst y) (fst y') then true else false) && (if list_eq_dec Req_EM_T (snd y) (snd y') then true else false).
(** pspecdata.py:3853-3889 [pspec] *)
Definition norm_cache : Type := list ((list R * list R) * GH).
(** pspecdata.py:3853-3889 *)
Fixpoint norm_find (y : list R * list R) (c : norm_cache) : option GH :=
  match c with [] => None | (y', v) :: c' => if same_flags y y' then Some v else norm_find y c' end.
(** pspecdata.py:3853-3889 [pspec] *)
Definition norm_step (c : norm_cache) (q : key * key * Pol) : norm_cache * GH :=
  let '(k1, k2, p) := q in
  let y := (Ymat k1, Ymat k2) in
  match norm_find y c with
  | Some v => (c, v)
  | None => let v := gh k1 k2 p in (c ++ [(y, v)], v)
  end.
(** pspecdata.py:3853-3889 [pspec] *)
Fixpoint norm_run (c : norm_cache) (qs : list (key * key * Pol)) : list GH :=
  match qs with [] => [] | q :: qs' => let (c', v) := norm_step c q in v :: norm_run c' qs' end.
End Norm.
