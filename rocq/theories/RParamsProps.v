(** Property C04: r_params compression is lossless. *)
From Coq Require Import String ZArith List.
Import ListNotations.
From Verif Require Import Prelude PyDict PyStr RParamsModel RParamsProofs.

(** C04. For dictionaries ([NoDup] keys) of parameter dictionaries without a field
    "baselines", decompressing the compressed form gives the same keys, and for each key the
    same fields with the same values. [dget] is Python's [dict.get]. *)
Theorem C04_r_params_round_trip :
  forall (K V : Type) (eqk : forall x y : K, {x = y} + {x <> y})
         (eqv : forall x y : V, {x = y} + {x <> y}) (d : list (K * list (field * V))),
  NoDup (map fst d) ->
  (forall k p, In (k, p) d -> NoDup (map fst p) /\ ~ In BASELINES (map fst p)) ->
  exists r, decompress eqk (compress eqv d) = Ok r /\ NoDup (map fst r) /\
  forall k, match dget eqk r k, dget eqk d k with
            | None, None => True
            | Some p', Some p => forall f, dget field_eq p' f = option_map JVal (dget field_eq p f)
            | _, _ => False
            end.
Proof. intros K V. exact round_trip_lem. Qed.
Print Assumptions C04_r_params_round_trip.

Example C04_r_params_round_trip_case :
  let fc := s_ "filter_centers" in let fh := s_ "filter_half_widths" in
  decompress Z.eq_dec (compress Z.eq_dec [(1%Z, [(fc, 0%Z); (fh, 3%Z)]); (2%Z, [(fc, 1%Z)]); (3%Z, [(fh, 3%Z); (fc, 0%Z)])])
  = Ok [(1%Z, [(fc, JVal 0%Z); (fh, JVal 3%Z)]); (3%Z, [(fc, JVal 0%Z); (fh, JVal 3%Z)]); (2%Z, [(fc, JVal 1%Z)])].
Proof. vm_compute. reflexivity. Qed.

(** C04. any two stored parameter sets differ in some parameter: each set is stored once *)
Theorem C04_r_params_stored_once :
  forall (K V : Type) (eqv : forall x y : V, {x = y} + {x <> y})
         (d : list (K * list (field * V))) l,
  (forall k p, In (k, p) d -> NoDup (map fst p) /\ ~ In BASELINES (map fst p)) ->
  compress eqv d = Some l ->
  ForallOrdPairs (fun j1 j2 => exists f, f <> BASELINES /\ dget field_eq j1 f <> dget field_eq j2 f) l.
Proof. intros K V. exact stored_once_lem. Qed.
Print Assumptions C04_r_params_stored_once.

(** the guard on the field name is needed: a field called "baselines" is lost *)
Theorem C04_reserved_field_refuted :
  exists d : list (Z * list (field * Z)),
  NoDup (map fst d) /\ (forall k p, In (k, p) d -> NoDup (map fst p)) /\
  exists r p p' f, decompress Z.eq_dec (compress Z.eq_dec d) = Ok r /\
  dget Z.eq_dec d 1%Z = Some p /\ dget Z.eq_dec r 1%Z = Some p' /\
  dget field_eq p f = Some 7%Z /\ dget field_eq p' f = None.
Proof.
  exists [(1%Z, [(BASELINES, 7%Z)])]. split; [repeat constructor; simpl; tauto|]. split.
  - intros k p [H|[]]. injection H as <- <-. repeat constructor; simpl; tauto.
  - exists [(1%Z, [])], [(BASELINES, 7%Z)], [], BASELINES.
    split; [exact baselines_field_lost_lem|]. repeat split.
Qed.
Print Assumptions C04_reserved_field_refuted.
