(** Polarizations of files of an older format (C389). *)
From Coq Require Import ZArith Lia FinFun.
From Verif Require Import Prelude PolPairModel PolPairProps OldPolModel.
Open Scope Z_scope.

(** A file with pol_array gives for each polarization, in order, its pair with itself, whether there is a polpair_array or not: no two polarizations become
    one pair, and decoding the pairs gives back the polarizations. A file without it gives the pairs that are in it. *)
Theorem old_polarizations : forall f ps, pf_pols f = Some ps -> (forall p, In p ps -> -8 <= p <= 4) ->
  exists l, read_polpairs f = Some l /\ List.length l = List.length ps /\ polpair_int2tuple_list l = Ok (map (fun p => (p, p)) ps) /\ (NoDup ps -> NoDup l).
Proof.
  intros f ps E V. unfold read_polpairs. rewrite E. exists (map (fun p => polpair_tuple2int (p, p)) ps). split; [reflexivity|]. split; [apply map_length|]. split.
  - rewrite <- (map_map (fun p => (p, p)) polpair_tuple2int). apply C03_polpair_round_trip. clear E. intros [a b] H. apply in_map_iff in H.
    destruct H as (p & [= <- <-] & Hp). cbn. specialize (V p Hp). lia.
  - apply FinFun.Injective_map_NoDup. intros a b H. unfold polpair_tuple2int in H. cbn [fst snd] in H. lia.
Qed.
Theorem new_polarizations : forall f, pf_pols f = None -> read_polpairs f = pf_polpairs f.
Proof. intros f E. unfold read_polpairs. now rewrite E. Qed.
(** Windows are exact only in files that say so. *)
Theorem old_exact_windows : forall f, read_exact f = true <-> pf_exact f = Some true.
Proof. intros [a b [[|]|]]; unfold read_exact; cbn; intuition congruence. Qed.
(** polarizations XX and YY, and a polpair_array of the wrong pairs *)
Theorem old_polarizations_case : read_polpairs (mkpolfile (Some [1413]) (Some [-5; -6]) None) = Some [1515; 1414] /\ NoDup [-5; -6].
Proof. split; [reflexivity | repeat constructor; cbn; intuition discriminate]. Qed.
