From Coq Require Import Permutation.
From Verif Require Import Prelude PyDict PyStr RParamsModel.

Section P.
Context {K V : Type} (eqk : forall x y : K, {x = y} + {x <> y})
        (eqv : forall x y : V, {x = y} + {x <> y}).
Notation params := (params V).
Notation uniques := (@uniques K V eqv).
Notation uniq_step := (@uniq_step K V eqv).
Notation dict_eqb := (@dict_eqb V eqv).

Definition okp (p : params) : Prop := NoDup (map fst p) /\ ~ In BASELINES (map fst p).
Definition equiv (p q : params) : Prop := forall f, dget field_eq p f = dget field_eq q f.

Lemma equiv_refl p : equiv p p. Proof. intros f; reflexivity. Qed.
Lemma equiv_trans p q r : equiv p q -> equiv q r -> equiv p r.
Proof. intros A B f. rewrite A. apply B. Qed.
Lemma equiv_sym p q : equiv p q -> equiv q p. Proof. intros A f. symmetry. apply A. Qed.

Lemma dict_eqb_equiv p q : NoDup (map fst p) -> NoDup (map fst q) ->
  (dict_eqb p q = true <-> equiv p q).
Proof.
  intros Np Nq. unfold RParamsModel.dict_eqb. rewrite andb_true_iff, Nat.eqb_eq, forallb_forall. split.
  - intros [L F].
    assert (I : incl p q).
    { intros [f v] H. specialize (F _ H). cbn in F.
      destruct (dget field_eq q f) as [v'|] eqn:E; [|discriminate].
      destruct (eqv v v') as [->|]; [|discriminate]. apply (dget_In field_eq) in E. exact E. }
    assert (I2 : incl q p).
    { apply NoDup_length_incl; [|lia | exact I]. apply (NoDup_map_inv fst). exact Np. }
    intros f. destruct (dget field_eq p f) as [v|] eqn:E.
    + symmetry. apply In_dget; [exact Nq|]. apply I. apply (dget_In field_eq). exact E.
    + destruct (dget field_eq q f) as [v|] eqn:E2; [|reflexivity].
      apply (dget_In field_eq) in E2. apply I2 in E2.
      rewrite (In_dget field_eq p f v Np E2) in E. discriminate.
  - intros E.
    assert (I : forall p q, NoDup (map fst p) -> NoDup (map fst q) -> equiv p q -> incl p q).
    { clear. intros p q Np Nq E [f v] H. apply (dget_In field_eq). rewrite <- E.
      apply In_dget; assumption. }
    pose proof (I p q Np Nq E) as I1. pose proof (I q p Nq Np (equiv_sym _ _ E)) as I2.
    split.
    + apply Nat.le_antisymm; apply NoDup_incl_length; try assumption; apply (NoDup_map_inv fst); assumption.
    + intros [f v] H. cbn. rewrite <- E, (In_dget field_eq p f v Np H).
      destruct (eqv v v); congruence.
Qed.

(** invariant of the uniquification loop over the processed prefix [d] *)
Record inv (d : list (K * params)) (u : list (params * list K)) : Prop := {
  i_okp : forall e, In e u -> okp (fst e);
  i_cover : forall k p, In (k, p) d -> exists e, In e u /\ In k (snd e) /\ equiv (fst e) p;
  i_sound : forall e k, In e u -> In k (snd e) -> exists p, In (k, p) d /\ equiv (fst e) p;
  i_perm : Permutation (concat (map snd u)) (map fst d);
  i_uniq : ForallOrdPairs (fun a b => ~ equiv (fst a) (fst b)) u }.

Lemma FOP_app_one {A} (R : A -> A -> Prop) l x :
  ForallOrdPairs R l -> Forall (fun a => R a x) l -> ForallOrdPairs R (l ++ [x]).
Proof.
  induction 1 as [|a l Ha F IH]; intros G; cbn; [repeat constructor|].
  inversion G; subst. constructor; [apply Forall_app; split; [assumption|constructor; auto] | auto].
Qed.

Lemma FOP_map {A B} (R : A -> A -> Prop) (S : B -> B -> Prop) (f : A -> B) l :
  (forall a b, R a b -> S (f a) (f b)) -> ForallOrdPairs R l -> ForallOrdPairs S (map f l).
Proof.
  intros H. induction 1 as [|a l Ha F IH]; cbn; constructor; [|assumption].
  apply Forall_map. eapply Forall_impl; [|exact Ha]. cbn. auto.
Qed.

(** with pairwise distinct sets, exactly one entry gets the new key *)
Lemma append_perm (u : list (params * list K)) (p : params) k :
  okp p -> (forall e, In e u -> okp (fst e)) ->
  ForallOrdPairs (fun a b => ~ equiv (fst a) (fst b)) u ->
  existsb (fun e => dict_eqb (fst e) p) u = true ->
  Permutation (concat (map snd (map (fun e => if dict_eqb (fst e) p then (fst e, snd e ++ [k]) else e) u)))
              (concat (map snd u) ++ [k]).
Proof.
  intros Hp Hok F. induction F as [|e u He F IH]; cbn [existsb map concat]; [discriminate|].
  intros H. destruct (dict_eqb (fst e) p) eqn:E; cbn [snd].
  - assert (N : map (fun e0 => if dict_eqb (fst e0) p then (fst e0, snd e0 ++ [k]) else e0) u = u).
    { rewrite <- (map_id u) at 2. apply map_ext_in. intros e' He'.
      destruct (dict_eqb (fst e') p) eqn:E'; [|reflexivity]. exfalso.
      apply dict_eqb_equiv in E; [|apply (Hok e); left; reflexivity | apply Hp].
      apply dict_eqb_equiv in E'; [|apply (Hok e'); right; exact He' | apply Hp].
      rewrite Forall_forall in He. apply (He e' He'). eapply equiv_trans; [exact E|].
      apply equiv_sym; exact E'. }
    rewrite N. rewrite <- !app_assoc. apply Permutation_app_head. apply Permutation_app_comm.
  - rewrite <- app_assoc. apply Permutation_app_head. apply IH; [|exact H].
    intros e' He'; apply Hok; right; exact He'.
Qed.

Lemma inv_step d u k p : okp p -> inv d u -> inv (d ++ [(k, p)]) (uniq_step u (k, p)).
Proof.
  intros Hp [Iok Icov Isnd Iperm Iuniq]. unfold RParamsModel.uniq_step; cbn [fst snd].
  destruct (existsb (fun e => dict_eqb (fst e) p) u) eqn:X.
  - set (g := fun e : params * list K => if dict_eqb (fst e) p then (fst e, snd e ++ [k]) else e).
    assert (Gf : forall e, fst (g e) = fst e).
    { intros e. unfold g. destruct (dict_eqb (fst e) p); reflexivity. }
    split.
    + intros e He. apply in_map_iff in He. destruct He as [e0 [<- He0]]. rewrite Gf. auto.
    + intros k' p' H. apply in_app_iff in H. destruct H as [H|[H|[]]].
      * destruct (Icov _ _ H) as [e [He [Hk Heq]]]. exists (g e). split; [apply in_map; exact He|].
        rewrite Gf. split; [|exact Heq]. unfold g.
        destruct (dict_eqb (fst e) p); [cbn; apply in_app_iff; auto | exact Hk].
      * injection H as <- <-. apply existsb_exists in X. destruct X as [e [He Hd]].
        exists (g e). split; [apply in_map; exact He|]. rewrite Gf.
        unfold g; rewrite Hd; cbn. split; [apply in_app_iff; right; left; reflexivity|].
        apply dict_eqb_equiv in Hd; [exact Hd | apply Iok; exact He | apply Hp].
    + intros e k' He Hk. apply in_map_iff in He. destruct He as [e0 [<- He0]]. rewrite Gf.
      unfold g in Hk. destruct (dict_eqb (fst e0) p) eqn:Hd; cbn in Hk.
      * apply in_app_iff in Hk. destruct Hk as [Hk|[<-|[]]].
        -- destruct (Isnd _ _ He0 Hk) as [p' [Hi Hq]]. exists p'. split; [apply in_app_iff; auto | exact Hq].
        -- exists p. split; [apply in_app_iff; right; left; reflexivity|].
           apply dict_eqb_equiv in Hd; [exact Hd | apply Iok; exact He0 | apply Hp].
      * destruct (Isnd _ _ He0 Hk) as [p' [Hi Hq]]. exists p'. split; [apply in_app_iff; auto | exact Hq].
    + rewrite map_app. cbn [map fst]. eapply Permutation_trans; [apply append_perm; assumption|].
      apply Permutation_app_tail. exact Iperm.
    + eapply FOP_map; [|exact Iuniq]. intros a b Hab. cbn beta. rewrite !Gf. exact Hab.
  - assert (Xf : forall e, In e u -> dict_eqb (fst e) p = false).
    { intros e He. destruct (dict_eqb (fst e) p) eqn:E; [|reflexivity].
      assert (existsb (fun e => dict_eqb (fst e) p) u = true) by (apply existsb_exists; eauto). congruence. }
    split.
    + intros e He. apply in_app_iff in He. destruct He as [He|[<-|[]]]; auto.
    + intros k' p' H. apply in_app_iff in H. destruct H as [H|[H|[]]].
      * destruct (Icov _ _ H) as [e [He Hr]]. exists e. split; [apply in_app_iff; auto | exact Hr].
      * injection H as <- <-. exists (p, [k]). split; [apply in_app_iff; right; left; reflexivity|].
        cbn. split; [auto | apply equiv_refl].
    + intros e k' He Hk. apply in_app_iff in He. destruct He as [He|[<-|[]]].
      * destruct (Isnd _ _ He Hk) as [p' [Hi Hq]]. exists p'. split; [apply in_app_iff; auto | exact Hq].
      * cbn in Hk. destruct Hk as [<-|[]]. exists p. split; [apply in_app_iff; right; left; reflexivity | apply equiv_refl].
    + rewrite !map_app, concat_app. cbn. apply Permutation_app_tail. exact Iperm.
    + apply FOP_app_one; [exact Iuniq|]. apply Forall_forall. intros e He Q.
      specialize (Xf e He). cbn [fst] in Q. apply dict_eqb_equiv in Q; [congruence | apply Iok; exact He | apply Hp].
Qed.

Lemma inv_uniques d : (forall k p, In (k, p) d -> okp p) -> inv d (uniques d).
Proof.
  intros H. unfold RParamsModel.uniques.
  assert (G : forall d2 d1 u, inv d1 u -> (forall k p, In (k, p) d2 -> okp p) ->
            inv (d1 ++ d2) (fold_left uniq_step d2 u)).
  { induction d2 as [|[k p] d2 IH]; intros d1 u I Hd; cbn; [rewrite app_nil_r; exact I|].
    replace (d1 ++ (k, p) :: d2) with ((d1 ++ [(k, p)]) ++ d2) by (rewrite <- app_assoc; reflexivity).
    apply IH; [|intros; eapply Hd; right; eassumption].
    apply inv_step; [eapply Hd; left; reflexivity | exact I]. }
  apply (G d [] []); [|exact H]. split; cbn; try tauto; constructor.
Qed.

Lemma attach_eq (e : params * list K) : okp (fst e) ->
  attach e = map (fun fv => (fst fv, JVal (snd fv))) (fst e) ++ [(BASELINES, JBls (snd e))].
Proof.
  intros [_ H]. unfold attach. apply dset_fresh. rewrite map_map. exact H.
Qed.

Lemma strip_attach (e : params * list K) : okp (fst e) ->
  strip_baselines (attach e) = map (fun fv => (fst fv, JVal (snd fv))) (fst e).
Proof.
  intros H. rewrite attach_eq by exact H. unfold strip_baselines. rewrite filter_app. cbn [filter fst].
  destruct (field_eq BASELINES BASELINES); [|congruence]. rewrite app_nil_r.
  destruct H as [_ H]. induction (fst e) as [|[f v] l IH]; [reflexivity|]. cbn in *.
  destruct (field_eq f BASELINES) as [E|]; [tauto|]. rewrite IH by tauto. reflexivity.
Qed.

Lemma dget_map_JVal (p : params) f :
  dget field_eq (map (fun fv => (fst fv, @JVal K V (snd fv))) p) f = option_map JVal (dget field_eq p f).
Proof.
  induction p as [|[f0 v] p IH]; [reflexivity|]. cbn. destruct (field_eq f f0); [reflexivity | exact IH].
Qed.

Lemma dget_attach_bls (e : params * list K) : okp (fst e) ->
  dget field_eq (attach e) BASELINES = Some (JBls (snd e)).
Proof.
  intros H. unfold attach. rewrite dget_dset. destruct (field_eq BASELINES BASELINES); congruence.
Qed.

Lemma fold_dset bls (x : jdict K V) a k :
  dget eqk (fold_left (fun a b => dset eqk a b x) bls a) k =
    if in_dec eqk k bls then Some x else dget eqk a k.
Proof.
  revert a; induction bls as [|b bls IH]; intros a; cbn [fold_left].
  - destruct (in_dec eqk k []); [contradiction | reflexivity].
  - rewrite IH, dget_dset. destruct (in_dec eqk k bls) as [i|n], (in_dec eqk k (b :: bls)) as [i2|n2];
      try reflexivity; cbn in *; try tauto; destruct (eqk k b); try reflexivity; exfalso; subst; intuition congruence.
Qed.

Lemma fold_dset_NoDup bls (x : jdict K V) a : NoDup (map fst a) ->
  NoDup (map fst (fold_left (fun a b => dset eqk a b x) bls a)).
Proof. revert a; induction bls as [|b bls IH]; intros a N; cbn; [exact N|]. apply IH, dset_NoDup, N. Qed.

Lemma decomp_fold u : (forall e, In e u -> okp (fst e)) -> NoDup (concat (map snd u)) ->
  forall a, NoDup (map fst a) ->
  exists r, fold_left (decomp_step eqk) (map attach u) (Ok a) = Ok r /\ NoDup (map fst r) /\
  (forall e k, In e u -> In k (snd e) ->
     dget eqk r k = Some (map (fun fv => (fst fv, JVal (snd fv))) (fst e))) /\
  (forall k, ~ In k (concat (map snd u)) -> dget eqk r k = dget eqk a k).
Proof.
  induction u as [|e u IH]; intros Hok N a Na.
  - exists a. cbn. repeat split; [exact Na | tauto].
  - cbn [map fold_left]. unfold decomp_step at 2. cbn [bind].
    rewrite dget_attach_bls, strip_attach by (apply Hok; left; reflexivity).
    cbn [map concat] in N.
    assert (N2 : NoDup (concat (map snd u)) /\ forall k, In k (snd e) -> ~ In k (concat (map snd u))).
    { clear -N. induction (snd e) as [|x l IH]; cbn in *; [split; [exact N | tauto]|].
      inversion N as [|? ? N1 N0]; subst. destruct (IH N0) as [A B]. split; [exact A|].
      intros k [<-|H]; [|auto]. intros C. apply N1. apply in_app_iff. auto. }
    destruct N2 as [N2 D].
    destruct (IH (fun e' He' => Hok e' (or_intror He')) N2 _
               (fold_dset_NoDup (snd e) (map (fun fv => (fst fv, JVal (snd fv))) (fst e)) a Na))
      as [r [E [Nr [R1 R2]]]].
    exists r. split; [exact E|]. split; [exact Nr|]. split.
    + intros e' k [<-|He'] Hk; [|apply R1; assumption].
      rewrite R2 by (apply D; exact Hk). rewrite fold_dset. destruct (in_dec eqk k (snd e)); [reflexivity|tauto].
    + intros k Hk. cbn [map concat] in Hk. rewrite in_app_iff in Hk.
      rewrite R2 by tauto. rewrite fold_dset. destruct (in_dec eqk k (snd e)); [tauto|reflexivity].
Qed.

Lemma round_trip_lem (d : list (K * params)) :
  NoDup (map fst d) ->
  (forall k p, In (k, p) d -> NoDup (map fst p) /\ ~ In BASELINES (map fst p)) ->
  exists r, decompress eqk (compress eqv d) = Ok r /\ NoDup (map fst r) /\
  forall k, match dget eqk r k, dget eqk d k with
            | None, None => True
            | Some p', Some p => forall f, dget field_eq p' f = option_map JVal (dget field_eq p f)
            | _, _ => False
            end.
Proof.
  intros N Hok. destruct d as [|kp d0] eqn:Ed.
  - exists []. repeat split; constructor.
  - rewrite <- Ed in *. assert (C : compress eqv d = Some (map attach (uniques d))) by (subst d; reflexivity).
    rewrite C. cbn [decompress]. pose proof (inv_uniques d Hok) as I.
    destruct (decomp_fold (uniques d) (i_okp _ _ I)) with (a := @nil (K * jdict K V)) as [r [E [Nr [R1 R2]]]].
    + eapply Permutation_NoDup; [symmetry; apply (i_perm _ _ I) | exact N].
    + constructor.
    + exists r. split; [exact E|]. split; [exact Nr|]. intros k.
      destruct (dget eqk d k) as [p|] eqn:G.
      * apply (dget_In eqk) in G. destruct (i_cover _ _ I _ _ G) as [e [He [Hk Q]]].
        rewrite (R1 _ _ He Hk). intros f. rewrite dget_map_JVal. rewrite Q. reflexivity.
      * assert (Nk : ~ In k (map fst d)) by (apply (dget_None eqk); exact G).
        rewrite R2; [exact Logic.I|]. intros Hk. apply Nk.
        eapply Permutation_in; [apply (i_perm _ _ I) | exact Hk].
Qed.

Lemma round_trip_params (d : list (K * params)) :
  NoDup (map fst d) ->
  (forall k p, In (k, p) d -> NoDup (map fst p) /\ ~ In BASELINES (map fst p)) ->
  exists r, decompress eqk (compress eqv d) = Ok r /\ NoDup (map fst r) /\
  forall k, match dget eqk r k, dget eqk d k with
            | None, None => True
            | Some p', Some p => exists q, p' = map (fun fv => (fst fv, JVal (snd fv))) q /\ okp q /\ forall f, dget field_eq q f = dget field_eq p f
            | _, _ => False
            end.
Proof.
  intros N Hok. destruct d as [|kp d0] eqn:Ed.
  - exists []. repeat split; constructor.
  - rewrite <- Ed in *. assert (C : compress eqv d = Some (map attach (uniques d))) by (subst d; reflexivity).
    rewrite C. cbn [decompress]. pose proof (inv_uniques d Hok) as I.
    destruct (decomp_fold (uniques d) (i_okp _ _ I)) with (a := @nil (K * jdict K V)) as [r [E [Nr [R1 R2]]]].
    + eapply Permutation_NoDup; [symmetry; apply (i_perm _ _ I) | exact N].
    + constructor.
    + exists r. split; [exact E|]. split; [exact Nr|]. intros k.
      destruct (dget eqk d k) as [p|] eqn:G.
      * apply (dget_In eqk) in G. destruct (i_cover _ _ I _ _ G) as [e [He [Hk Q]]].
        rewrite (R1 _ _ He Hk). exists (fst e). split; [reflexivity|]. split; [apply (i_okp _ _ I), He|]. intros f. apply Q.
      * assert (Nk : ~ In k (map fst d)) by (apply (dget_None eqk); exact G).
        rewrite R2; [exact Logic.I|]. intros Hk. apply Nk.
        eapply Permutation_in; [apply (i_perm _ _ I) | exact Hk].
Qed.

Lemma opt_eq (a b : option V) : {a = b} + {a <> b}.
Proof. decide equality. Qed.

(** identical parameter sets are stored once *)
Lemma stored_once_lem (d : list (K * params)) l :
  (forall k p, In (k, p) d -> NoDup (map fst p) /\ ~ In BASELINES (map fst p)) ->
  compress eqv d = Some l ->
  ForallOrdPairs (fun j1 j2 => exists f, f <> BASELINES /\ dget field_eq j1 f <> dget field_eq j2 f) l.
Proof.
  intros Hok C. assert (E : l = map attach (uniques d)).
  { destruct d; cbn in C; [discriminate|]. injection C as <-. reflexivity. }
  subst l. pose proof (inv_uniques d Hok) as I.
  pose proof (i_uniq _ _ I) as U. pose proof (i_okp _ _ I) as O.
  clear -U O eqv. induction U as [|e u He U IH]; cbn; constructor.
  - apply Forall_map. apply Forall_forall. intros e' He'. rewrite Forall_forall in He.
    specialize (He e' He'). pose proof (O e (or_introl eq_refl)) as O1.
    pose proof (O e' (or_intror He')) as O2.
    (* some field differs *)
    assert (X : exists f, dget field_eq (fst e) f <> dget field_eq (fst e') f).
    { destruct (Forall_Exists_dec (fun f => dget field_eq (fst e) f = dget field_eq (fst e') f)
                (fun f => opt_eq (dget field_eq (fst e) f) (dget field_eq (fst e') f))
                (map fst (fst e) ++ map fst (fst e'))) as [F|F].
      - exfalso. apply He. intros f. rewrite Forall_forall in F.
        destruct (dget field_eq (fst e) f) as [v|] eqn:E1.
        + rewrite <- E1. apply F. apply in_app_iff. left. apply (dget_In field_eq) in E1.
          apply (in_map fst) in E1. exact E1.
        + destruct (dget field_eq (fst e') f) as [v|] eqn:E2; [|reflexivity].
          rewrite <- E1, <- E2. apply F. apply in_app_iff. right. apply (dget_In field_eq) in E2.
          apply (in_map fst) in E2. exact E2.
      - apply Exists_exists in F. destruct F as [f [_ Hf]]. exists f. exact Hf. }
    destruct X as [f Hf]. exists f.
    destruct (field_eq f BASELINES) as [->|Nf].
    + exfalso. apply Hf. destruct O1 as [_ O1], O2 as [_ O2].
      apply (dget_None field_eq) in O1, O2. congruence.
    + split; [exact Nf|]. unfold attach. rewrite !dget_dset.
      destruct (field_eq f BASELINES); [contradiction|]. rewrite !dget_map_JVal.
      intros Q. apply Hf. destruct (dget field_eq (fst e) f), (dget field_eq (fst e') f); cbn in Q; congruence.
  - apply IH. intros; apply O; right; assumption.
Qed.
End P.

(** the reserved field name is really lost *)
Lemma baselines_field_lost_lem :
  decompress Z.eq_dec (compress Z.eq_dec [(1%Z, [(BASELINES, 7%Z)])]) = Ok [(1%Z, [])].
Proof. vm_compute. reflexivity. Qed.
