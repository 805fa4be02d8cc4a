(** Properties of user-supplied covariances: C272-C283. *)
From Coq Require Import String.
From Verif Require Import Prelude PyStr PyDict KcovModel.
Open Scope Z_scope.

Section P.
Context {M : Type}.
Implicit Types (st : @kst M) (w : @world M) (d : list (ckey * M)) (known : option (list (ckey * M))).

Lemma dget_drop {K V} (eqk : forall x y : K, {x = y} + {x <> y}) (d : list (K * V)) k k' :
  dget eqk (drop eqk d k) k' = if eqk k' k then None else dget eqk d k'.
Proof.
  unfold drop. induction d as [|[a b] d IH]; cbn [filter fst dget]; [destruct (eqk k' k); reflexivity|].
  destruct (eqk a k) as [->|N]; cbn [dget].
  - rewrite IH. destruct (eqk k' k) as [E|E]; reflexivity.
  - destruct (eqk k' a) as [->|N']; [destruct (eqk a k); congruence|exact IH].
Qed.
Lemma clear_keys_get (ks : list ckey) st k :
  dget ckey_dec (kC (clear_keys st ks)) k = (if in_dec ckey_dec k ks then None else dget ckey_dec (kC st) k) /\
  dget ckey_dec (kiC (clear_keys st ks)) k = (if in_dec ckey_dec k ks then None else dget ckey_dec (kiC st) k) /\
  kR (clear_keys st ks) = kR st.
Proof.
  revert st; induction ks as [|a ks IH]; intro st; [cbn; auto|].
  change (clear_keys st (a :: ks)) with (clear_keys (clear_key st a) ks).
  destruct (IH (clear_key st a)) as [A [B C]]. rewrite A, B, C. unfold clear_key; cbn [kC kiC kR]. rewrite !dget_drop.
  destruct (in_dec ckey_dec k ks) as [H|H], (in_dec ckey_dec k (a :: ks)) as [H'|H'].
  - auto.
  - exfalso; apply H'; right; exact H.
  - destruct (ckey_dec k a); [auto|]. destruct H'; [congruence|contradiction].
  - destruct (ckey_dec k a) as [->|]; [|auto]. exfalso; apply H'; left; reflexivity.
Qed.
Lemma fold_dset_get (c : list (ckey * M)) d k :
  dget ckey_dec (fold_left (fun d kv => dset ckey_dec d (fst kv) (snd kv)) c d) k =
  match dget ckey_dec (rev c) k with Some m => Some m | None => dget ckey_dec d k end.
Proof.
  revert d; induction c as [|[a b] c IH]; intro d; [reflexivity|]. cbn [fold_left rev fst snd]. rewrite IH, dget_app.
  destruct (dget ckey_dec (rev c) k); [reflexivity|]. rewrite dget_dset. cbn. destruct (ckey_dec k a); reflexivity.
Qed.
Lemma set_C_get c st k : dget ckey_dec (kC (set_C st c)) k =
  match dget ckey_dec (rev c) k with Some m => Some m | None => dget ckey_dec (kC st) k end.
Proof.
  unfold set_C; cbn [kC]. rewrite fold_dset_get. destruct (dget ckey_dec (rev c) k) eqn:E; [reflexivity|].
  destruct (clear_keys_get (map fst c) st k) as [-> _]. destruct (in_dec ckey_dec k (map fst c)) as [H|]; [|reflexivity].
  exfalso. apply dget_None in E. apply E. rewrite map_rev. apply in_rev in H. exact H.
Qed.
Lemma set_C1_get ck (m : M) st k : dget ckey_dec (kC (set_C st [(ck, m)])) k = if ckey_dec k ck then Some m else dget ckey_dec (kC st) k.
Proof. rewrite set_C_get. cbn. destruct (ckey_dec k ck); reflexivity. Qed.
Lemma set_C1_inv ck (m : M) st k : dget ckey_dec (kiC (set_C st [(ck, m)])) k = if ckey_dec k ck then None else dget ckey_dec (kiC st) k.
Proof.
  unfold set_C; cbn [kiC]. destruct (clear_keys_get (map fst [(ck, m)]) st k) as [_ [-> _]].
  destruct (in_dec ckey_dec k (map fst [(ck, m)])) as [H|H], (ckey_dec k ck) as [E|E]; auto.
  - destruct H as [H|[]]. exfalso; apply E; symmetry; exact H.
  - exfalso. apply H. left. symmetry; exact E.
Qed.

(** ** C272: clear_cache with keys *)
Theorem clear_cache_keys : forall st (ks : list ckey) k,
  (In k ks -> dget ckey_dec (kC (clear_keys st ks)) k = None /\ dget ckey_dec (kiC (clear_keys st ks)) k = None) /\
  (~ In k ks -> dget ckey_dec (kC (clear_keys st ks)) k = dget ckey_dec (kC st) k /\
                dget ckey_dec (kiC (clear_keys st ks)) k = dget ckey_dec (kiC st) k) /\
  kR (clear_keys st ks) = kR st.
Proof.
  intros st ks k. destruct (clear_keys_get ks st k) as [A [B C]]. rewrite A, B.
  destruct (in_dec ckey_dec k ks); repeat split; tauto.
Qed.

(** the key of the covariance of one baseline, as documented: the empirical covariance has no time *)
Definition doc_key (k : bkey) (model : pystr) (t : option Z) (ck : ckey) : Prop :=
  (model = empirical /\ ck = (k, k, empirical, TNone, false, true)) \/
  (model <> empirical /\ exists z, t = Some z /\ ck = (k, k, model, TInt z, false, true)).
Lemma str_eqb_spec (a b : pystr) : reflect (a = b) (str_eqb a b).
Proof.
  destruct (str_eqb a b) eqn:E; constructor.
  - apply str_eqb_eq; exact E.
  - intro H. apply str_eqb_eq in H. congruence.
Qed.
Lemma doc_key_c_key k model t ck : doc_key k model t ck <->
  (c_key k model t = ck /\ negb (str_eqb model empirical) && match t with None => true | _ => false end = false).
Proof.
  unfold doc_key, c_key. destruct (str_eqb_spec model empirical) as [->|N]; cbn [negb andb].
  - split; [intros [[_ ->]|[C _]]; [auto|congruence] | intros [<- _]; left; auto].
  - destruct t as [z|]; cbn [slot].
    + split; [intros [[C _]|[_ [z' [E ->]]]]; [congruence|injection E as <-; auto] | intros [<- _]; right; split; [exact N|exists z; auto]].
    + split; [intros [[C _]|[_ [z' [E _]]]]; congruence | intros [_ C]; discriminate].
Qed.

(** ** C273: which covariance C_model returns *)
(** a supplied matrix, else the cached one, else the computed one, else an error *)
Theorem C_model_precedence : forall w st k model t known ck,
  doc_key k model t ck ->
  let r := C_model w st k model t known in
  match known_get known ck with
  | Some m => snd r = Ok (w_cut w m)
  | None => match dget ckey_dec (kC st) ck with
            | Some m => snd r = Ok m
            | None => snd r = compute w k model t
            end
  end /\
  (forall m, snd r = Ok m -> dget ckey_dec (kC (fst r)) ck = Some m).
Proof.
  intros w st k model t known ck D. apply doc_key_c_key in D. destruct D as [<- E]. cbv zeta. unfold C_model. rewrite E.
  destruct (known_get known (c_key k model t)) as [m|].
  - rewrite set_C1_get. destruct (ckey_dec (c_key k model t) (c_key k model t)); [|congruence]. cbn [fst snd]. split; [reflexivity|].
    intros m' H; injection H as <-. rewrite set_C1_get. destruct (ckey_dec _ _); congruence.
  - destruct (dget ckey_dec (kC st) (c_key k model t)) as [m|] eqn:G.
    + cbn [fst snd]. split; [reflexivity|]. intros m' H; injection H as <-; exact G.
    + destruct (compute w k model t) as [m|e]; cbn [fst snd]; split; try reflexivity; try discriminate.
      intros m' H; injection H as <-. rewrite set_C1_get. destruct (ckey_dec _ _); congruence.
Qed.
(** and what is computed: the empirical covariance of the baseline with itself, or the model of the given time *)
Theorem C_model_computed : forall w st k model t ck, doc_key k model t ck -> dget ckey_dec (kC st) ck = None ->
  let r := snd (C_model w st k model t None) in
  (model = empirical -> r = w_cov w k k false true) /\
  (forall z, model = dsets_ -> t = Some z -> r = w_std w k z) /\
  (forall z, model = autos -> t = Some z -> r = w_auto w k z).
Proof.
  intros w st k model t ck D G. cbv zeta. pose proof (C_model_precedence w st k model t None ck D) as P. cbv zeta in P. destruct P as [P _].
  cbn [known_get] in P. rewrite G in P. rewrite P. unfold compute. repeat split.
  - intros ->. reflexivity.
  - intros z -> ->. reflexivity.
  - intros z -> ->. reflexivity.
Qed.

(** what is computed: a name that is not a model is a ValueError; other entries of the cache are left alone *)
Theorem C_model_unknown_name : forall w st k model t known z,
  model <> empirical -> model <> dsets_ -> model <> autos -> t = Some z ->
  known_get known (k, k, model, TInt z, false, true) = None ->
  dget ckey_dec (kC st) (k, k, model, TInt z, false, true) = None ->
  C_model w st k model t known = (st, Err ValueError).
Proof.
  intros w st k model t known z N1 N2 N3 -> K G. unfold C_model, c_key, compute.
  destruct (str_eqb_spec model empirical); [contradiction|]. cbn [negb andb slot]. rewrite K, G.
  destruct (str_eqb_spec model dsets_); [contradiction|]. destruct (str_eqb_spec model autos); [contradiction|]. reflexivity.
Qed.
Theorem C_model_needs_time : forall w st k model known, model <> empirical ->
  C_model w st k model None known = (st, Err AssertionError).
Proof. intros w st k model known N. unfold C_model. destruct (str_eqb_spec model empirical); [contradiction|reflexivity]. Qed.
(** an error leaves the caches as they were, and a call changes no other entry *)
Theorem C_model_frame : forall w st k model t known,
  (forall e, snd (C_model w st k model t known) = Err e -> fst (C_model w st k model t known) = st) /\
  (forall ck, ~ doc_key k model t ck ->
     dget ckey_dec (kC (fst (C_model w st k model t known))) ck = dget ckey_dec (kC st) ck /\
     dget ckey_dec (kiC (fst (C_model w st k model t known))) ck = dget ckey_dec (kiC st) ck).
Proof.
  intros w st k model t known. unfold C_model.
  destruct (negb (str_eqb model empirical) && match t with None => true | _ => false end) eqn:E; [cbn; auto|].
  assert (Q : forall (m : M) s ck, ~ doc_key k model t ck ->
     dget ckey_dec (kC (set_C s [(c_key k model t, m)])) ck = dget ckey_dec (kC s) ck /\
     dget ckey_dec (kiC (set_C s [(c_key k model t, m)])) ck = dget ckey_dec (kiC s) ck).
  { intros m s ck N. rewrite set_C1_get, set_C1_inv. destruct (ckey_dec ck (c_key k model t)) as [->|]; [|auto].
    exfalso. apply N. apply doc_key_c_key. auto. }
  destruct (known_get known (c_key k model t)) as [m|].
  - rewrite set_C1_get. destruct (ckey_dec (c_key k model t) (c_key k model t)); [|congruence]. cbn [fst snd]. split; [discriminate|]. apply Q.
  - destruct (dget ckey_dec (kC st) (c_key k model t)) as [m|] eqn:G; cbn [fst snd]; [split; [discriminate|auto]|].
    destruct (compute w k model t) as [m|e]; cbn [fst snd]; split; try discriminate; auto.
Qed.

(** ** C274: a supplied covariance stays in use after the call, also in another window, until the cache is cleared *)
Theorem known_cov_stays : forall w st k model t m w' t' known ck,
  doc_key k model t ck -> doc_key k model t' ck -> known_get known ck = Some m ->
  let st1 := fst (C_model w st k model t known) in
  C_model w' st1 k model t' None = (st1, Ok (w_cut w m)) /\
  snd (C_model w' (clear_all st1) k model t' None) = compute w' k model t'.
Proof.
  intros w st k model t m w' t' known ck D D' K. cbv zeta.
  destruct (C_model_precedence w st k model t known ck D) as [P1 P2]. rewrite K in P1. specialize (P2 _ P1).
  split.
  - apply doc_key_c_key in D'. destruct D' as [E1 E2]. unfold C_model at 1. rewrite E2. cbn [known_get]. rewrite E1, P2. reflexivity.
  - destruct (C_model_precedence w' (clear_all (fst (C_model w st k model t known))) k model t' None ck D') as [P3 _]. exact P3.
Qed.

(** ** C275: the time index is ignored by the empirical model *)
Theorem empirical_ignores_time : forall w st k t t' known,
  C_model w st k empirical t known = C_model w st k empirical t' known.
Proof. intros w st k t t' known. unfold C_model, compute, c_key. destruct (str_eqb_spec empirical empirical); [|congruence]. reflexivity. Qed.

(** ** C276-C278: cross_covar_model *)
Theorem cross_covar_spec : forall w k1 k2 model t c1 c2 known,
  let own := known_get known (k1, k2, model, slot t, c1, c2) in
  (model = empirical -> forall e, w_cov w k1 k2 c1 c2 = Err e -> cross_covar_model w k1 k2 model t c1 c2 known = Err e) /\
  ((model = empirical -> exists m, w_cov w k1 k2 c1 c2 = Ok m) ->
   cross_covar_model w k1 k2 model t c1 c2 known =
   match own with
   | Some m => Ok (w_cut w m)
   | None => if str_eqb model empirical then w_cov w k1 k2 c1 c2
             else if str_eqb model dsets_ || str_eqb model autos then Ok (w_zero w) else Err ValueError
   end).
Proof.
  intros w k1 k2 model t c1 c2 known. cbv zeta. unfold cross_covar_model.
  destruct (str_eqb_spec model empirical) as [->|N].
  - split; [intros _ e ->; reflexivity|]. intros H. destruct (H eq_refl) as [m E]. rewrite E. cbn [bind].
    assert (str_eqb empirical dsets_ || str_eqb empirical autos = false) as -> by reflexivity.
    destruct (known_get known _); reflexivity.
  - split; [contradiction|]. intros _. cbn [bind]. destruct (known_get known _); [reflexivity|].
    destruct (str_eqb model dsets_ || str_eqb model autos); reflexivity.
Qed.
(** of the noise models, the cross terms vanish unless they are supplied for exactly this pair, time and conjugation *)
Theorem cross_covar_noise_models : forall w k1 k2 model t c1 c2 known,
  model = dsets_ \/ model = autos ->
  cross_covar_model w k1 k2 model t c1 c2 known =
  Ok (match known_get known (k1, k2, model, slot t, c1, c2) with Some m => w_cut w m | None => w_zero w end).
Proof.
  intros w k1 k2 model t c1 c2 known H. destruct (cross_covar_spec w k1 k2 model t c1 c2 known) as [_ S]. rewrite S.
  - destruct H as [-> | ->]; destruct (known_get known _); reflexivity.
  - intros ->. destruct H as [H|H]; discriminate H.
Qed.
End P.
Print Assumptions clear_cache_keys.
Print Assumptions C_model_precedence.
Print Assumptions C_model_unknown_name.
Print Assumptions C_model_needs_time.
Print Assumptions C_model_frame.
Print Assumptions known_cov_stays.
Print Assumptions empirical_ignores_time.
Print Assumptions cross_covar_spec.
Print Assumptions cross_covar_noise_models.

(** a world over the integers: covariances are numbers made from the keys *)
Definition xw (n : Z) : @world Z :=
  mkworld (fun k1 k2 c1 c2 => Ok (n + Z.of_nat (fst k1) + Z.of_nat (fst k2)))
          (fun k z => if z <? 5 then Ok (n + z) else Err IndexError)
          (fun k z => Ok (n - z)) 0 (fun m => m + n) (fun m => - m) (fun k m => Ok (10 * m)).
Definition xk : bkey := (1, (2, 3, 4))%nat.
Definition xk2 : bkey := (0, (2, 3, 4))%nat.
(** one key format for covariances, C_model's, serves cross_covar_model as well: not so for the empirical model,
    whose own covariances are looked up without a time and whose cross terms are looked up with one *)
Theorem known_cross_covariance_used_refuted :
  ~ (forall (w : @world Z) k1 k2 t (d : list (ckey * Z)) m,
      dget ckey_dec d (k1, k2, empirical, TNone, false, false) = Some m ->
      cross_covar_model w k1 k2 empirical (Some t) false false (Some d) = Ok (w_cut w m)).
Proof.
  intro H. specialize (H (xw 100) xk xk2 0 [((xk, xk2, empirical, TNone, false, false), 7)] 7 eq_refl).
  vm_compute in H. discriminate.
Qed.
(** with the key of the docstrings' example, which has no time entry, a supplied covariance is never used *)
Theorem documented_key_used_refuted :
  ~ (forall (w : @world Z) st k (d : list (ckey * Z)) m,
      dget ckey_dec d (k, k, empirical, NoSlot, false, true) = Some m ->
      snd (C_model w st k empirical None (Some d)) = Ok (w_cut w m)).
Proof.
  intro H. specialize (H (xw 100) kinit xk [((xk, xk, empirical, NoSlot, false, true), 7)] 7 eq_refl).
  vm_compute in H. discriminate.
Qed.
Theorem documented_key_never_read : forall {M} (w : @world M) st k1 k2 model t c1 c2 (d : list (ckey * M)) mo,
  let d' := filter (fun kv => match fst kv with (_, _, _, NoSlot, _, _) => false | _ => true end) d in
  C_model w st k1 mo t (Some d) = C_model w st k1 mo t (Some d') /\
  cross_covar_model w k1 k2 model t c1 c2 (Some d) = cross_covar_model w k1 k2 model t c1 c2 (Some d').
Proof.
  intros M w st k1 k2 model t c1 c2 d mo. cbv zeta.
  assert (G : forall ck, (match ck with (_, _, _, NoSlot, _, _) => false | _ => true end) = true ->
    dget ckey_dec d ck = dget ckey_dec (filter (fun kv => match fst kv with (_, _, _, NoSlot, _, _) => false | _ => true end) d) ck).
  { intros ck H. induction d as [|[a b] d IH]; [reflexivity|]. cbn [filter dget fst].
    destruct (ckey_dec ck a) as [->|N].
    - rewrite H. cbn [dget]. destruct (ckey_dec a a); [reflexivity|congruence].
    - destruct (match a with (_, _, _, NoSlot, _, _) => false | _ => true end); [|exact IH].
      cbn [dget]. destruct (ckey_dec ck a); [contradiction|exact IH]. }
  split.
  - unfold C_model, known_get. rewrite G; [reflexivity|]. unfold c_key. destruct (str_eqb mo empirical), t; reflexivity.
  - unfold cross_covar_model, known_get. rewrite G; [reflexivity|]. destruct t; reflexivity.
Qed.
Print Assumptions known_cross_covariance_used_refuted.
Print Assumptions documented_key_used_refuted.
Print Assumptions documented_key_never_read.

(** ** C279-C280: the inverse covariance *)
Section Inv.
Context {M : Type} (inv : M -> M).
Implicit Types (st : @kst M).
(** one inversion function, whatever the window *)
Definition same_inv (o : @kop M) : Prop :=
  match o with KiC w _ _ _ | KR w _ => w_inv w = inv | _ => True end.
(** every stored inverse is that of the stored covariance *)
Definition tied st : Prop := forall k model z m,
  (forall ck, ck = (k, k, empirical, TNone, false, true) \/ (model <> empirical /\ ck = (k, k, model, TInt z, false, true)) ->
     dget ckey_dec (kiC st) ck = Some m -> exists c, dget ckey_dec (kC st) ck = Some c /\ m = inv c).
Definition plain (ck : ckey) : Prop := exists k model z,
  ck = (k, k, empirical, TNone, false, true) \/ (model <> empirical /\ ck = (k, k, model, TInt z, false, true)).
Lemma tied_alt st : tied st <-> forall ck m, plain ck -> dget ckey_dec (kiC st) ck = Some m -> exists c, dget ckey_dec (kC st) ck = Some c /\ m = inv c.
Proof.
  split.
  - intros H ck m [k [mo [z P]]] E. exact (H k mo z m ck P E).
  - intros H k mo z m ck P E. apply (H ck m); [exists k, mo, z; exact P|exact E].
Qed.
Lemma tied_clear_keys (ks : list ckey) st : tied st -> tied (clear_keys st ks).
Proof.
  rewrite !tied_alt. intros H ck m P. destruct (clear_keys_get ks st ck) as [A [B _]]. rewrite A, B.
  destruct (in_dec ckey_dec ck ks); [discriminate|]. apply H; exact P.
Qed.
Lemma tied_set_C c st : tied st -> tied (set_C st c).
Proof.
  rewrite !tied_alt. intros H ck m P. rewrite set_C_get. unfold set_C; cbn [kiC].
  destruct (clear_keys_get (map fst c) st ck) as [_ [B _]]. rewrite B.
  destruct (in_dec ckey_dec ck (map fst c)) as [I|I]; [discriminate|].
  assert (dget ckey_dec (rev c) ck = None) as ->. { apply dget_None. rewrite map_rev, <- in_rev. exact I. }
  apply H; exact P.
Qed.
Lemma tied_C_model w k model t known st : tied st -> tied (fst (C_model w st k model t known)).
Proof.
  intro H. unfold C_model. destruct (negb (str_eqb model empirical) && _); [exact H|].
  assert (H1 : tied (match known_get known (c_key k model t) with Some m => set_C st [(c_key k model t, w_cut w m)] | None => st end)).
  { destruct (known_get _ _); [apply tied_set_C|]; exact H. }
  destruct (dget ckey_dec (kC _) _); [exact H1|]. destruct (compute w k model t); [apply tied_set_C|]; exact H1.
Qed.
Lemma C_model_stored w k model t known st : forall m, snd (C_model w st k model t known) = Ok m ->
  dget ckey_dec (kC (fst (C_model w st k model t known))) (c_key k model t) = Some m.
Proof.
  intros m E.
  destruct (negb (str_eqb model empirical) && match t with None => true | _ => false end) eqn:B.
  { unfold C_model in E. rewrite B in E. discriminate. }
  apply (proj2 (C_model_precedence w st k model t known (c_key k model t) (proj2 (doc_key_c_key _ _ _ _) (conj eq_refl B)))). exact E.
Qed.
Lemma tied_iC w k model t st : w_inv w = inv -> tied st -> tied (fst (iC w st k model t)).
Proof.
  intros W H. unfold iC. destruct (dget ckey_dec (kiC st) _); [exact H|].
  pose proof (tied_C_model w k model t None st H) as H1. pose proof (C_model_stored w k model t None st) as S.
  destruct (C_model w st k model t None) as [s r]. cbn [fst snd] in *. destruct r as [c|e]; [|exact H1]. specialize (S c eq_refl).
  revert H1. rewrite !tied_alt. intros H1 ck m P. unfold set_iC; cbn [fst kiC kC fold_left snd]. rewrite dget_dset.
  destruct (ckey_dec ck (k, k, model, slot t, false, true)) as [->|N]; [|apply H1; exact P].
  intro E; injection E as <-. rewrite W. exists c. split; [|reflexivity]. rewrite <- S. f_equal.
  destruct P as [k' [mo [z [E|[N E]]]]]; injection E; intros; subst; unfold c_key.
  - destruct (str_eqb_spec empirical empirical); [|congruence]. destruct t; [discriminate|reflexivity].
  - destruct (str_eqb_spec mo empirical); [contradiction|reflexivity].
Qed.
Lemma tied_step o st : same_inv o -> tied st -> tied (kstep st o).
Proof.
  destruct o as [c| |ks|w k mo t kn|w k mo t|w k]; cbn [kstep same_inv]; intros W H.
  - apply tied_set_C; exact H.
  - rewrite tied_alt. intros ck m _ E. discriminate E.
  - apply tied_clear_keys; exact H.
  - apply tied_C_model; exact H.
  - apply tied_iC; assumption.
  - unfold R. destruct (dget bkey_dec (kR st) k); [exact H|].
    pose proof (tied_iC w k empirical None st W H) as H1. destruct (iC w st k empirical None) as [s r]. cbn [fst] in *.
    destruct (bind r (w_R w k)); [|exact H1]. cbn [fst]. revert H1. rewrite !tied_alt. auto.
Qed.
Lemma tied_run ops st : Forall same_inv ops -> tied st -> tied (krun st ops).
Proof.
  revert st; induction ops as [|o ops IH]; intros st F H; [exact H|]. inversion F; subst. cbn [krun fold_left].
  apply IH; [assumption|]. apply tied_step; assumption.
Qed.
(** after any history (without set_iC), iC is the inverse of what C_model returns at that moment,
    for a time index that is used: an integer for the other models, none for the empirical one *)
Theorem inverse_follows_covariance : forall (ops : list (@kop M)) (w : @world M) k model t m,
  Forall same_inv ops -> w_inv w = inv ->
  (model = empirical /\ t = None \/ model <> empirical /\ t <> None) ->
  snd (iC w (krun kinit ops) k model t) = Ok m ->
  exists c, snd (C_model w (krun kinit ops) k model t None) = Ok c /\ m = inv c.
Proof.
  intros ops w k model t m F W HT E.
  assert (T : tied (krun kinit ops)). { apply tied_run; [exact F|]. rewrite tied_alt. intros ck m' _ G. discriminate G. }
  set (st := krun kinit ops) in *. clearbody st.
  unfold iC in E. destruct (dget ckey_dec (kiC st) (k, k, model, slot t, false, true)) as [m'|] eqn:G.
  - cbn in E. injection E as ->. rewrite tied_alt in T.
    assert (P : plain (k, k, model, slot t, false, true)).
    { destruct HT as [[-> ->]|[N N']]; [exists k, empirical, 0; left; reflexivity|].
      destruct t as [z|]; [|congruence]. exists k, model, z. right. split; [exact N|reflexivity]. }
    destruct (T _ _ P G) as [c [Hc ->]]. exists c. split; [|reflexivity].
    assert (K : c_key k model t = (k, k, model, slot t, false, true)).
    { unfold c_key. destruct (str_eqb_spec model empirical) as [->|N]; [|reflexivity]. destruct HT as [[_ ->]|[N _]]; [reflexivity|congruence]. }
    unfold C_model. destruct (negb (str_eqb model empirical) && match t with None => true | _ => false end) eqn:B.
    { destruct HT as [[-> _]|[_ N']]; [destruct (str_eqb_spec empirical empirical); [discriminate|congruence]|].
      destruct t; [|congruence]. rewrite andb_false_r in B. discriminate. }
    cbn [known_get]. rewrite K, Hc. reflexivity.
  - destruct (C_model w st k model t None) as [s r]. destruct r as [c|e]; cbn in E; [|discriminate].
    injection E as <-. exists c. rewrite W. auto.
Qed.
End Inv.
Print Assumptions inverse_follows_covariance.
(** with a time index, the inverse of an empirical covariance is kept when the covariance is replaced *)
Definition xops (n : Z) : list (@kop Z) := [KiC (xw 100) xk empirical (Some n); KSetC [((xk, xk, empirical, TNone, false, true), 55)]].
Theorem inverse_empirical_time_refuted :
  ~ (forall (ops : list (@kop Z)) w k t m, Forall (same_inv Z.opp) ops -> w_inv w = Z.opp ->
      snd (iC w (krun kinit ops) k empirical t) = Ok m ->
      exists c, snd (C_model w (krun kinit ops) k empirical t None) = Ok c /\ m = - c).
Proof.
  intro H. destruct (H (xops 3) (xw 100) xk (Some 3) (-102)) as [c [E1 E2]].
  - repeat constructor.
  - reflexivity.
  - vm_compute. reflexivity.
  - vm_compute in E1. injection E1 as <-. discriminate E2.
Qed.
Print Assumptions inverse_empirical_time_refuted.

(** ** C281-C282: weighting matrices and a covariance that is set by hand *)
(** set before the weighting matrix is first asked for, it is used *)
Theorem set_C_used_by_R : forall {M} (w : @world M) st k m,
  dget bkey_dec (kR st) k = None ->
  snd (R w (set_C st [((k, k, empirical, TNone, false, true), m)]) k) = w_R w k (w_inv w m).
Proof.
  intros M w st k m N.
  cut (forall ck : ckey, ck = (k, k, empirical, TNone, false, true) -> snd (R w (set_C st [(ck, m)]) k) = w_R w k (w_inv w m)); [intro X; exact (X _ eq_refl)|].
  intros ck Eck. unfold R.
  assert (KR0 : kR (set_C st [(ck, m)]) = kR st).
  { unfold set_C; cbn [kR]. exact (proj2 (proj2 (clear_keys_get (map fst [(ck, m)]) st ck))). }
  rewrite KR0, N. unfold iC. cbn [slot]. rewrite <- Eck.
  rewrite set_C1_inv. destruct (ckey_dec ck ck); [|congruence].
  destruct (C_model_precedence w (set_C st [(ck, m)]) k empirical None None ck (or_introl (conj eq_refl Eck))) as [P1 _].
  cbn [known_get] in P1. rewrite set_C1_get in P1. destruct (ckey_dec ck ck); [|congruence].
  destruct (C_model w (set_C st [(ck, m)]) k empirical None None) as [s r]. cbn [snd] in P1. subst r. cbn [bind].
  destruct (w_R w k (w_inv w m)); reflexivity.
Qed.
(** set afterwards, it is not: the weighting matrix stays the old one; and the clear_cache that would refresh the
    weighting matrix (pspec calls it for every window, pspecdata.py:3712) forgets the covariance *)
Theorem set_C_refreshes_R_refuted :
  ~ (forall (w : @world Z) st k m r,
      snd (R w st k) = Ok r ->
      snd (R w (set_C (fst (R w st k)) [((k, k, empirical, TNone, false, true), m)]) k) = w_R w k (w_inv w m)).
Proof.
  intro H. specialize (H (xw 100) kinit xk 7 (-1020) eq_refl). vm_compute in H. discriminate.
Qed.
Theorem R_ignores_later_set_C : forall {M} (w w' : @world M) st k c r,
  snd (R w st k) = Ok r -> snd (R w' (set_C (fst (R w st k)) c) k) = Ok r.
Proof.
  intros M w w' st k c r E.
  assert (S : dget bkey_dec (kR (fst (R w st k))) k = Some r).
  { unfold R in *. destruct (dget bkey_dec (kR st) k) as [m|] eqn:G; [cbn in *; congruence|].
    destruct (iC w st k empirical None) as [s r0]. destruct (bind r0 (w_R w k)) as [m|]; cbn in *; [|discriminate].
    injection E as ->. rewrite dget_dset. destruct (bkey_dec k k); congruence. }
  unfold R at 1. assert (KR0 : kR (set_C (fst (R w st k)) c) = kR (fst (R w st k))).
  { unfold set_C; cbn [kR]. destruct c as [|[a b] c']; [reflexivity|].
    exact (proj2 (proj2 (clear_keys_get (map fst ((a, b) :: c')) (fst (R w st k)) a))). }
  rewrite KR0, S. reflexivity.
Qed.
Theorem clear_cache_forgets_set_C : forall {M} (w : @world M) st c k,
  snd (R w (clear_all (set_C st c)) k) = snd (R w kinit k).
Proof. reflexivity. Qed.
Print Assumptions set_C_used_by_R.
Print Assumptions set_C_refreshes_R_refuted.
Print Assumptions R_ignores_later_set_C.
Print Assumptions clear_cache_forgets_set_C.

(** ** C283: include_extension has no effect; weights *)
Theorem include_extension_no_effect : forall spw ext b, 0 <= fst ext -> 0 <= snd ext ->
  get_spw spw ext b = (fst spw - fst ext, snd spw + snd ext).
Proof.
  intros [a b] [e f] c. cbn [fst snd]. intros H1 H2. unfold get_spw. cbn [fst snd].
  destruct (Z.ltb_spec 0 (e + f)); [reflexivity|]. assert (e = 0) as -> by lia. assert (f = 0) as -> by lia.
  destruct c; f_equal; lia.
Qed.
Theorem weights_default_to_flags : forall {A} (one zero : A) (flags : nat -> nat -> bool) (v : nat -> nat -> A) f t,
  w_of one zero None flags f t = (if flags f t then zero else one) /\ w_of one zero (Some v) flags f t = v f t.
Proof. intros A one zero flags v f t. unfold w_of. split; [destruct (flags f t); reflexivity|reflexivity]. Qed.
Print Assumptions include_extension_no_effect.
Print Assumptions weights_default_to_flags.

(** concrete cases *)
Example ex_known : snd (C_model (xw 100) kinit xk (s_ "mine") (Some 2) (Some [((xk, xk, s_ "mine", TInt 2, false, true), 7)])) = Ok 107 /\
  C_model (xw 100) kinit xk (s_ "mine") (Some 3) (Some [((xk, xk, s_ "mine", TInt 2, false, true), 7)]) = (kinit, Err ValueError) /\
  snd (C_model (xw 100) kinit xk dsets_ (Some 3) None) = Ok 103 /\
  C_model (xw 100) kinit xk dsets_ (Some 7) None = (kinit, Err IndexError).
Proof. vm_compute. auto. Qed.
Example ex_doc_key : doc_key xk (s_ "mine") (Some 2) (xk, xk, s_ "mine", TInt 2, false, true) /\
  doc_key xk empirical (Some 2) (xk, xk, empirical, TNone, false, true).
Proof. split; [right; split; [discriminate|exists 2; auto] | left; auto]. Qed.
Example ex_cross : cross_covar_model (xw 100) xk xk2 dsets_ (Some 1) false false None = Ok 0 /\
  cross_covar_model (xw 100) xk xk2 dsets_ (Some 1) false false (Some [((xk, xk2, dsets_, TInt 1, false, false), 7)]) = Ok 107 /\
  cross_covar_model (xw 100) xk xk2 empirical None false true None = Ok 101.
Proof. vm_compute. auto. Qed.
Example ex_inverse : Forall (same_inv Z.opp) [KiC (xw 100) xk dsets_ (Some 1); KSetC [((xk, xk, dsets_, TInt 1, false, true), 55)]] /\
  snd (iC (xw 100) (krun kinit [KiC (xw 100) xk dsets_ (Some 1); KSetC [((xk, xk, dsets_, TInt 1, false, true), 55)]]) xk dsets_ (Some 1)) = Ok (-55).
Proof. split; [repeat constructor|vm_compute; reflexivity]. Qed.
Example ex_setC_R : snd (R (xw 100) (set_C kinit [((xk, xk, empirical, TNone, false, true), 7)]) xk) = Ok (-70) /\
  snd (R (xw 100) kinit xk) = Ok (-1020).
Proof. vm_compute. auto. Qed.
