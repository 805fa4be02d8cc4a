(** Properties C325, C326: set_R and set_r_param over histories of calls. *)
From Coq Require Import Reals String.
From Verif Require Import Prelude PyDict PyStr SphModel PdModel PdProofs RsetModel.
Open Scope Z_scope.

Lemma set_R_get {P} (st : pds P) d rk m : NoDup (map fst d) -> In (rk, m) d -> dget rkey_dec (cR (set_R st d)) rk = Some m.
Proof.
  cbn. generalize (cR st). induction d as [|[k v] d IH]; intros c N I; [destruct I|]. cbn in N |- *. inversion N as [|? ? N1 N2]; subst. destruct I as [E|I]; [|apply IH; assumption].
  injection E as -> ->. clear IH N. assert (H : dget rkey_dec (dset rkey_dec c rk m) rk = Some m) by (rewrite dget_dset; destruct (rkey_dec rk rk); congruence).
  revert H. generalize (dset rkey_dec c rk m). clear -N1. induction d as [|[k v] d IH]; intros c H; [exact H|]. cbn in N1 |- *. apply IH; [tauto|]. rewrite dget_dset. destruct (rkey_dec rk k); [subst; tauto|exact H].
Qed.
Lemma set_R_other {P} (st : pds P) d rk : ~ In rk (map fst d) -> dget rkey_dec (cR (set_R st d)) rk = dget rkey_dec (cR st) rk.
Proof.
  cbn. generalize (cR st). induction d as [|[k v] d IH]; intros c N; [reflexivity|]. cbn in N |- *. rewrite IH by tauto. rewrite dget_dset. destruct (rkey_dec rk k); [subst; tauto|reflexivity].
Qed.
Section H.
Context {P : Type} (wmax : key -> nat -> R) (covdata : key -> list nat -> mat) (minv : mat -> mat)
        (gen_window : pystr -> nat -> nat -> R) (dayenu_inv : P -> list nat -> mat) (pinv : mat -> mat).
Notation step := (step wmax covdata minv gen_window dayenu_inv pinv).
Notation run := (run wmax covdata minv gen_window dayenu_inv pinv).
Notation callR := (callR wmax covdata minv gen_window dayenu_inv pinv).
Notation callY := (callY wmax).

(** what a call changes *)
Lemma callY_keeps (st : pds P) k : let s := fst (callY st k) in
  (weight s, taper s, ext s, nfreqs s, sym s) = (weight st, taper st, ext st, nfreqs st, sym st) /\ rpar s = rpar st /\ cR s = cR st.
Proof. unfold PdModel.callY. destruct (dget key_dec (cY st) k); cbn; auto. Qed.
Lemma callI_keeps (st : pds P) k : let s := fst (callI st k) in
  (weight s, taper s, ext s, nfreqs s, sym s) = (weight st, taper st, ext st, nfreqs st, sym st) /\ rpar s = rpar st /\ cR s = cR st.
Proof. unfold callI. destruct (dget key_dec (cI st) k); [cbn; auto|]. destruct (ident _); cbn; auto. Qed.
Lemma callC_keeps (st : pds P) k : let s := fst (callC covdata st k) in
  (weight s, taper s, ext s, nfreqs s, sym s) = (weight st, taper st, ext st, nfreqs st, sym st) /\ rpar s = rpar st /\ cR s = cR st.
Proof. unfold callC. destruct (dget key_dec (cC st) k); cbn; auto. Qed.
Lemma calliC_keeps (st : pds P) k : let s := fst (calliC covdata minv st k) in
  (weight s, taper s, ext s, nfreqs s, sym s) = (weight st, taper st, ext st, nfreqs st, sym st) /\ rpar s = rpar st /\ cR s = cR st.
Proof.
  unfold calliC. destruct (dget key_dec (ciC st) k); [cbn; auto|]. pose proof (callC_keeps st k) as K. destruct (callC covdata st k) as [s c]. cbn in K |- *. exact K.
Qed.
Lemma rkey_same (s st : pds P) k : (weight s, taper s, ext s, nfreqs s, sym s) = (weight st, taper st, ext st, nfreqs st, sym st) -> rkey_of s k = rkey_of st k.
Proof. intros H. injection H as E1 E2 E3 E4 E5. unfold rkey_of. rewrite E1, E2, E3, E4, E5. reflexivity. Qed.
Lemma callR_keeps (st : pds P) k : let s := fst (callR st k) in
  (weight s, taper s, ext s, nfreqs s, sym s) = (weight st, taper st, ext st, nfreqs st, sym st) /\ rpar s = rpar st /\
  (cR s = cR st \/ dget rkey_dec (cR st) (rkey_of st k) = None /\ exists m, cR s = dset rkey_dec (cR st) (rkey_of st k) m).
Proof.
  unfold PdModel.callR. destruct (dget rkey_dec (cR st) (rkey_of st k)) as [m|] eqn:D; [cbn; auto|]. destruct (Z.ltb (nfreqs st) 0); [cbn; auto|].
  pose proof (callY_keeps st k) as KY. destruct (PdModel.callY wmax st k) as [s1 [y|e]]; cbn [fst] in KY; [|cbn; destruct KY as (A & B & C); rewrite C; auto].
  assert (G : forall s r, (weight s, taper s, ext s, nfreqs s, sym s) = (weight st, taper st, ext st, nfreqs st, sym st) /\ rpar s = rpar st /\ cR s = cR st ->
    let s' := fst (storeR s k r) in (weight s', taper s', ext s', nfreqs s', sym s') = (weight st, taper st, ext st, nfreqs st, sym st) /\ rpar s' = rpar st /\
    (cR s' = cR st \/ @None mat = None /\ exists m, cR s' = dset rkey_dec (cR st) (rkey_of st k) m)).
  { intros s r (A & B & C). unfold storeR. destruct r as [m|e]; cbn; [|auto]. split; [exact A|]. split; [exact B|]. right. split; [reflexivity|]. exists m. rewrite C, (rkey_same s st k A). reflexivity. }
  destruct (weight st) eqn:W.
  - pose proof (callI_keeps s1 k) as KI. destruct (callI s1 k) as [s2 [m|e]]; cbn [fst] in KI.
    + apply G. destruct KY as (A & B & C), KI as (A' & B' & C'). rewrite A', B', C'. auto.
    + cbn. destruct KY as (A & B & C), KI as (A' & B' & C'). rewrite A', B', C'. auto.
  - pose proof (calliC_keeps s1 k) as KI. destruct (calliC covdata minv s1 k) as [s2 m]; cbn [fst] in KI.
    apply G. destruct KY as (A & B & C), KI as (A' & B' & C'). rewrite A', B', C'. auto.
  - destruct (dget wkey_dec (rpar s1) (Dayenu, k)) as [p|]; [apply G; exact KY|]. cbn. destruct KY as (A & B & C). rewrite A, B, C. auto.
Qed.

Lemma step_cR (st : pds P) o : o <> @ClearCache P -> forall rk m, dget rkey_dec (cR st) rk = Some m -> dget rkey_dec (cR (fst (step st o))) rk = Some m.
Proof.
  intros N rk m H. destruct o as [s nd|nd|e|b|t|w|k p| | |k|k|k|k|k]; cbn [PdModel.step fst]; try exact H; try contradiction.
  - unfold set_spw, set_ndlys. destruct nd as [d|]; [destruct (Z.ltb _ d)|]; exact H.
  - unfold set_ndlys. destruct nd as [d|]; [destruct (Z.ltb _ d)|]; exact H.
  - unfold set_ext. destruct (sym st && _ && _)%bool, (Z.geb (fst e) 0 && Z.geb (snd e) 0)%bool; exact H.
  - unfold set_sym. destruct (_ && _)%bool; exact H.
  - pose proof (callR_keeps st k) as (_ & _ & K). destruct (callR st k) as [s r]. cbn [fst] in *. destruct K as [-> | (D & m' & ->)]; [exact H|].
    rewrite dget_dset. destruct (rkey_dec rk (rkey_of st k)) as [->|_]; [congruence|exact H].
  - pose proof (callY_keeps st k) as (_ & _ & K). destruct (callY st k). cbn [fst] in *. rewrite K. exact H.
  - pose proof (callI_keeps st k) as (_ & _ & K). destruct (callI st k). cbn [fst] in *. rewrite K. exact H.
  - pose proof (callC_keeps st k) as (_ & _ & K). destruct (callC covdata st k). cbn [fst] in *. rewrite K. exact H.
  - pose proof (calliC_keeps st k) as (_ & _ & K). destruct (calliC covdata minv st k). cbn [fst] in *. rewrite K. exact H.
Qed.
End H.

(** * C325: a matrix given to set_R is what R returns, from then on, whenever the settings are those of its key, until clear_cache *)
Theorem set_R_persists : forall (P : Type) wmax covdata minv gen_window dayenu_inv pinv (st : pds P) d ops k rk m,
  NoDup (map fst d) -> In (rk, m) d -> ~ In (@ClearCache P) ops ->
  let s := run wmax covdata minv gen_window dayenu_inv pinv (set_R st d) ops in
  rk = (k, weight s, taper s, match weight s with Dayenu => Some (fst (ext s), snd (ext s), nfreqs s, sym s) | _ => None end) ->
  callR wmax covdata minv gen_window dayenu_inv pinv s k = (s, Ok m).
Proof.
  intros P w cv iv g dy pv st d ops k rk m ND I NC s E.
  assert (G : dget rkey_dec (cR s) rk = Some m).
  { unfold s. pose proof (set_R_get st d rk m ND I) as H. revert H NC. generalize (set_R st d). clear. induction ops as [|o ops IH]; intros x H NC; [exact H|]. cbn.
    apply IH; [apply step_cR; [intros ->; apply NC; left; reflexivity|exact H]|intros C; apply NC; right; exact C]. }
  unfold callR. fold (rkey_of s k) in E. rewrite <- E, G. reflexivity.
Qed.
(** set_R changes nothing else: the settings, and what R returns under the keys that are not given *)
Theorem set_R_only : forall (P : Type) wmax covdata minv gen_window dayenu_inv pinv (st : pds P) d k,
  let s := set_R st d in
  (NF s, spw s, nfreqs s, ndlys s, ext s, sym s, taper s, weight s, rpar s) = (NF st, spw st, nfreqs st, ndlys st, ext st, sym st, taper st, weight st, rpar st) /\
  (~ In (k, weight st, taper st, match weight st with Dayenu => Some (fst (ext st), snd (ext st), nfreqs st, sym st) | _ => None end) (map fst d) ->
   snd (callR wmax covdata minv gen_window dayenu_inv pinv s k) = snd (callR wmax covdata minv gen_window dayenu_inv pinv st k)).
Proof.
  intros P w cv iv g dy pv st d k s. split; [reflexivity|]. intros N. fold (rkey_of st k) in N. pose proof (set_R_other st d _ N) as E. unfold callR. change (rkey_of s k) with (rkey_of st k). fold s in E. rewrite E.
  destruct (dget rkey_dec (cR st) (rkey_of st k)); [reflexivity|]. change (nfreqs s) with (nfreqs st). destruct (nfreqs st <? 0); [reflexivity|].
  unfold callY. change (cY s) with (cY st). change (chans s) with (chans st). change (weight s) with (weight st).
  assert (SR : forall (x : pds P) r, snd (storeR x k r) = r) by (intros x [m|e]; reflexivity).
  unfold callI, calliC, callC. destruct (dget key_dec (cY st) k) as [y|].
  - change (cI s) with (cI st). change (ciC s) with (ciC st). change (cC s) with (cC st). change (rpar s) with (rpar st). destruct (weight st).
    + destruct (dget key_dec (cI st) k) as [m|]; [|change (ident (nfreqs s + fst (ext s) + snd (ext s))) with (ident (nfreqs st + fst (ext st) + snd (ext st))); destruct (ident _) as [m|]; [|reflexivity]]; rewrite !SR; reflexivity.
    + destruct (dget key_dec (ciC st) k) as [m|]; [|destruct (dget key_dec (cC st) k) as [m|]]; rewrite !SR; reflexivity.
    + destruct (dget wkey_dec (rpar st) (Dayenu, k)) as [p|]; [|reflexivity]. rewrite !SR; reflexivity.
  - destruct (forallb binary (map (w k) (chans st))); [|reflexivity]. set (y := map (w k) (chans st)). cbn [cI ciC cC rpar up_cache].
    change (cI s) with (cI st). change (ciC s) with (ciC st). change (cC s) with (cC st). change (rpar s) with (rpar st). destruct (weight st).
    + destruct (dget key_dec (cI st) k) as [m|]; [|match goal with |- snd match (match ident ?n with _ => _ end) with _ => _ end = _ => destruct (ident n) as [m|] eqn:EI end]; [| |].
      * rewrite !SR; reflexivity.
      * cbn [nfreqs ext up_cache] in EI |- *. change (nfreqs s) with (nfreqs st) in EI. change (ext s) with (ext st) in EI. rewrite EI. rewrite !SR; reflexivity.
      * cbn [nfreqs ext up_cache] in EI |- *. change (nfreqs s) with (nfreqs st) in EI. change (ext s) with (ext st) in EI. rewrite EI. reflexivity.
    + destruct (dget key_dec (ciC st) k) as [m|]; [|destruct (dget key_dec (cC st) k) as [m|]]; rewrite !SR; reflexivity.
    + destruct (dget wkey_dec (rpar st) (Dayenu, k)) as [p|]; [|reflexivity]. rewrite !SR; reflexivity.
Qed.
Print Assumptions set_R_persists.
Print Assumptions set_R_only.

(** * C326: set_r_param belongs to the weighting selected when it is called *)
(** the parameters last given for [k] while weighting [w] was selected *)
Fixpoint last_params {P} (w now : weighting) (k : key) (ops : list (op P)) (before : option P) : option P :=
  match ops with
  | [] => before
  | SetWeighting w' :: ops' => last_params w w' k ops' before
  | SetRParam k' p :: ops' => last_params w now k ops' (if wkey_dec (now, k') (w, k) then Some p else before)
  | _ :: ops' => last_params w now k ops' before
  end.
Theorem r_params_last : forall (P : Type) wmax covdata minv gen_window dayenu_inv pinv ops (st : pds P) w k,
  dget wkey_dec (rpar (run wmax covdata minv gen_window dayenu_inv pinv st ops)) (w, k) = last_params w (weight st) k ops (dget wkey_dec (rpar st) (w, k)).
Proof.
  intros P wm cv iv g dy pv. induction ops as [|o ops IH]; intros st w k; [reflexivity|].
  change (run wm cv iv g dy pv st (o :: ops)) with (run wm cv iv g dy pv (fst (step wm cv iv g dy pv st o)) ops). rewrite IH. clear IH.
  destruct o as [s nd|nd|e|b|t|w'|k' p| | |k'|k'|k'|k'|k']; cbn [step fst last_params]; try reflexivity.
  - unfold set_spw, set_ndlys. destruct nd as [d|]; [destruct (Z.ltb _ d)|]; reflexivity.
  - unfold set_ndlys. destruct nd as [d|]; [destruct (Z.ltb _ d)|]; reflexivity.
  - unfold set_ext. destruct (sym st && _ && _)%bool, (Z.geb (fst e) 0 && Z.geb (snd e) 0)%bool; reflexivity.
  - unfold set_sym. destruct (_ && _)%bool; reflexivity.
  - cbn [up_rpar rpar weight]. rewrite dget_dset. destruct (wkey_dec (w, k) (weight st, k')) as [E|E], (wkey_dec (weight st, k') (w, k)) as [E'|E']; try reflexivity; exfalso; [apply E'; symmetry; exact E|apply E; symmetry; exact E'].
  - pose proof (callR_keeps wm cv iv g dy pv st k') as (A & K & _). destruct (callR _ _ _ _ _ _ st k'). cbn [fst] in *. injection A as -> _. rewrite K. reflexivity.
  - pose proof (callY_keeps wm st k') as (A & K & _). destruct (callY wm st k'). cbn [fst] in *. injection A as -> _. rewrite K. reflexivity.
  - pose proof (callI_keeps st k') as (A & K & _). destruct (callI st k'). cbn [fst] in *. injection A as -> _. rewrite K. reflexivity.
  - pose proof (callC_keeps cv st k') as (A & K & _). destruct (callC cv st k'). cbn [fst] in *. injection A as -> _. rewrite K. reflexivity.
  - pose proof (calliC_keeps cv iv st k') as (A & K & _). destruct (calliC cv iv st k'). cbn [fst] in *. injection A as -> _. rewrite K. reflexivity.
Qed.
(** dayenu weighting: R fails for a baseline without parameters given under dayenu weighting, whatever was given under another weighting *)
Theorem r_params_needed : forall (P : Type) wmax covdata minv gen_window dayenu_inv pinv n (ops : list (op P)) k,
  let s := run wmax covdata minv gen_window dayenu_inv pinv (init n) ops in
  weight s = Dayenu -> last_params Dayenu Identity k ops None = None ->
  dget rkey_dec (cR s) (k, Dayenu, taper s, Some (fst (ext s), snd (ext s), nfreqs s, sym s)) = None ->
  exists e, snd (callR wmax covdata minv gen_window dayenu_inv pinv s k) = Err e.
Proof.
  intros P wm cv iv g dy pv n ops k s W L D. unfold callR.
  assert (E : rkey_of s k = (k, Dayenu, taper s, Some (fst (ext s), snd (ext s), nfreqs s, sym s))) by (unfold rkey_of; rewrite W; reflexivity). rewrite E, D.
  destruct (Z.ltb (nfreqs s) 0); [eexists; reflexivity|]. pose proof (callY_keeps wm s k) as (_ & R & _). destruct (callY wm s k) as [s1 [y|e]]; [|eexists; reflexivity]. cbn [fst] in R. rewrite W, R.
  pose proof (r_params_last P wm cv iv g dy pv ops (init n) Dayenu k) as RL. fold s in RL. change (weight (init n : pds P)) with Identity in RL. change (dget wkey_dec (rpar (init n : pds P)) (Dayenu, k)) with (@None P) in RL. rewrite RL, L. eexists; reflexivity.
Qed.
Print Assumptions r_params_last.
Print Assumptions r_params_needed.

(** cases: a matrix set for identity weighting survives a change of weighting and back; parameters given before set_weighting are not found *)
Definition k0 : key := (0, 1, 2, 0)%nat.
Definition m0 : mat := mkmat 2 2 (fun i j => if Nat.eqb i j then 3%R else 0%R).
Example set_R_case : forall wmax covdata minv gen_window dayenu_inv pinv,
  let s := run wmax covdata minv gen_window dayenu_inv pinv (set_R (init 2 : pds unit) [((k0, Identity, s_ "none", None), m0)]) [SetWeighting InvCov; CalliC k0; SetWeighting Identity] in
  callR wmax covdata minv gen_window dayenu_inv pinv s k0 = (s, Ok m0).
Proof.
  intros. apply set_R_persists with (rk := (k0, Identity, s_ "none", None)).
  - constructor; [intros []|constructor].
  - left. reflexivity.
  - intros [H|[H|[H|[]]]]; discriminate.
  - unfold s. cbn. reflexivity.
Qed.
Example r_params_order : forall p q : nat,
  last_params Dayenu Identity k0 [SetRParam k0 p; SetWeighting Dayenu; CallR k0] None = None /\
  last_params Dayenu Identity k0 [SetWeighting Dayenu; SetRParam k0 p; SetWeighting Identity; SetRParam k0 q; SetWeighting Dayenu; CallR k0] None = Some p.
Proof. intros. split; reflexivity. Qed.
