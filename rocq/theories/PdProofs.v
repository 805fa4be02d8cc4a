(** Proofs about the settings and caches of [PSpecData]. *)
From Coq Require Import Reals String Lra.
From Verif Require Import Prelude PyStr PyDict DelayBinModel DelayBinProofs SphModel SphProofs ListLemmas PdModel.
Open Scope Z_scope.

Section World.
Context {P : Type}.
Context (wmax : key -> nat -> R) (covdata : key -> list nat -> mat) (minv : mat -> mat)
        (gen_window : pystr -> nat -> nat -> R) (dayenu_inv : P -> list nat -> mat) (pinv : mat -> mat).
Notation st_t := (pds P).
Notation callY := (@callY P wmax).
Notation callC := (@callC P covdata).
Notation calliC := (@calliC P covdata minv).
Notation callR := (@callR P wmax covdata minv gen_window dayenu_inv pinv).
Notation step := (@step P wmax covdata minv gen_window dayenu_inv pinv).
Notation run := (@run P wmax covdata minv gen_window dayenu_inv pinv).
Notation assemble := (@assemble P gen_window).

(** the matrix computed from scratch, for weighting [w] and taper [t] and the other current settings *)
Definition fresh (st : st_t) (w : weighting) (t : pystr) (k : key) : result mat :=
  let s := up_weight (up_taper st t) w in
  if Z.ltb (nfreqs st) 0 then Err ValueError else
  let y := map (wmax k) (chans st) in
  match w with
  | Identity => match ident (nfreqs st + fst (ext st) + snd (ext st)) with
                | Err e => Err e
                | Ok m => require (shape_is m (length y)) ValueError (assemble s y (sandwich (sqY y) m)) end
  | InvCov => let m := minv (covdata k (chans st)) in require (shape_is m (length y)) ValueError (assemble s y (sandwich (sqY y) m))
  | Dayenu => match dget wkey_dec (rpar st) (Dayenu, k) with
              | None => Err ValueError
              | Some p => let m := dayenu_inv p (dayenu_chans st) in require (shape_is m (length y)) ValueError (assemble s y (pinv (sandwich (sqY y) m))) end
  end.

(** same settings up to caches, taper, weighting and number of delays *)
Definition same (s s' : st_t) : Prop := NF s = NF s' /\ spw s = spw s' /\ nfreqs s = nfreqs s' /\ ext s = ext s' /\ sym s = sym s' /\ rpar s = rpar s'.
Definition coherent (s : st_t) : Prop :=
  (forall k y, dget key_dec (cY s) k = Some y -> y = map (wmax k) (chans s)) /\
  (forall k m, dget key_dec (cI s) k = Some m -> ident (nfreqs s + fst (ext s) + snd (ext s)) = Ok m) /\
  (forall k m, dget key_dec (cC s) k = Some m -> m = covdata k (chans s)) /\
  (forall k m, In (k, m) (ciC s) -> m = minv (covdata k (chans s))) /\
  (forall k w t o m, dget rkey_dec (cR s) (k, w, t, o) = Some m -> fresh s w t k = Ok m).

Lemma same_refl s : same s s. Proof. repeat split. Qed.
Lemma same_trans a b c : same a b -> same b c -> same a c.
Proof. unfold same. intuition congruence. Qed.
Lemma same_chans s s' : same s s' -> chans s = chans s' /\ dayenu_chans s = dayenu_chans s'.
Proof. intros (A & B & C & D & E & F). unfold chans, dayenu_chans, get_spw. rewrite A, B, D. split; reflexivity. Qed.
Lemma same_fresh s s' w t k : same s s' -> fresh s w t k = fresh s' w t k.
Proof.
  intro H. destruct (same_chans s s' H) as [C1 C2]. destruct H as (A & B & C & D & E & F). unfold fresh. rewrite C1, C2, C, D, F.
  unfold PdModel.assemble, sqrtT. cbn [up_weight up_taper sym nfreqs ext taper]. rewrite C, D, E. reflexivity.
Qed.

Context (Bin : forall k c, binary (wmax k c) = true).
Lemma all_binary k l : forallb binary (map (wmax k) l) = true.
Proof. apply forallb_forall. intros x Hx. apply in_map_iff in Hx as (c & <- & _). apply Bin. Qed.

(** transport of coherence *)
Lemma coherent_caches s s' : coherent s -> same s s' -> cY s' = cY s -> cI s' = cI s -> cC s' = cC s -> ciC s' = ciC s -> cR s' = cR s -> coherent s'.
Proof.
  intros (H1 & H2 & H3 & H4 & H5) E Y I C iC R. destruct (same_chans s s' E) as [C1 _]. pose proof E as (_ & _ & N & X & _ & _).
  unfold coherent. rewrite Y, I, C, iC, R, <- C1, <- N, <- X. repeat split; [exact H1 | exact H2 | exact H3 | exact H4 |].
  intros k w t o m H. rewrite <- (same_fresh s s' w t k E). apply (H5 k w t o m H).
Qed.

Lemma callY_ok s k : coherent s -> snd (callY s k) = Ok (map (wmax k) (chans s)) /\ coherent (fst (callY s k)) /\ same s (fst (callY s k)) /\
  weight (fst (callY s k)) = weight s /\ taper (fst (callY s k)) = taper s.
Proof.
  intro H. unfold PdModel.callY. destruct (dget key_dec (cY s) k) as [y|] eqn:E.
  - cbn. split; [f_equal; apply (proj1 H k y E)|]. auto using same_refl.
  - rewrite all_binary. cbn [fst snd]. split; [reflexivity|]. split; [|repeat split].
    destruct H as (H1 & H2 & H3 & H4 & H5). split; [|split; [|split; [|split]]]; cbn [up_cache cY cI cC ciC cR].
    + intros k' y. rewrite dget_dset. destruct (key_dec k' k) as [->|Ne]; [intro Q; injection Q as <-; reflexivity | apply H1].
    + exact H2. + exact H3. + exact H4. + exact H5.
Qed.
Lemma callI_ok s k : coherent s -> snd (callI s k) = ident (nfreqs s + fst (ext s) + snd (ext s)) /\ coherent (fst (callI s k)) /\ same s (fst (callI s k)) /\
  weight (fst (callI s k)) = weight s /\ taper (fst (callI s k)) = taper s.
Proof.
  intro H. unfold callI. destruct (dget key_dec (cI s) k) as [y|] eqn:E.
  - cbn [fst snd]. split; [symmetry; apply (proj1 (proj2 H) k y E)|]. auto using same_refl.
  - destruct (ident _) as [m|e] eqn:F; cbn [fst snd]; [|split; [reflexivity|]; auto using same_refl].
    split; [reflexivity|]. split; [|repeat split].
    destruct H as (H1 & H2 & H3 & H4 & H5). split; [|split; [|split; [|split]]]; cbn [up_cache cY cI cC ciC cR].
    + exact H1.
    + intros k' y. rewrite dget_dset. destruct (key_dec k' k) as [->|Ne]; [intro Q; injection Q as <-; exact F | apply H2].
    + exact H3. + exact H4. + exact H5.
Qed.
Lemma in_ddel {V} (d : list (key * V)) k x : In x (ddel key_dec d k) -> In x d.
Proof. induction d as [|[k0 v0] d IH]; cbn; [tauto|]. destruct (key_dec k k0); cbn; tauto. Qed.
Lemma in_dset {V} (d : list (key * V)) k v k' v' : In (k', v') (dset key_dec d k v) -> (k' = k /\ v' = v) \/ In (k', v') d.
Proof.
  induction d as [|[k0 v0] d IH]; cbn; [intros [H|[]]; injection H as <- <-; auto|]. destruct (key_dec k k0) as [->|Ne]; cbn.
  - intros [H|H]; [injection H as <- <-; auto | auto].
  - intros [H|H]; [auto | destruct (IH H); auto].
Qed.
Lemma callC_ok s k : coherent s -> snd (callC s k) = covdata k (chans s) /\ coherent (fst (callC s k)) /\ same s (fst (callC s k)) /\
  weight (fst (callC s k)) = weight s /\ taper (fst (callC s k)) = taper s.
Proof.
  intro H. unfold PdModel.callC. destruct (dget key_dec (cC s) k) as [y|] eqn:E.
  - cbn [fst snd]. split; [apply (proj1 (proj2 (proj2 H)) k y E)|]. auto using same_refl.
  - cbn [fst snd]. split; [reflexivity|]. split; [|repeat split].
    destruct H as (H1 & H2 & H3 & H4 & H5). split; [|split; [|split; [|split]]]; cbn [up_cache cY cI cC ciC cR].
    + exact H1. + exact H2.
    + intros k' y. rewrite dget_dset. destruct (key_dec k' k) as [->|Ne]; [intro Q; injection Q as <-; reflexivity | apply H3].
    + intros k' y I. apply H4. eapply in_ddel, I.
    + exact H5.
Qed.
Lemma calliC_ok s k : coherent s -> snd (calliC s k) = minv (covdata k (chans s)) /\ coherent (fst (calliC s k)) /\ same s (fst (calliC s k)) /\
  weight (fst (calliC s k)) = weight s /\ taper (fst (calliC s k)) = taper s.
Proof.
  intro H. unfold PdModel.calliC. destruct (dget key_dec (ciC s) k) as [y|] eqn:E.
  - cbn [fst snd]. apply dget_In in E. split; [apply (proj1 (proj2 (proj2 (proj2 H))) k y E)|]. auto using same_refl.
  - pose proof (callC_ok s k H) as (V & H' & S & W & T). destruct (callC s k) as [s1 c]. cbn [fst snd] in *. subst c.
    split; [reflexivity|]. split; [|split; [|split; assumption]].
    + destruct (same_chans s s1 S) as [C1 _]. destruct H' as (H1 & H2 & H3 & H4 & H5). split; [|split; [|split; [|split]]]; cbn [up_cache cY cI cC ciC cR].
      * exact H1. * exact H2. * exact H3.
      * intros k' y I. apply in_dset in I as [[-> ->]|I]; [unfold chans, get_spw in *; cbn [up_cache ext spw NF]; rewrite C1; reflexivity | apply H4, I].
      * exact H5.
    + exact S.
Qed.
Lemma storeR_ok s k r : coherent s -> r = fresh s (weight s) (taper s) k ->
  snd (storeR s k r) = r /\ coherent (fst (storeR s k r)) /\ same s (fst (storeR s k r)) /\ weight (fst (storeR s k r)) = weight s /\ taper (fst (storeR s k r)) = taper s.
Proof.
  intros H E. destruct r as [m|e]; cbn [storeR fst snd]; [|split; [reflexivity|]; auto using same_refl].
  split; [reflexivity|]. split; [|repeat split].
  destruct H as (H1 & H2 & H3 & H4 & H5). split; [exact H1|]. split; [exact H2|]. split; [exact H3|]. split; [exact H4|].
  intros k' w t o m'. cbn [up_cache cR]. rewrite dget_dset. destruct (rkey_dec (k', w, t, o) (rkey_of s k)) as [Q|Ne].
  - intro I. injection I as <-. unfold rkey_of in Q. injection Q as -> -> -> _. symmetry. exact E.
  - intro I. exact (H5 k' w t o m' I).
Qed.
Lemma callR_ok s k : coherent s -> snd (callR s k) = fresh s (weight s) (taper s) k /\ coherent (fst (callR s k)) /\ same s (fst (callR s k)) /\
  weight (fst (callR s k)) = weight s /\ taper (fst (callR s k)) = taper s.
Proof.
  intro H. unfold PdModel.callR. destruct (dget rkey_dec (cR s) (rkey_of s k)) as [m|] eqn:E.
  { cbn [fst snd]. split; [symmetry; destruct H as (_ & _ & _ & _ & H5); apply (H5 k _ _ _ m E)|]. auto using same_refl. }
  destruct (Z.ltb (nfreqs s) 0) eqn:N.
  { cbn [fst snd]. split; [unfold fresh; rewrite N; reflexivity|]. auto using same_refl. }
  pose proof (callY_ok s k H) as (Vy & H1 & S1 & W1 & T1). destruct (callY s k) as [s1 ry]. cbn [fst snd] in *. subst ry.
  assert (Fr : fresh s (weight s) (taper s) k = fresh s1 (weight s1) (taper s1) k) by (rewrite W1, T1; apply same_fresh, S1).
  destruct (same_chans s s1 S1) as [C1 C2]. pose proof S1 as (_ & _ & N1 & X1 & Y1 & P1).
  assert (G : forall s2 r, coherent s2 -> same s1 s2 -> weight s2 = weight s1 -> taper s2 = taper s1 -> r = fresh s2 (weight s2) (taper s2) k ->
     snd (storeR s2 k r) = fresh s (weight s) (taper s) k /\ coherent (fst (storeR s2 k r)) /\ same s (fst (storeR s2 k r)) /\ weight (fst (storeR s2 k r)) = weight s /\ taper (fst (storeR s2 k r)) = taper s).
  { intros s2 r H2 S2 W2 T2 E2. destruct (storeR_ok s2 k r H2 E2) as (A & B & C & D & F). split; [rewrite A, E2, Fr, W2, T2; symmetry; apply same_fresh, S2|].
    split; [exact B|]. split; [exact (same_trans _ _ _ S1 (same_trans _ _ _ S2 C))|]. split; congruence. }
  destruct (weight s) eqn:Wt.
  - pose proof (callI_ok s1 k H1) as (Vi & H2 & S2 & W2 & T2). destruct (callI s1 k) as [s2 ri]. cbn [fst snd] in *. subst ri.
    destruct (ident (nfreqs s1 + fst (ext s1) + snd (ext s1))) as [m|e] eqn:Id.
    + apply G; try assumption. destruct (same_chans s1 s2 S2) as [D1 D2]. pose proof S2 as (_ & _ & N2 & X2 & Y2 & P2).
      rewrite W2, W1, T2. unfold fresh. rewrite <- N2, <- N1, N, <- D1, <- C1, <- X2. rewrite N1, Id.
      unfold PdModel.assemble, sqrtT. cbn [up_weight up_taper sym nfreqs ext taper]. rewrite T2. reflexivity.
    + cbn [fst snd]. split; [|split; [exact H2|split; [exact (same_trans _ _ _ S1 S2)|split; congruence]]].
      unfold fresh. rewrite N, N1, X1, Id. reflexivity.
  - pose proof (calliC_ok s1 k H1) as (Vi & H2 & S2 & W2 & T2). destruct (calliC s1 k) as [s2 ri]. cbn [fst snd] in *. subst ri.
    apply G; try assumption. destruct (same_chans s1 s2 S2) as [D1 D2]. pose proof S2 as (_ & _ & N2 & X2 & Y2 & P2).
    rewrite W2, W1, T2. unfold fresh. rewrite <- N2, <- N1, N, <- D1, <- C1.
    unfold PdModel.assemble, sqrtT. cbn [up_weight up_taper sym nfreqs ext taper]. rewrite T2. reflexivity.
  - destruct (dget wkey_dec (rpar s1) (Dayenu, k)) as [p|] eqn:Rp.
    + apply G; try assumption; auto using same_refl. rewrite W1. unfold fresh. rewrite <- N1, N, Rp, <- C1. unfold PdModel.assemble, sqrtT. reflexivity.
    + cbn [fst snd]. split; [unfold fresh; rewrite N, P1, Rp; reflexivity|]. split; [exact H1|]. split; [exact S1|]. split; congruence.
Qed.

(** calls that do not change the window, the extension, the symmetric taper, the data or r_params *)
Definition quiet (o : op P) : Prop := match o with SetSpw _ _ | SetExt _ | SetSym _ | AddDataset | SetRParam _ _ => False | _ => True end.
Lemma clear_coherent s : coherent (fst (step s (@ClearCache P))).
Proof. split; [|split; [|split; [|split]]]; cbn; try discriminate; try tauto. Qed.
Lemma step_quiet s o : coherent s -> quiet o -> coherent (fst (step s o)) /\ same s (fst (step s o)).
Proof.
  intros H Q. destruct o; cbn [quiet] in Q; try tauto; cbn [PdModel.step].
  - unfold set_ndlys. destruct nd as [d|]; [destruct (Z.ltb (nfreqs s) d)|]; cbn [fst]; (split; [eapply coherent_caches; [exact H|..]; try reflexivity; repeat split | repeat split]).
  - cbn [fst]. split; [eapply coherent_caches; [exact H|..]; try reflexivity; repeat split | repeat split].
  - cbn [fst]. split; [eapply coherent_caches; [exact H|..]; try reflexivity; repeat split | repeat split].
  - split; [apply (clear_coherent s) | repeat split].
  - pose proof (callR_ok s k H) as (_ & A & B & _). destruct (callR s k); split; assumption.
  - pose proof (callY_ok s k H) as (_ & A & B & _). destruct (callY s k); split; assumption.
  - pose proof (callI_ok s k H) as (_ & A & B & _). destruct (callI s k); split; assumption.
  - pose proof (callC_ok s k H) as (_ & A & B & _). destruct (callC s k); split; assumption.
  - pose proof (calliC_ok s k H) as (_ & A & B & _). destruct (calliC s k); split; assumption.
Qed.
Lemma run_quiet ops : forall s, coherent s -> Forall quiet ops -> coherent (run s ops) /\ same s (run s ops).
Proof.
  induction ops as [|o ops IH]; intros s H F; cbn [PdModel.run fold_left]; [split; [exact H | apply same_refl]|].
  inversion F as [|? ? F1 F2]; subst. destruct (step_quiet s o H F1) as [H1 S1]. destruct (IH _ H1 F2) as [H2 S2]. split; [exact H2 | exact (same_trans _ _ _ S1 S2)].
Qed.
(** a call in a coherent state gives what it would give with empty caches *)
Lemma coherent_fresh s k : coherent s -> snd (callR s k) = snd (callR (fst (step s (@ClearCache P))) k).
Proof.
  intro H. destruct (callR_ok s k H) as (A & _). destruct (callR_ok _ k (clear_coherent s)) as (B & _). rewrite A, B. apply same_fresh. repeat split.
Qed.

(** what a successful call stores *)
Lemma storeR_cached (s : pds P) k r m : snd (storeR s k r) = Ok m -> dget rkey_dec (cR (fst (storeR s k r))) (rkey_of s k) = Some m.
Proof.
  destruct r as [x|e]; cbn [storeR fst snd]; [|discriminate]. intro H. injection H as <-. cbn [up_cache cR]. rewrite dget_dset.
  destruct (rkey_dec (rkey_of s k) (rkey_of s k)); [reflexivity | congruence].
Qed.
End World.
Section Stale.
Context {P : Type}.
Context (wmax : key -> nat -> R) (covdata : key -> list nat -> mat) (minv : mat -> mat)
        (gen_window : pystr -> nat -> nat -> R) (dayenu_inv : P -> list nat -> mat) (pinv : mat -> mat).
Notation callR := (@callR P wmax covdata minv gen_window dayenu_inv pinv).
Lemma callY_same s k : rkey_of (fst (@callY P wmax s k)) = rkey_of s.
Proof. unfold callY. destruct (dget key_dec (cY s) k); reflexivity. Qed.
Lemma callI_same (s : pds P) k : rkey_of (fst (callI s k)) = rkey_of s.
Proof. unfold callI. destruct (dget key_dec (cI s) k); [reflexivity|]. destruct (ident _); reflexivity. Qed.
Lemma calliC_same s k : rkey_of (fst (@calliC P covdata minv s k)) = rkey_of s.
Proof. unfold calliC, callC. destruct (dget key_dec (ciC s) k); [reflexivity|]. destruct (dget key_dec (cC s) k); reflexivity. Qed.
Lemma callR_cached s k m : snd (callR s k) = Ok m -> dget rkey_dec (cR (fst (callR s k))) (rkey_of s k) = Some m.
Proof.
  unfold PdModel.callR. destruct (dget rkey_dec (cR s) (rkey_of s k)) as [m0|] eqn:E.
  { cbn [fst snd]. intro H. injection H as <-. exact E. }
  destruct (Z.ltb (nfreqs s) 0); [discriminate|].
  pose proof (callY_same s k) as Y. destruct (callY wmax s k) as [s1 ry]. cbn [fst] in Y. destruct ry as [y|e]; [|discriminate].
  destruct (weight s).
  - pose proof (callI_same s1 k) as Y2. destruct (callI s1 k) as [s2 [mi|e]]; [|discriminate]. cbn [fst] in Y2. rewrite <- Y, <- Y2. apply storeR_cached.
  - pose proof (calliC_same s1 k) as Y2. destruct (calliC covdata minv s1 k) as [s2 mi]. cbn [fst] in Y2. rewrite <- Y, <- Y2. apply storeR_cached.
  - destruct (dget wkey_dec (rpar s1) (Dayenu, k)); [|discriminate]. rewrite <- Y. apply storeR_cached.
Qed.
Lemma callR_hit s k m : dget rkey_dec (cR s) (rkey_of s k) = Some m -> snd (callR s k) = Ok m.
Proof. intro H. unfold PdModel.callR. rewrite H. reflexivity. Qed.
Lemma callR_settings s k : let s' := fst (callR s k) in same s s' /\ weight s' = weight s /\ taper s' = taper s /\ ndlys s' = ndlys s.
Proof.
  intro s'. unfold s'. unfold PdModel.callR. destruct (dget rkey_dec (cR s) (rkey_of s k)); [repeat split|]. destruct (Z.ltb (nfreqs s) 0); [repeat split|].
  assert (Y : let s1 := fst (callY wmax s k) in same s s1 /\ weight s1 = weight s /\ taper s1 = taper s /\ ndlys s1 = ndlys s) by (unfold callY; destruct (dget key_dec (cY s) k); repeat split).
  destruct (callY wmax s k) as [s1 ry]. cbn [fst] in Y. destruct Y as (Y1 & Y2 & Y3 & Y4). destruct ry as [y|e]; [|repeat split; assumption || apply Y1].
  assert (St : forall s2 r, same s s2 -> weight s2 = weight s -> taper s2 = taper s -> ndlys s2 = ndlys s -> let s3 := fst (storeR s2 k r) in same s s3 /\ weight s3 = weight s /\ taper s3 = taper s /\ ndlys s3 = ndlys s).
  { intros s2 [m|e] A B C D; cbn [storeR fst]; split; try exact A; auto. }
  destruct (weight s) eqn:W.
  - assert (Z : let s2 := fst (callI s1 k) in same s1 s2 /\ weight s2 = weight s1 /\ taper s2 = taper s1 /\ ndlys s2 = ndlys s1) by (unfold callI; destruct (dget key_dec (cI s1) k); [|destruct (ident _)]; repeat split).
    destruct (callI s1 k) as [s2 [mi|e]]; cbn [fst] in Z; destruct Z as (Z1 & Z2 & Z3 & Z4).
    + apply St; try congruence. exact (same_trans _ _ _ Y1 Z1).
    + cbn [fst]. split; [exact (same_trans _ _ _ Y1 Z1)|]. repeat split; congruence.
  - assert (Z : let s2 := fst (calliC covdata minv s1 k) in same s1 s2 /\ weight s2 = weight s1 /\ taper s2 = taper s1 /\ ndlys s2 = ndlys s1) by (unfold calliC, callC; destruct (dget key_dec (ciC s1) k); [|destruct (dget key_dec (cC s1) k)]; repeat split).
    destruct (calliC covdata minv s1 k) as [s2 mi]; cbn [fst] in Z; destruct Z as (Z1 & Z2 & Z3 & Z4). apply St; try congruence. exact (same_trans _ _ _ Y1 Z1).
  - destruct (dget wkey_dec (rpar s1) (Dayenu, k)); [|cbn [fst]; repeat split; assumption || apply Y1]. apply St; congruence || assumption.
Qed.
End Stale.

(** ** values *)
Section Values.
Context {P : Type} (wmax : key -> nat -> R) (gen_window : pystr -> nat -> nat -> R).
Lemma slice_seq a b n : (a <= b <= n)%nat -> slice a b (seq 0 n) = seq a (b - a).
Proof.
  intro H. unfold slice. assert (F : firstn b (seq 0 n) = seq 0 b).
  { replace n with (b + (n - b))%nat by lia. rewrite seq_app, firstn_app, seq_length, Nat.sub_diag, app_nil_r. apply firstn_all2. rewrite seq_length. lia. }
  rewrite F. replace b with (a + (b - a))%nat at 1 by lia. rewrite seq_app, skipn_app, seq_length, Nat.sub_diag. cbn [skipn Nat.add].
  rewrite skipn_all2 by (rewrite seq_length; lia). reflexivity.
Qed.
Lemma chans_in (s : pds P) a b f0 f1 : spw s = (Z.of_nat a, Z.of_nat b) -> ext s = (Z.of_nat f0, Z.of_nat f1) -> (f0 <= a <= b)%nat -> (b + f1 <= NF s)%nat ->
  chans s = seq (a - f0) (b - a + f0 + f1).
Proof.
  intros E1 E2 H1 H2. unfold chans, get_spw. rewrite E1, E2. cbn [fst snd].
  assert (Q : (if Z.gtb (Z.of_nat f0 + Z.of_nat f1) 0 then (Z.of_nat a - Z.of_nat f0, Z.of_nat b + Z.of_nat f1) else (Z.of_nat a, Z.of_nat b)) = (Z.of_nat (a - f0), Z.of_nat (b + f1))).
  { rewrite Z.gtb_ltb. destruct (Z.ltb_spec 0 (Z.of_nat f0 + Z.of_nat f1)); f_equal; lia. }
  rewrite Q, py_slice_in by (rewrite seq_length; lia). rewrite slice_seq by lia. f_equal. lia.
Qed.
End Values.
