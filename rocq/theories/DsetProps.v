(** C162-C169: datasets of PSpecData: keys, consistency checks, rephasing. *)
From Coq Require Import String.
From Coq Require Import Reals Lra.
From Verif Require Import Prelude CNum DsetModel.
Open Scope R_scope.

(** [l[k]] of Python: from the front, or from the end for a negative index *)
Definition item_at {A} (l : list A) (k : Z) (a : A) : Prop := exists j, nth_error l j = Some a /\ (Z.of_nat j = k \/ (k < 0)%Z /\ Z.of_nat j = (Z.of_nat (length l) + k)%Z).
Lemma pynth_item {A} (l : list A) k a : item_at l k a <-> pynth l k = Some a.
Proof.
  unfold item_at, pynth. split.
  - intros (j & N & H). assert (L : (j < length l)%nat) by (apply nth_error_Some; congruence). destruct (Z.leb_spec 0 k), (Z.ltb_spec k (Z.of_nat (length l))); cbn [andb]; try lia.
    + replace (Z.to_nat k) with j by lia. exact N.
    + destruct (Z.leb_spec (- Z.of_nat (length l)) k), (Z.ltb_spec k 0); cbn [andb]; try lia. replace (Z.to_nat (Z.of_nat (length l) + k)) with j by lia. exact N.
  - destruct (Z.leb_spec 0 k), (Z.ltb_spec k (Z.of_nat (length l))); cbn [andb]; intros N.
    + exists (Z.to_nat k). split; [exact N|lia].
    + destruct (Z.leb_spec (- Z.of_nat (length l)) k), (Z.ltb_spec k 0); cbn [andb] in N; try discriminate; lia.
    + destruct (Z.leb_spec (- Z.of_nat (length l)) k), (Z.ltb_spec k 0); cbn [andb] in N; try discriminate; try lia. exists (Z.to_nat (Z.of_nat (length l) + k)). split; [exact N|lia].
    + lia.
Qed.
(** ** keys *)
(** the two spellings of a baseline, and label or index of the dataset, mean the same *)
Theorem blkey_spellings :
  forall labels d i a x rest, dset_idx labels d = Ok i ->
    parse_blkey labels (d :: KI a :: x :: rest) = parse_blkey labels (d :: KT [KI a; x] :: rest) /\
    parse_blkey labels (d :: KT [KI a; x] :: rest) = parse_blkey labels (KI i :: KT [KI a; x] :: rest).
Proof. intros labels d i a x rest H. unfold parse_blkey. rewrite H. cbn. split; reflexivity. Qed.
Theorem blkey_parts :
  forall labels d i t, dset_idx labels d = Ok i ->
    parse_blkey labels [d; KT t] = Ok (i, t) /\
    (forall p, (exists z, p = KI z) \/ (exists s, p = KS s) -> parse_blkey labels [d; KT t; p] = Ok (i, t ++ [p])).
Proof. intros labels d i t H. unfold parse_blkey. rewrite H. cbn. split; [reflexivity |]. intros p [[z ->] | [s ->]]; reflexivity. Qed.
Theorem blkey_label :
  forall labels s i, NoDup labels -> (dset_idx labels (KS s) = Ok i <-> (0 <= i)%Z /\ nth_error labels (Z.to_nat i) = Some s).
Proof.
  intros labels s i ND. unfold dset_idx.
  assert (G : lab_index s labels = Some i <-> (0 <= i)%Z /\ nth_error labels (Z.to_nat i) = Some s).
  { revert i. induction ND as [| x l Hn ND IH]; intros i; cbn [lab_index].
    - split; [discriminate |]. intros [_ H]. destruct (Z.to_nat i); discriminate.
    - destruct (string_dec s x) as [-> | N].
      + split; [intros H; injection H as <-; split; [lia | reflexivity] |]. intros [H0 H]. destruct (Z.to_nat i) as [| n] eqn:E; [f_equal; lia |]. cbn in H. exfalso. apply Hn. eapply nth_error_In. exact H.
      + destruct (lab_index s l) as [j |] eqn:E; cbn.
        * destruct (proj1 (IH j) eq_refl) as [J0 J]. split.
          -- intros H. injection H as <-. split; [lia |]. rewrite Z2Nat.inj_succ by assumption. exact J.
          -- intros [H0 H]. destruct (Z.to_nat i) as [| n] eqn:En; [cbn in H; congruence |]. cbn in H. f_equal.
             assert (A : Some j = Some (Z.of_nat n)) by (apply (proj2 (IH (Z.of_nat n))); split; [lia | rewrite Nat2Z.id; exact H]). injection A as ->. lia.
        * split; [discriminate |]. intros [H0 H]. destruct (Z.to_nat i) as [| n] eqn:En; [cbn in H; congruence |]. cbn in H.
          assert (A : None = Some (Z.of_nat n)) by (apply (proj2 (IH (Z.of_nat n))); split; [lia | rewrite Nat2Z.id; exact H]). discriminate. }
  destruct (lab_index s labels) as [j |]; split; intros H; try discriminate.
  - injection H as <-. apply G. reflexivity.
  - apply G in H. injection H as <-. reflexivity.
  - apply G in H. discriminate.
Qed.
(** an unknown label, a missing baseline and a polarization of another type are errors ... *)
Theorem blkey_errors :
  forall labels, (forall s rest b, ~ In s labels -> parse_blkey labels (KS s :: b :: rest) = Err KeyError) /\
    (forall d, parse_blkey labels [d] = Err AssertionError) /\ parse_blkey labels [] = Err AssertionError /\
    (forall i a, parse_blkey labels [KI i; KI a] = Err AssertionError) /\
    (forall i t u rest, parse_blkey labels (KI i :: KT t :: KT u :: rest) = Err AssertionError).
Proof.
  intros labels. repeat split; auto. intros s rest b H. cbn. assert (E : lab_index s labels = None).
  { induction labels as [| x l IH]; cbn; [reflexivity |]. destruct (string_dec s x) as [-> | N]; [exfalso; apply H; left; reflexivity |]. rewrite IH; [reflexivity |]. intros Q. apply H. right. assumption. }
  rewrite E. reflexivity.
Qed.
(** ... but an index beyond the datasets, and anything after the polarization, pass unnoticed *)
Theorem blkey_unchecked_refuted :
  (exists labels i t, (Z.of_nat (length labels) <= i)%Z /\ parse_blkey labels [KI i; KT t] = Ok (i, t)) /\
  (forall labels i t p rest, parse_blkey labels (KI i :: KT t :: KI p :: rest) = Ok (i, t ++ [KI p])).
Proof. split; [exists ["a"%string], 5%Z, [KI 1; KI 2]; split; [cbn; lia | reflexivity] | reflexivity]. Qed.
Example blkey_ex : parse_blkey ["a"; "b"]%string [KS "b"; KI 24; KI 25; KS "xx"] = Ok (1%Z, [KI 24; KI 25; KS "xx"]) /\ NoDup ["a"; "b"]%string.
Proof. split; [reflexivity |]. repeat constructor; cbn; intuition discriminate. Qed.

(** ** validation *)
Section V.
Context {B : Type} (ang : B -> nat -> R -> R).
Notation uv := (uv B).
Definition close (a b : R) : Prop := Rabs (a - b) <= / 10 ^ 8 + / 10 ^ 5 * Rabs b.
(** what the first dataset and another have in common *)
Definition consistent (d0 d : uv) : Prop :=
  u_nf d = u_nf d0 /\ Forall2 close (u_cw d0) (u_cw d) /\ u_nt d = u_nt d0 /\ length (u_lsts d) = length (u_lsts d0) /\
  length (u_freqs d) = length (u_freqs d0) /\ u_cat d = u_cat d0 /\ length (u_cat d) = 1%nat.
Definition apart (tol : R) (l l' : list R) : Prop := exists i x y, nth_error l i = Some x /\ nth_error l' i = Some y /\ tol < Rabs (x - y).

Lemma all2_spec {A} (f : A -> A -> bool) (P : A -> A -> Prop) : (forall x y, f x y = true <-> P x y) -> forall l l', all2 f l l' = true <-> Forall2 P l l'.
Proof.
  intros H. induction l as [| x l IH]; intros [| y l']; cbn; split; intros Q; try discriminate; try constructor; try (inversion Q; fail).
  - apply andb_true_iff in Q. apply H, Q.
  - apply andb_true_iff in Q. apply IH, Q.
  - inversion Q; subst. apply andb_true_iff. split; [apply H | apply IH]; assumption.
Qed.
Lemma any2_spec tol l l' : any2 (farb tol) l l' = true <-> apart tol l l'.
Proof.
  revert l'. induction l as [| x l IH]; intros [| y l']; cbn.
  - split; [discriminate |]. intros ([| i] & a & b & Ha & _); discriminate.
  - split; [discriminate |]. intros ([| i] & a & b & Ha & _); discriminate.
  - split; [discriminate |]. intros ([| i] & a & b & _ & Ha & _); discriminate.
  - rewrite orb_true_iff, IH. unfold farb. split.
    + intros [Q | (i & a & b & Q1 & Q2 & Q3)]; [| exists (S i), a, b; auto]. destruct (Rlt_dec tol (Rabs (x - y))); [| discriminate]. exists 0%nat, x, y. auto.
    + intros ([| i] & a & b & Q1 & Q2 & Q3); cbn in *; [left; injection Q1 as ->; injection Q2 as ->; destruct (Rlt_dec tol (Rabs (a - b))); [reflexivity | contradiction] | right; exists i, a, b; auto].
Qed.
Lemma closeb_spec a b : closeb a b = true <-> close a b.
Proof. unfold closeb, close. destruct (Rle_dec _ _); split; intros; auto; discriminate. Qed.
Lemma cat_eqb_spec a b : cat_eqb a b = true <-> a = b.
Proof.
  destruct a, b; cbn; split; intros H; try discriminate; try reflexivity; [apply Nat.eqb_eq in H; congruence | injection H as ->; apply Nat.eqb_refl].
Qed.
Lemma Forall2_eq {A} (l l' : list A) : Forall2 eq l l' <-> l = l'.
Proof. split; [induction 1; congruence | intros ->; induction l'; constructor; auto]. Qed.
Lemma close_refl a : close a a.
Proof. unfold close. rewrite Rminus_diag_eq by reflexivity. rewrite Rabs_R0. apply Rplus_le_le_0_compat; [apply Rlt_le, Rinv_0_lt_compat, pow_lt; lra |]. apply Rmult_le_pos; [apply Rlt_le, Rinv_0_lt_compat, pow_lt; lra | apply Rabs_pos]. Qed.

(** accepted exactly if there is a weight set, an error set and a label for each dataset and every dataset is consistent with the first;
    the warnings tell of LSTs (frequencies) that differ from those of the first by more than 0.001 rad (1 kHz) *)
Theorem validate_accepts :
  forall nl nw ns (d0 : uv) rest, let ds := d0 :: rest in
    (exists ws, validate nl nw ns ds = Ok ws) <->
    nl = length ds /\ nw = length ds /\ ns = length ds /\ forall d, In d ds -> consistent d0 d.
Proof.
  intros nl nw ns d0 rest ds. unfold validate, ds. fold ds. unfold require.
  destruct (Nat.eqb_spec nw (length ds)), (Nat.eqb_spec ns (length ds)), (Nat.eqb_spec nl (length ds)); cbn [andb];
    try (split; [intros [? ?]; discriminate | tauto]).
  assert (FA : forall f : uv -> bool, forallb f rest = true <-> forall d, In d rest -> f d = true) by (intros; apply forallb_forall).
  assert (FD : forall f : uv -> bool, forallb f ds = true <-> forall d, In d ds -> f d = true) by (intros; apply forallb_forall).
  split.
  - intros [ws H]. cbv zeta in H. revert H.
    destruct (forallb (fun d => Nat.eqb (u_nf d) (u_nf d0)) rest) eqn:E1; [| discriminate].
    destruct (forallb (fun d => all2 closeb (u_cw d0) (u_cw d)) ds) eqn:E2; [| discriminate].
    destruct (forallb (fun d => Nat.eqb (u_nt d) (u_nt d0)) rest) eqn:E3; [| discriminate].
    destruct (forallb (fun d => Nat.eqb (length (u_lsts d)) (length (u_lsts d0))) rest) eqn:E4; [| discriminate].
    destruct (forallb (fun d => Nat.eqb (length (u_freqs d)) (length (u_freqs d0))) rest) eqn:E5; [| discriminate].
    destruct (forallb (fun d => single (u_cat d)) ds) eqn:E6; [| discriminate].
    destruct (forallb (fun d => all2 cat_eqb (u_cat d) (u_cat d0)) rest) eqn:E7; [| discriminate]. intros _.
    rewrite FA in E1, E3, E4, E5, E7. rewrite FD in E2, E6. repeat (split; [assumption |]). intros d Hd. unfold consistent.
    assert (C : Forall2 close (u_cw d0) (u_cw d)) by (apply (all2_spec closeb close closeb_spec), E2, Hd).
    assert (S1 : length (u_cat d) = 1%nat) by (specialize (E6 d Hd); destruct (u_cat d) as [| c [| c' l]]; [discriminate | reflexivity | discriminate]).
    destruct Hd as [<- | Hd]; [auto 10 |]. specialize (E1 d Hd). specialize (E3 d Hd). specialize (E4 d Hd). specialize (E5 d Hd). specialize (E7 d Hd).
    apply Nat.eqb_eq in E1, E3, E4, E5. apply (all2_spec cat_eqb eq cat_eqb_spec) in E7. apply Forall2_eq in E7. auto 10.
  - intros (_ & _ & _ & H). cbv zeta.
    assert (G : forall f, (forall d, In d ds -> consistent d0 d -> f d = true) -> forallb f ds = true) by (intros f Q; apply FD; intros d Hd; apply Q; auto).
    assert (G' : forall f, (forall d, In d rest -> consistent d0 d -> f d = true) -> forallb f rest = true) by (intros f Q; apply FA; intros d Hd; apply Q; [assumption | apply H; right; assumption]).
    rewrite (G' (fun d => Nat.eqb (u_nf d) (u_nf d0))) by (intros d _ C; apply Nat.eqb_eq, C).
    rewrite (G (fun d => all2 closeb (u_cw d0) (u_cw d))) by (intros d _ C; apply (all2_spec closeb close closeb_spec), C).
    rewrite (G' (fun d => Nat.eqb (u_nt d) (u_nt d0))) by (intros d _ C; apply Nat.eqb_eq, C).
    rewrite (G' (fun d => Nat.eqb (length (u_lsts d)) (length (u_lsts d0)))) by (intros d _ C; apply Nat.eqb_eq, C).
    rewrite (G' (fun d => Nat.eqb (length (u_freqs d)) (length (u_freqs d0)))) by (intros d _ C; apply Nat.eqb_eq, C).
    rewrite (G (fun d => single (u_cat d))) by (intros d _ (_ & _ & _ & _ & _ & _ & C); destruct (u_cat d) as [| c [| c' l]]; [discriminate | reflexivity | discriminate]).
    rewrite (G' (fun d => all2 cat_eqb (u_cat d) (u_cat d0))) by (intros d _ C; apply (all2_spec cat_eqb eq cat_eqb_spec), Forall2_eq, C).
    eexists. reflexivity.
Qed.
Theorem validate_warns :
  forall nl nw ns (d0 : uv) rest ws, validate nl nw ns (d0 :: rest) = Ok ws ->
    (In LstMisaligned ws <-> exists d, In d rest /\ apart (1 / 1000) (u_lsts d0) (u_lsts d)) /\
    (In FreqMisaligned ws <-> exists d, In d rest /\ apart 1000 (u_freqs d0) (u_freqs d)).
Proof.
  intros nl nw ns d0 rest ws H. unfold validate, require in H.
  repeat match type of H with (if ?c then _ else _) = _ => destruct c; [| discriminate] end. injection H as <-.
  assert (E : forall f : uv -> bool, existsb f rest = true <-> exists d, In d rest /\ f d = true) by (intros; apply existsb_exists).
  split; rewrite in_app_iff.
  - destruct (existsb (fun d => any2 (farb (1 / 1000)) (u_lsts d0) (u_lsts d)) rest) eqn:E1.
    + split; [intros _ | intros; left; left; reflexivity]. apply E in E1. destruct E1 as (d & Hd & Q). exists d. split; [assumption | apply any2_spec, Q].
    + split; [intros [[] | Q]; destruct (existsb _ rest) in Q; [destruct Q as [Q | []]; discriminate | destruct Q] |]. intros (d & Hd & Q). exfalso.
      assert (X : existsb (fun d => any2 (farb (1 / 1000)) (u_lsts d0) (u_lsts d)) rest = true) by (apply E; exists d; split; [assumption | apply any2_spec, Q]). congruence.
  - destruct (existsb (fun d => any2 (farb 1000) (u_freqs d0) (u_freqs d)) rest) eqn:E1.
    + split; [intros _ | intros; right; left; reflexivity]. apply E in E1. destruct E1 as (d & Hd & Q). exists d. split; [assumption | apply any2_spec, Q].
    + split; [intros [Q | []]; destruct (existsb _ rest) in Q; [destruct Q as [Q | []]; discriminate | destruct Q] |]. intros (d & Hd & Q). exfalso.
      assert (X : existsb (fun d => any2 (farb 1000) (u_freqs d0) (u_freqs d)) rest = true) by (apply E; exists d; split; [assumption | apply any2_spec, Q]). congruence.
Qed.

(** ** rephasing *)
Hypothesis ang0 : forall b f, ang b f 0 = 0.
Notation rephase_to_dset := (rephase_to_dset ang).
(** [d'] is [d] moved to the LSTs of [a] *)
Definition moved (a d d' : uv) : Prop :=
  u_tlst d' = u_tlst d /\ u_pols d' = u_pols d /\ u_cat d' = [Unknown] /\
  forall b t f j, (t < length (u_tlst d))%nat -> (j < length (u_pols d))%nat ->
    u_data d' b t f j = Cmul (u_data d b t f j) (Cexpi (ang b f (nth t (u_tlst a) 0 - nth t (u_tlst d) 0))).

Lemma nodupR_id l : forall seen, NoDup l -> (forall x, In x l -> ~ In x seen) -> nodupR seen l = l.
Proof.
  induction l as [| x l IH]; intros seen ND H; cbn; [reflexivity |]. inversion ND; subst. destruct (in_dec Req_EM_T x seen) as [Q | Q]; [exfalso; apply (H x (or_introl eq_refl) Q) |].
  f_equal. apply IH; [assumption |]. intros y Hy [<- | Q']; [contradiction | apply (H y (or_intror Hy) Q')].
Qed.
Lemma index_z_nth l : NoDup l -> forall i p, nth_error l i = Some p -> index_z p l = Some i.
Proof.
  induction 1 as [| x l Hn ND IH]; intros [| i] p H; cbn in *; try discriminate.
  - injection H as ->. rewrite Z.eqb_refl. reflexivity.
  - destruct (Z.eqb_spec p x) as [-> | N]; [exfalso; apply Hn; eapply nth_error_In; eassumption |]. rewrite (IH i p H). reflexivity.
Qed.
Lemma insert_pols_same anchor (new : B -> nat -> nat -> nat -> C) : NoDup anchor -> forall ps pre acc, anchor = pre ++ ps ->
  exists x, insert_pols anchor new ps (length pre) acc = Ok x /\
    forall b t f j, x b t f j = if (Nat.leb (length pre) j && Nat.ltb j (length anchor))%bool then new b t f j else acc b t f j.
Proof.
  intros ND. induction ps as [| p ps IH]; intros pre acc E; cbn [insert_pols].
  - exists acc. split; [reflexivity |]. intros b t f j. rewrite E, app_nil_r. destruct (Nat.leb_spec (length pre) j), (Nat.ltb_spec j (length pre)); cbn; try reflexivity; lia.
  - assert (N : nth_error anchor (length pre) = Some p) by (rewrite E, nth_error_app2, Nat.sub_diag by lia; reflexivity).
    rewrite (index_z_nth anchor ND _ _ N). destruct (IH (pre ++ [p]) (fun b t f s => if Nat.eqb s (length pre) then new b t f (length pre) else acc b t f s)) as (x & Ex & Sx); [rewrite E, <- app_assoc; reflexivity |].
    rewrite app_length in Ex, Sx. cbn [length] in Ex, Sx. replace (length pre + 1)%nat with (S (length pre)) in Ex, Sx by lia. exists x. split; [exact Ex |]. intros b t f j. rewrite Sx.
    assert (L : (length pre < length anchor)%nat) by (rewrite E, app_length; cbn; lia).
    destruct (Nat.leb_spec (S (length pre)) j), (Nat.leb_spec (length pre) j), (Nat.ltb_spec j (length anchor)), (Nat.eqb_spec j (length pre)); cbn; try reflexivity; try lia. subst; reflexivity.
Qed.
Lemma rephase_one_moved a d : NoDup (u_tlst a) -> NoDup (u_pols a) -> length (u_tlst d) = length (u_tlst a) -> u_pols d = u_pols a ->
  exists d', rephase_one ang (nodupR [] (u_tlst a)) (u_pols a) d = Ok d' /\ moved a d d'.
Proof.
  intros N1 N2 L P. unfold rephase_one. rewrite nodupR_id by auto. rewrite L, Nat.eqb_refl. cbn [require].
  rewrite P. destruct (insert_pols_same (u_pols a) (rephased ang (u_tlst a) d) N2 (u_pols a) [] (u_data d) eq_refl) as (x & Ex & Sx). cbn [length] in Ex, Sx. rewrite Ex. cbn [bind].
  eexists. split; [reflexivity |]. unfold moved. cbn. repeat split. intros b t f j Ht Hj. rewrite Sx. rewrite P in Hj. apply Nat.ltb_lt in Hj. rewrite Hj. reflexivity.
Qed.
Lemma Cmul_1_r z : Cmul z (Cexpi 0) = z.
Proof. unfold Cexpi, Cmul. rewrite cos_0, sin_0. destruct z; cbn. f_equal; ring. Qed.
Lemma loop_moved a k ds : NoDup (u_tlst a) -> NoDup (u_pols a) -> (forall d, In d ds -> length (u_tlst d) = length (u_tlst a) /\ u_pols d = u_pols a) ->
  forall i, (forall j d, nth_error ds j = Some d -> (i + Z.of_nat j)%Z = k -> d = a) ->
  exists ds', rephase_loop ang (nodupR [] (u_tlst a)) (u_pols a) k i ds = (ds', None) /\ Forall2 (moved a) ds ds'.
Proof.
  intros N1 N2. induction ds as [| d ds IH]; intros H i K; cbn; [exists []; split; [reflexivity | constructor] |].
  destruct (IH (fun d' Hd => H d' (or_intror Hd)) (i + 1)%Z) as (ds' & E & F); [intros j d' Hj Q; apply (K (S j) d' Hj); lia |]. rewrite E.
  destruct (Z.eqb_spec i k) as [Q | Q].
  - assert (d = a) by (apply (K 0%nat d eq_refl); cbn; lia). subst d. eexists. split; [reflexivity |]. constructor; [| assumption].
    unfold moved. cbn. repeat split. intros b t f j _ _. rewrite Rminus_diag_eq by reflexivity. rewrite ang0, Cmul_1_r. reflexivity.
  - destruct (H d (or_introl eq_refl)) as [L P]. destruct (rephase_one_moved a d N1 N2 L P) as (d' & Ed & M). rewrite Ed. eexists. split; [reflexivity |]. constructor; assumption.
Qed.
(** Datasets that pass the check and have the polarizations of the anchor in the same order: every value is multiplied by the phasor of the
    LST difference of its own integration, nothing else changes, and the anchor keeps its data.  With inplace=False the object is left alone. *)
Theorem rephase_values :
  forall labels dset k inplace ds a ws, validate (length labels) (length ds) (length ds) ds = Ok ws -> dset_idx labels dset = Ok k -> item_at ds k a ->
    NoDup (u_tlst a) -> NoDup (u_pols a) -> (forall d, In d ds -> length (u_tlst d) = length (u_tlst a) /\ u_pols d = u_pols a) ->
    exists ds', Forall2 (moved a) ds ds' /\
      rephase_to_dset labels dset inplace ds = if inplace then (ds', Ok None) else (ds, Ok (Some ds')).
Proof.
  intros labels dset k inplace ds a ws V D P N1 N2 H. apply pynth_item in P. unfold DsetModel.rephase_to_dset. rewrite V, D, P.
  destruct (loop_moved a k ds N1 N2 H 0%Z) as (ds' & E & F).
  - intros j d Hj Q. unfold pynth in P. assert (j < length ds)%nat by (apply nth_error_Some; congruence).
    destruct (0 <=? k)%Z eqn:K0; [| exfalso; apply Z.leb_gt in K0; lia]. assert (KL : (k <? Z.of_nat (length ds))%Z = true) by (apply Z.ltb_lt; lia). rewrite KL in P. cbn in P.
    replace (Z.to_nat k) with j in P by lia. congruence.
  - exists ds'. split; [assumption |]. rewrite E. destruct inplace; reflexivity.
Qed.
(** amplitudes do not change *)
Theorem rephase_amplitudes : forall a d d', moved a d d' -> forall b t f j, (t < length (u_tlst d))%nat -> (j < length (u_pols d))%nat ->
  Cabs2 (u_data d' b t f j) = Cabs2 (u_data d b t f j).
Proof.
  intros a d d' (_ & _ & _ & M) b t f j Ht Hj. rewrite M by assumption. set (x := u_data d b t f j). set (y := ang _ _ _).
  unfold Cabs2, Cmul, Cexpi. cbn. pose proof (sin2_cos2 y) as S. unfold Rsqr in S.
  transitivity ((re x * re x + im x * im x) * (sin y * sin y + cos y * cos y)); [ring | rewrite S; ring].
Qed.
End V.

(** *** counterexamples: one baseline, phasor exp(i * change of LST) *)
Definition ang1 (_ : unit) (_ : nat) (x : R) : R := x.
Definition du (c : cat) (pols : list Z) (lst : R) (vals : nat -> C) : uv unit := mkuv 1 1 [1] [lst] [1] [c] [lst] pols (fun _ _ _ j => vals j).
Lemma valid_du l0 l : (forall d, In d (l0 :: l) -> exists c p t v, d = du c p t v /\ (exists p' t' v', l0 = du c p' t' v')) ->
  exists ws, validate (length (l0 :: l)) (length (l0 :: l)) (length (l0 :: l)) (l0 :: l) = Ok ws.
Proof.
  intros H. apply validate_accepts. repeat (split; [reflexivity |]). intros d Hd. destruct (H d Hd) as (c & p & t & v & -> & p' & t' & v' & E). rewrite E. unfold consistent, du; cbn.
  repeat split. constructor; [apply close_refl | constructor].
Qed.
Lemma Cexpi_mPI : Cexpi (- PI) = mkC (-1) 0.
Proof. unfold Cexpi. rewrite cos_neg, sin_neg, cos_PI, sin_PI. f_equal; lra. Qed.
Lemma run1 c p p' v v' : c <> OtherCat 99 -> exists x, insert_pols p (rephased ang1 [0] (du c p' PI v')) p' 0 (u_data (du c p' PI v')) = x /\
  rephase_to_dset ang1 ["a"; "b"]%string (KI 0) true [du c p 0 v; du c p' PI v'] =
    match x with Ok y => ([du Unknown p 0 v; mkuv 1 1 [1] [PI] [1] [Unknown] [PI] p' y], Ok None) | Err e => ([du Unknown p 0 v; du c p' PI v'], Err e) end.
Proof.
  intros _. eexists. split; [reflexivity |]. unfold rephase_to_dset.
  destruct (valid_du (du c p 0 v) [du c p' PI v']) as [ws V].
  { cbn. intros d [<- | [<- | []]]; repeat eexists. }
  cbn [length] in *. rewrite V. cbn -[du validate insert_pols].  unfold rephase_one. cbn -[insert_pols].
  destruct (insert_pols p _ p' 0 _); reflexivity.
Qed.
(** "will only phase if the dataset is drift-phased": a dataset of another type is rephased all the same, after a warning that it is skipped *)
Theorem rephase_skips_refuted :
  ~ (forall (ds ds' : list (uv unit)), (forall d, In d ds -> u_cat d <> [Unprojected]) -> rephase_to_dset ang1 ["a"; "b"]%string (KI 0) true ds = (ds', Ok None) ->
       forall i d d', nth_error ds i = Some d -> nth_error ds' i = Some d' -> u_data d' tt 0 0 0 = u_data d tt 0 0 0)%nat.
Proof.
  intros H. destruct (run1 (OtherCat 1) [1%Z] [1%Z] (fun _ => C1) (fun _ => C1)) as (x & Ex & E); [discriminate |]. cbn in Ex. subst x. cbn in E.
  match type of E with rephase_to_dset _ _ _ _ ?l = _ => assert (A : forall d, In d l -> u_cat d <> [Unprojected]) by (cbn; intros d [<- | [<- | []]]; discriminate) end.
  specialize (H _ _ A E 1%nat _ _ eq_refl eq_refl). cbn in H.
  unfold rephased, ang1 in H. cbn in H. replace (0 - PI) with (- PI) in H by ring. rewrite Cexpi_mPI in H. apply (f_equal re) in H. cbn in H. lra.
Qed.
(** a second call rotates the data again: the LSTs of the datasets are not updated and nothing is skipped *)
Theorem rephase_twice_refuted :
  ~ (forall (ds ds1 ds2 : list (uv unit)), rephase_to_dset ang1 ["a"; "b"]%string (KI 0) true ds = (ds1, Ok None) -> rephase_to_dset ang1 ["a"; "b"]%string (KI 0) true ds1 = (ds2, Ok None) ->
       forall i d d', nth_error ds1 i = Some d -> nth_error ds2 i = Some d' -> u_data d' tt 0 0 0 = u_data d tt 0 0 0)%nat.
Proof.
  intros H. destruct (run1 Unprojected [1%Z] [1%Z] (fun _ => C1) (fun _ => C1)) as (x & Ex & E); [discriminate |]. cbn in Ex. subst x. cbn in E.
  set (v1 := fun j : nat => if Nat.eqb j 0 then mkC (-1) 0 else C1).
  assert (E1 : rephase_to_dset ang1 ["a"; "b"]%string (KI 0) true [du Unknown [1%Z] 0 (fun _ => C1); mkuv 1 1 [1] [PI] [1] [Unknown] [PI] [1%Z] (fun _ t f s => if Nat.eqb s 0 then rephased ang1 [0] (du Unprojected [1%Z] PI (fun _ => C1)) tt t f 0 else C1)] =
     ([du Unknown [1%Z] 0 (fun _ => C1); mkuv 1 1 [1] [PI] [1] [Unknown] [PI] [1%Z] (fun _ t f s => if Nat.eqb s 0 then Cmul (rephased ang1 [0] (du Unprojected [1%Z] PI (fun _ => C1)) tt t f 0) (Cexpi (nth t [0] 0 - nth t [PI] 0)) else if Nat.eqb s 0 then rephased ang1 [0] (du Unprojected [1%Z] PI (fun _ => C1)) tt t f 0 else C1)], Ok None)).
  { clear. match goal with |- rephase_to_dset _ _ _ _ ?l = _ => set (L := l) end.
    assert (V : exists ws, validate 2 2 2 L = Ok ws).
    { apply (validate_accepts 2 2 2). repeat (split; [reflexivity |]). cbn. intros d [<- | [<- | []]]; unfold consistent; cbn; (repeat split; constructor; [apply close_refl | constructor]). }
    destruct V as [ws V]. unfold rephase_to_dset. change (length ["a"; "b"]%string) with 2%nat. change (length L) with 2%nat. rewrite V. unfold L. cbn -[rephased].
     cbn -[rephased]. unfold rephase_one. cbn -[rephased]. reflexivity. }
  assert (E' : rephase_to_dset ang1 ["a"; "b"]%string (KI 0) true [du Unprojected [1%Z] 0 (fun _ => C1); du Unprojected [1%Z] PI (fun _ => C1)] =
    ([du Unknown [1%Z] 0 (fun _ => C1); mkuv 1 1 [1] [PI] [1] [Unknown] [PI] [1%Z] (fun _ t f s => if Nat.eqb s 0 then rephased ang1 [0] (du Unprojected [1%Z] PI (fun _ => C1)) tt t f 0 else C1)], Ok None)) by exact E.
  specialize (H _ _ _ E' E1 1%nat _ _ eq_refl eq_refl). cbn in H.
  unfold rephased, ang1 in H. cbn in H. replace (0 - PI) with (- PI) in H by ring. rewrite Cexpi_mPI in H. apply (f_equal re) in H. cbn in H. lra.
Qed.
(** the data of a dataset with the polarizations in another order end up under the wrong polarization *)
Theorem rephase_pol_order_refuted :
  ~ (forall (ds ds' : list (uv unit)), (forall d, In d ds -> NoDup (u_pols d)) -> rephase_to_dset ang1 ["a"; "b"]%string (KI 0) true ds = (ds', Ok None) ->
       forall i d d', nth_error ds i = Some d -> nth_error ds' i = Some d' -> u_pols d' = u_pols d /\ Cabs2 (u_data d' tt 0 0 0) = Cabs2 (u_data d tt 0 0 0))%nat.
Proof.
  intros H. destruct (run1 Unprojected [1; 2]%Z [2; 1]%Z (fun _ => C1) (fun j => if Nat.eqb j 0 then C1 else C0)) as (x & Ex & E); [discriminate |]. cbn in Ex. subst x. cbn in E.
  match type of E with rephase_to_dset _ _ _ _ ?l = _ => assert (A : forall d, In d l -> NoDup (u_pols d)) by (cbn; intros d [<- | [<- | []]]; cbn; repeat constructor; cbn; intuition discriminate) end.
  specialize (H _ _ A E 1%nat _ _ eq_refl eq_refl). cbn in H.
  destruct H as [_ H]. unfold rephased in H. cbn in H. unfold Cabs2 in H. cbn in H. lra.
Qed.
(** a call that fails leaves the datasets before the failing one rephased *)
Theorem rephase_failure_refuted :
  ~ (forall (ds ds' : list (uv unit)) e, rephase_to_dset ang1 ["a"; "b"; "c"]%string (KI 0) true ds = (ds', Err e) ->
       forall i d d', nth_error ds i = Some d -> nth_error ds' i = Some d' -> u_data d' tt 0 0 0 = u_data d tt 0 0 0)%nat.
Proof.
  intros H. set (v := fun _ : nat => C1).
  assert (E : exists d2, rephase_to_dset ang1 ["a"; "b"; "c"]%string (KI 0) true [du Unprojected [1%Z] 0 v; du Unprojected [1%Z] PI v; du Unprojected [5%Z] PI v] =
    ([du Unknown [1%Z] 0 v; mkuv 1 1 [1] [PI] [1] [Unknown] [PI] [1%Z] (fun _ t f s => if Nat.eqb s 0 then rephased ang1 [0] (du Unprojected [1%Z] PI v) tt t f 0 else C1); d2], Err ValueError)).
  { eexists. unfold rephase_to_dset. destruct (valid_du (du Unprojected [1%Z] 0 v) [du Unprojected [1%Z] PI v; du Unprojected [5%Z] PI v]) as [ws V].
    { cbn. intros d [<- | [<- | [<- | []]]]; repeat eexists. }
    cbn [length] in *. rewrite V. cbn -[du validate].  unfold rephase_one. cbn. reflexivity. }
  destruct E as [d2 E]. specialize (H _ _ _ E 1%nat _ _ eq_refl eq_refl). cbn in H.
  unfold rephased, ang1 in H. cbn in H. replace (0 - PI) with (- PI) in H by ring. rewrite Cexpi_mPI in H. apply (f_equal re) in H. cbn in H. lra.
Qed.
(** LSTs are compared to those of the first dataset only, so that two datasets may be misaligned by twice the tolerance *)
Theorem validate_pairwise_refuted :
  ~ (forall ds ws, validate (B := unit) (length ds) (length ds) (length ds) ds = Ok ws -> ~ In LstMisaligned ws ->
       forall d d', In d ds -> In d' ds -> ~ apart (1 / 1000) (u_lsts d) (u_lsts d')).
Proof.
  intros H. set (v := fun _ : nat => C1). set (l := [du Unprojected [1%Z] (9 / 10000) v; du Unprojected [1%Z] (- (9 / 10000)) v]).
  destruct (valid_du (du Unprojected [1%Z] 0 v) l) as [ws V]. { cbn. intros d [<- | [<- | [<- | []]]]; repeat eexists. }
  assert (N : ~ In LstMisaligned ws).
  { intros I. apply (validate_warns _ _ _ _ _ _ V) in I. destruct I as (d & Hd & i & x & y & Hx & Hy & Q). cbn in Hd.
    destruct i as [| [| i]]; cbn in Hx; try discriminate. injection Hx as <-. destruct Hd as [<- | [<- | []]]; cbn in Hy; injection Hy as <-.
    - unfold Rabs in Q; destruct (Rcase_abs _); lra.
    - unfold Rabs in Q; destruct (Rcase_abs _); lra. }
  apply (H _ ws V N (du Unprojected [1%Z] (9 / 10000) v) (du Unprojected [1%Z] (- (9 / 10000)) v)); [right; left; reflexivity | right; right; left; reflexivity |].
  exists 0%nat. do 2 eexists. split; [reflexivity |]. split; [reflexivity |]. unfold Rabs. destruct (Rcase_abs _); lra.
Qed.
(** LSTs on either side of the wrap count as misaligned although they are close *)
Theorem validate_wrap_refuted :
  exists ws d0 d, validate (B := unit) 2 2 2 [d0; d] = Ok ws /\ In LstMisaligned ws /\
    u_lsts d0 = [2 * PI - / 10000] /\ u_lsts d = [/ 10000] /\ (2 * PI + / 10000) - (2 * PI - / 10000) < 1 / 1000.
Proof.
  set (v := fun _ : nat => C1). destruct (valid_du (du Unprojected [1%Z] (2 * PI - / 10000) v) [du Unprojected [1%Z] (/ 10000) v]) as [ws V]. { cbn. intros d [<- | [<- | []]]; repeat eexists. }
  exists ws. do 2 eexists. split; [exact V |]. split; [| split; [reflexivity |]; split; [reflexivity | lra]].
  apply (validate_warns _ _ _ _ _ _ V). eexists. split; [left; reflexivity |]. exists 0%nat. do 2 eexists. split; [reflexivity |]. split; [reflexivity |].
  pose proof PI2_3_2. rewrite Rabs_pos_eq; lra.
Qed.
(** the hypotheses of [rephase_values] are met *)
Example rephase_ex : let ds := [du Unprojected [1; 2]%Z 0 (fun _ => C1); du Unprojected [1; 2]%Z PI (fun _ => Ci)] in
  exists ws, validate 2 2 2 ds = Ok ws /\ dset_idx ["a"; "b"]%string (KS "b") = Ok 1%Z /\ item_at ds 1 (du Unprojected [1; 2]%Z PI (fun _ => Ci)).
Proof.
  cbn zeta. destruct (valid_du (du Unprojected [1; 2]%Z 0 (fun _ => C1)) [du Unprojected [1; 2]%Z PI (fun _ => Ci)]) as [ws V]. { cbn. intros d [<- | [<- | []]]; repeat eexists. }
  exists ws. split; [exact V |]. split; [reflexivity|]. exists 1%nat. split; [reflexivity|left; reflexivity].
Qed.
Print Assumptions blkey_spellings. Print Assumptions blkey_parts. Print Assumptions blkey_label. Print Assumptions blkey_errors. Print Assumptions blkey_unchecked_refuted.
Print Assumptions validate_accepts. Print Assumptions validate_warns. Print Assumptions validate_pairwise_refuted. Print Assumptions validate_wrap_refuted.
Print Assumptions rephase_values. Print Assumptions rephase_amplitudes. Print Assumptions rephase_skips_refuted. Print Assumptions rephase_twice_refuted.
Print Assumptions rephase_pol_order_refuted. Print Assumptions rephase_failure_refuted.

(** where the data go, for any order of the polarizations: the slot the polarization has in the anchor *)
Lemma insert_pols_slots {B} anchor (new : B -> nat -> nat -> nat -> C) : forall ps k acc x, NoDup ps -> insert_pols anchor new ps k acc = Ok x ->
  (forall i p j, nth_error ps i = Some p -> index_z p anchor = Some j -> forall b t f, x b t f j = new b t f (k + i)%nat) /\
  (forall j, (forall p, In p ps -> index_z p anchor <> Some j) -> forall b t f, x b t f j = acc b t f j).
Proof.
  induction ps as [| p ps IH]; intros k acc x ND H; cbn in H.
  - injection H as <-. split; [intros i; destruct i; discriminate | reflexivity].
  - inversion ND as [| ? ? N1 N2]; subst. destruct (index_z p anchor) as [j0 |] eqn:E; [| discriminate]. destruct (IH _ _ _ N2 H) as [H1 H2]. split.
    + intros [| i] q j Hq Hj b t f; cbn in Hq.
      * injection Hq as ->. rewrite Hj in E. injection E as <-. rewrite H2.
        -- rewrite Nat.eqb_refl, Nat.add_0_r. reflexivity.
        -- intros r Hr Er. assert (r = q); [| subst; contradiction].
           assert (G : forall l a n, index_z a l = Some n -> nth_error l n = Some a).
           { induction l as [| z l IHl]; intros a n Ha; cbn in Ha; [discriminate |]. destruct (Z.eqb_spec a z); [injection Ha as <-; subst; reflexivity |]. destruct (index_z a l) as [m |] eqn:Em; [| discriminate]. injection Ha as <-. cbn. apply IHl, Em. }
           apply G in Er, Hj. congruence.
      * rewrite (H1 i q j Hq Hj). f_equal. lia.
    + intros j Hj b t f. rewrite H2 by (intros q Hq; apply Hj; right; exact Hq). destruct (Nat.eqb_spec j j0) as [-> | _]; [exfalso; exact (Hj p (or_introl eq_refl) E) | reflexivity].
Qed.
Theorem rephase_pol_slots :
  forall (B : Type) (ang : B -> nat -> R -> R) labels dset k ds ds' a, rephase_to_dset ang labels dset true ds = (ds', Ok None) -> dset_idx labels dset = Ok k -> item_at ds k a -> NoDup (u_tlst a) -> NoDup (u_pols a) ->
  forall m d d', Z.of_nat m <> k -> nth_error ds m = Some d -> nth_error ds' m = Some d' -> NoDup (u_pols d) ->
    u_pols d' = u_pols d /\
    forall i j p, nth_error (u_pols d) i = Some p -> nth_error (u_pols a) j = Some p -> forall b t f,
      u_data d' b t f j = Cmul (u_data d b t f i) (Cexpi (ang b f (nth t (u_tlst a) 0 - nth t (u_tlst d) 0))).
Proof.
  intros B ang labels dset k ds ds' a H D P N1 N2. apply pynth_item in P. unfold rephase_to_dset in H. destruct (validate _ _ _ ds) as [ws |]; [| discriminate]. rewrite D, P in H. rewrite nodupR_id in H by auto.
  destruct (rephase_loop ang (u_tlst a) (u_pols a) k 0 ds) as [r e] eqn:E. injection H as -> He. destruct e as [e |]; [discriminate |]. clear He.
  assert (G : forall l i r, rephase_loop ang (u_tlst a) (u_pols a) k i l = (r, None) -> forall m d d', (i + Z.of_nat m)%Z <> k -> nth_error l m = Some d -> nth_error r m = Some d' -> rephase_one ang (u_tlst a) (u_pols a) d = Ok d').
  { clear. induction l as [| x l IH]; intros i r H m d d' Hm Hd Hd'; [destruct m; discriminate |]. cbn in H. destruct (Z.eqb_spec i k) as [Q | Q].
    - destruct (rephase_loop ang (u_tlst a) (u_pols a) k (i + 1) l) as [r0 e0] eqn:E0. injection H as <- ->. destruct m as [| m]; [cbn in Hm; lia |]. cbn in Hd, Hd'. refine (IH _ _ E0 m d d' _ Hd Hd'). lia.
    - destruct (rephase_one ang (u_tlst a) (u_pols a) x) as [x' | e1] eqn:E1; [| discriminate]. destruct (rephase_loop ang (u_tlst a) (u_pols a) k (i + 1) l) as [r0 e0] eqn:E0. injection H as <- ->.
      destruct m as [| m]; [cbn in Hd, Hd'; congruence |]. cbn in Hd, Hd'. refine (IH _ _ E0 m d d' _ Hd Hd'). lia. }
  intros m d d' Hm Hd Hd' ND. specialize (G ds 0%Z ds' E m d d' Hm Hd Hd'). unfold rephase_one, require in G. destruct (Nat.eqb _ _); [| discriminate].
  destruct (insert_pols (u_pols a) (rephased ang (u_tlst a) d) (u_pols d) 0 (u_data d)) as [x |] eqn:Ex; [| discriminate]. cbn in G. injection G as <-. split; [reflexivity |].
  intros i j p Hi Hj b t f. destruct (insert_pols_slots _ _ _ _ _ _ ND Ex) as [S _]. cbn. rewrite (S i p j Hi (index_z_nth _ N2 j p Hj)). reflexivity.
Qed.
Print Assumptions rephase_pol_slots.
Example rephase_pol_slots_case : exists ds', rephase_to_dset ang1 ["a"; "b"]%string (KI 0) true [du Unprojected [1; 2]%Z 0 (fun _ => C1); du Unprojected [2; 1]%Z PI (fun _ => C1)] = (ds', Ok None).
Proof.
  destruct (run1 Unprojected [1; 2]%Z [2; 1]%Z (fun _ => C1) (fun _ => C1)) as (x & Ex & E); [discriminate |]. cbn in Ex. subst x. cbn -[du rephased] in E. eexists. exact E.
Qed.
