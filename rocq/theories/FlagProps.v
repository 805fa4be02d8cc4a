(** C36, C70: broadcasting of flags. *)
From Coq Require Import Permutation.
From Verif Require Import Prelude ListLemmas CombineModel CombineProofs FlagModel.
Open Scope Z_scope.

Lemma memn_spec x l : memn x l = true <-> In x l.
Proof. unfold memn. rewrite existsb_exists. split; [intros (y & H & E); apply Nat.eqb_eq in E; subst; assumption | intros H; exists x; split; [assumption | apply Nat.eqb_refl]]. Qed.
Lemma bl_inds_spec bls bl r : In r (bl_inds bls bl) <-> nth_error bls r = Some bl.
Proof.
  unfold bl_inds. rewrite where_spec, nth_error_map. destruct (nth_error bls r) as [b |]; cbn; [| split; discriminate].
  split; [intros [= E]; apply Z.eqb_eq in E; subst; reflexivity | intros [= ->]; rewrite Z.eqb_refl; reflexivity].
Qed.
Lemma ubl_spec bls b : In b (ubl bls) <-> In b bls.
Proof.
  unfold ubl, sorted_set. split; intros H.
  - apply (nodup_In Z.eq_dec). eapply Permutation_in; [apply (isort_perm Z.leb) | exact H].
  - eapply Permutation_in; [apply Permutation_sym, (isort_perm Z.leb) | apply nodup_In; assumption].
Qed.
Lemma ubl_nodup bls : NoDup (ubl bls).
Proof. unfold ubl, sorted_set. eapply Permutation_NoDup; [apply Permutation_sym, (isort_perm Z.leb) | apply NoDup_nodup]. Qed.

(** ** specification: what the documentation says, for one baseline and polarization *)
Section Spec.
Variables (nf : nat) (num : Z) (den : positive) (rs : list nat) (fl : nat -> nat -> bool).
(** an integration that is flagged in (practically) all channels *)
Definition all_flagged (r : nat) : Prop := 1000000 * count (fl r) (seq 0 nf) > 999999 * Z.of_nat nf.
(** the channel's fraction of flagged times, among the other integrations, exceeds the threshold *)
Definition bad_channel (f : nat) : Prop :=
  exists l, (forall r, In r l <-> In r rs /\ ~ all_flagged r) /\ NoDup l /\ l <> [] /\
            count (fun r => fl r f) l * Z.pos den > num * Z.of_nat (length l).
(** an integration with a flag in another channel of the window *)
Definition bad_time (a b r : nat) : Prop := exists f, (a <= f < b)%nat /\ (f < nf)%nat /\ fl r f = true /\ ~ bad_channel f.

Lemma contig_spec r : contig nf fl r = true <-> all_flagged r.
Proof. unfold contig, all_flagged. rewrite Z.ltb_lt. lia. Qed.
Lemma filter_len_perm {A} (p : A -> bool) l l' : Permutation l l' -> length (filter p l) = length (filter p l').
Proof. induction 1; cbn; try destruct (p _); cbn; try destruct (p _); cbn; congruence. Qed.
Lemma exceeds_spec (Hnd : NoDup rs) f : exceeds nf num den rs fl f = true <-> bad_channel f.
Proof.
  unfold exceeds. set (nc := filter _ rs).
  assert (Hnc : forall r, In r nc <-> In r rs /\ ~ all_flagged r).
  { intros r. unfold nc. rewrite filter_In, Bool.negb_true_iff. rewrite <- contig_spec. destruct (contig nf fl r); intuition congruence. }
  rewrite Bool.andb_true_iff, !Z.ltb_lt. split.
  - intros [H1 H2]. exists nc. repeat split; try apply Hnc; auto; try lia.
    + apply NoDup_filter, Hnd.
    + intros E. rewrite E in H1. cbn in H1. lia.
  - intros (l & Hl & Hd & Hne & Hc).
    assert (P : Permutation l nc).
    { apply NoDup_Permutation; [assumption | apply NoDup_filter, Hnd |]. intros r. rewrite Hl, Hnc. reflexivity. }
    unfold count in *. rewrite (filter_len_perm _ _ _ P), (Permutation_length P) in Hc. split; [| lia].
    apply Permutation_length in P. destruct l; [congruence |]. cbn in P. lia.
Qed.
End Spec.

(** congruence: only the rows of the baseline matter *)
Lemma filter_ext_In' {A} (p q : A -> bool) l : (forall x, In x l -> p x = q x) -> filter p l = filter q l.
Proof. induction l; cbn; intros H; [reflexivity |]. rewrite (H a) by auto. rewrite IHl by auto. reflexivity. Qed.
Lemma exceeds_ext nf num den rs fl fl' f : (forall r g, In r rs -> fl r g = fl' r g) ->
  exceeds nf num den rs fl f = exceeds nf num den rs fl' f.
Proof.
  intros H. unfold exceeds.
  assert (E : filter (fun r => negb (contig nf fl r)) rs = filter (fun r => negb (contig nf fl' r)) rs).
  { apply filter_ext_In'. intros r Hr. unfold contig, count. f_equal. f_equal. f_equal. f_equal. f_equal. apply filter_ext_In'. intros; apply H; assumption. }
  rewrite E. f_equal. f_equal. f_equal. unfold count. f_equal. f_equal. apply filter_ext_In'. intros r Hr. apply filter_In in Hr. apply H. tauto.
Qed.

(** the new flag of row r, channel f, polarization j *)
Definition newflag (d : fdset) (spw : nat * nat) num den (fl : flags3) (r f j : nat) (bl : Z) : bool :=
  let rs := bl_inds (fbls d) bl in
  let ex := exceeds (fnf d) num den rs (fun r f => fl r f j) in
  let win := filter (fun f => Nat.ltb f (fnf d)) (seq (fst spw) (snd spw - fst spw)) in
  fl r f j || (Nat.ltb f (fnf d) && ex f) || (memn f win && existsb (fun g => if ex g then false else fl r g j) win).

Lemma bcast_bl_spec d spw num den bl i fl fl' :
  bcast_bl (fnf d) spw num den (bl_inds (fbls d) bl) i fl = Ok fl' ->
  forall r f j, fl' r f j = if Nat.eqb j i && memn r (bl_inds (fbls d) bl) then newflag d spw num den fl r f j bl else fl r f j.
Proof.
  unfold bcast_bl. intros H. apply require_ok in H. destruct H as [_ H]. injection H as <-. intros r f j. unfold newflag.
  destruct (Nat.eqb_spec j i) as [-> |]; [| reflexivity]. cbn [andb].
  destruct (memn r _); [| reflexivity]. cbn [andb].
  set (ex := exceeds _ _ _ _ _). set (win := filter _ _).
  rewrite (Bool.andb_comm (memn f win)). destruct (existsb _ win && memn f win); [rewrite Bool.orb_true_r; reflexivity |].
  rewrite Bool.orb_false_r. destruct (Nat.ltb f (fnf d) && ex f); [rewrite Bool.orb_true_r | rewrite Bool.orb_false_r]; reflexivity.
Qed.

Definition mem_ib (i : nat) (b : Z) (l : list (nat * Z)) : bool := existsb (fun p => Nat.eqb i (fst p) && Z.eqb b (snd p)) l.
Lemma mem_ib_spec i b l : mem_ib i b l = true <-> In (i, b) l.
Proof.
  unfold mem_ib. rewrite existsb_exists. split.
  - intros ([x y] & H & E). cbn in E. apply Bool.andb_true_iff in E. destruct E as [E1 E2].
    apply Nat.eqb_eq in E1. apply Z.eqb_eq in E2. subst. assumption.
  - intros H. exists (i, b). split; [assumption |]. cbn. rewrite Nat.eqb_refl, Z.eqb_refl. reflexivity.
Qed.
Lemma bcast_all_spec d spw num den l : NoDup l -> forall fl fl',
  bcast_all d spw num den l fl = Ok fl' ->
  forall r f j bl, nth_error (fbls d) r = Some bl ->
    fl' r f j = if mem_ib j bl l then newflag d spw num den fl r f j bl else fl r f j.
Proof.
  induction 1 as [| [i b] l Hnin Hnd IH]; intros fl fl' H r f j bl Hr.
  - cbn in H. injection H as <-. reflexivity.
  - cbn [bcast_all] in H. apply bind_ok in H. destruct H as (fl1 & H1 & H2).
    pose proof (bcast_bl_spec _ _ _ _ _ _ _ _ H1) as S1.
    pose proof (IH _ _ H2 r f j bl Hr) as S2. rewrite S2. clear S2.
    cbn [mem_ib existsb fst snd]. fold (mem_ib j bl l).
    assert (Hm : forall r' bl', nth_error (fbls d) r' = Some bl' -> memn r' (bl_inds (fbls d) b) = Z.eqb bl' b).
    { intros r' bl' Hr'. apply Bool.eq_iff_eq_true. rewrite memn_spec, bl_inds_spec, Hr', Z.eqb_eq. split; congruence. }
    destruct (mem_ib j bl l) eqn:Em.
    + assert (Hne : Nat.eqb j i && Z.eqb bl b = false).
      { apply Bool.not_true_iff_false. intros E. apply Bool.andb_true_iff in E. destruct E as [E1 E2].
        apply Nat.eqb_eq in E1. apply Z.eqb_eq in E2. subst. apply mem_ib_spec in Em. contradiction. }
      rewrite Bool.orb_true_r.
      assert (K : forall r' g, In r' (bl_inds (fbls d) bl) -> fl1 r' g j = fl r' g j).
      { intros r' g Hin. apply bl_inds_spec in Hin. rewrite S1, (Hm _ _ Hin), Hne. reflexivity. }
      unfold newflag. rewrite K by (apply bl_inds_spec; assumption).
      assert (EX : forall g, exceeds (fnf d) num den (bl_inds (fbls d) bl) (fun r0 f0 => fl1 r0 f0 j) g
                           = exceeds (fnf d) num den (bl_inds (fbls d) bl) (fun r0 f0 => fl r0 f0 j) g).
      { intros g. apply exceeds_ext. intros; apply K; assumption. }
      rewrite EX. f_equal. f_equal. 
      set (win := filter _ _). clearbody win. induction win as [| w win IHw]; [reflexivity |]. cbn [existsb]. rewrite IHw, EX.
      rewrite K by (apply bl_inds_spec; assumption). reflexivity.
    + rewrite Bool.orb_false_r, S1, (Hm _ _ Hr). destruct (Z.eqb_spec bl b) as [-> |]; [| rewrite !Bool.andb_false_r]; reflexivity.
Qed.

Lemma pol_bls_spec d i b : In (i, b) (pol_bls d) <-> (i < fnp d)%nat /\ In b (fbls d).
Proof. unfold pol_bls. rewrite in_prod_iff, in_seq, ubl_spec. intuition lia. Qed.
Lemma NoDup_prod {A B} (l : list A) (l' : list B) : NoDup l -> NoDup l' -> NoDup (list_prod l l').
Proof.
  intros H H'. induction H as [| x l Hx Hl IH]; cbn; [constructor |].
  assert (E : forall l1, NoDup l1 -> NoDup (map (fun y => (x, y)) l1 ++ list_prod l l')).
  { induction l1 as [| z l1 IH1]; cbn; intros G1; [assumption |]. inversion G1 as [| ? ? N1 N2]; subst. constructor; [| auto].
    rewrite in_app_iff. intros [N | N].
    - apply in_map_iff in N. destruct N as (y & [= ->] & Hy). contradiction.
    - apply in_prod_iff in N. tauto. }
  apply E. assumption.
Qed.
Lemma pol_bls_nodup d : NoDup (pol_bls d).
Proof. apply NoDup_prod; [apply seq_NoDup | apply ubl_nodup]. Qed.

Lemma do_spw_spec num den d spw d' :
  do_spw num den false d spw = Ok d' ->
  fbls d' = fbls d /\ fnf d' = fnf d /\ fnp d' = fnp d /\
  forall r f j bl, nth_error (fbls d) r = Some bl -> (j < fnp d)%nat ->
    fla d' r f j = newflag d spw num den (fla d) r f j bl.
Proof.
  unfold do_spw. intros H. apply bind_ok in H. destruct H as (fl & H1 & H2). injection H2 as <-. cbn. repeat split.
  intros r f j bl Hr Hj. rewrite (bcast_all_spec _ _ _ _ _ (pol_bls_nodup d) _ _ H1 r f j bl Hr).
  replace (mem_ib j bl (pol_bls d)) with true; [reflexivity |]. symmetry. apply mem_ib_spec, pol_bls_spec.
  split; [assumption |]. eapply nth_error_In. eassumption.
Qed.

(** the rows of one baseline *)
Definition row_of (d : fdset) (bl : Z) (r : nat) : Prop := nth_error (fbls d) r = Some bl.
Definition in_win (d : fdset) (spw : nat * nat) (f : nat) : Prop := (fst spw <= f < snd spw)%nat /\ (f < fnf d)%nat.

Lemma win_spec nf spw f : In f (filter (fun f => Nat.ltb f nf) (seq (fst spw) (snd spw - fst spw))) <-> (fst spw <= f < snd spw)%nat /\ (f < nf)%nat.
Proof. rewrite filter_In, in_seq, Nat.ltb_lt. intuition lia. Qed.

(** One window, in the words of the documentation: a flag is set afterwards iff it was set before, or its channel
    exceeds the threshold, or it lies in the window and its integration has a flag in another channel of the window. *)
Theorem broadcast_one_window :
  forall num den d spw d',
    do_spws num den false [spw] d = Ok d' ->
    forall bl r f j, row_of d bl r -> (j < fnp d)%nat -> (f < fnf d)%nat ->
      let wf := fun r f => fla d r f j in
      fla d' r f j = true <->
      fla d r f j = true \/ bad_channel (fnf d) num den (bl_inds (fbls d) bl) wf f \/
      (in_win d spw f /\ bad_time (fnf d) num den (bl_inds (fbls d) bl) wf (fst spw) (snd spw) r).
Proof.
  intros num den d spw d' H bl r f j Hr Hj Hf wf. cbn in H. apply bind_ok in H. destruct H as (d1 & H & H'). injection H' as <-.
  destruct (do_spw_spec _ _ _ _ _ H) as (_ & _ & _ & E). rewrite (E r f j bl Hr Hj). unfold newflag.
  assert (ND : NoDup (bl_inds (fbls d) bl)) by (apply sorted_NoDup, where_sorted).
  assert (EX := fun f => exceeds_spec (fnf d) num den (bl_inds (fbls d) bl) wf ND f). fold wf.
  rewrite !Bool.orb_true_iff, !Bool.andb_true_iff, Nat.ltb_lt, EX, memn_spec, win_spec, existsb_exists.
  unfold in_win, bad_time. split.
  - intros [[A | A] | (A & g & G1 & G2)]; [tauto | tauto |]. right. right. split; [tauto |]. apply win_spec in G1.
    exists g. destruct (exceeds _ _ _ _ _ g) eqn:Eg; [discriminate |]. repeat split; try tauto. rewrite <- EX, Eg. discriminate.
  - intros [A | [A | (A & g & G1 & G2 & G3 & G4)]]; [tauto | tauto |]. right. split; [tauto |]. exists g. split; [apply win_spec; tauto |].
    rewrite <- EX in G4. fold wf in G4. destruct (exceeds _ _ _ _ _ g); [congruence | assumption].
Qed.

Lemma newflag_mono d spw num den fl r f j bl : fl r f j = true -> newflag d spw num den fl r f j bl = true.
Proof. intros H. unfold newflag. rewrite H. reflexivity. Qed.
Lemma do_spws_shape num den spws : forall d d', do_spws num den false spws d = Ok d' -> fbls d' = fbls d /\ fnf d' = fnf d /\ fnp d' = fnp d.
Proof.
  induction spws as [| s l IH]; cbn; intros d d' H.
  - injection H as <-. auto.
  - apply bind_ok in H. destruct H as (d1 & H1 & H2). destruct (IH _ _ H2) as (A & B & C). destruct (do_spw_spec _ _ _ _ _ H1) as (A' & B' & C' & _).
    repeat split; congruence.
Qed.

(** No flag is removed. *)
Theorem broadcast_only_adds :
  forall num den spws d d', do_spws num den false spws d = Ok d' ->
    forall r f j, (r < length (fbls d))%nat -> (j < fnp d)%nat -> fla d r f j = true -> fla d' r f j = true.
Proof.
  intros num den spws. induction spws as [| s l IH]; cbn; intros d d' H r f j Hr Hj E.
  - injection H as <-. assumption.
  - apply bind_ok in H. destruct H as (d1 & H1 & H2). destruct (do_spw_spec _ _ _ _ _ H1) as (A & B & C & D).
    apply (IH _ _ H2); [rewrite A; assumption | rewrite C; assumption |].
    destruct (nth_error (fbls d) r) as [bl |] eqn:Er; [| apply nth_error_None in Er; lia].
    rewrite (D r f j bl Er Hj). apply newflag_mono. assumption.
Qed.

(** The whole-channel part of an update: it sets a channel for all rows of the baseline or for none. *)
Lemma newflag_outside d spw num den fl r f j bl : ~ in_win d spw f ->
  newflag d spw num den fl r f j bl = fl r f j || (Nat.ltb f (fnf d) && exceeds (fnf d) num den (bl_inds (fbls d) bl) (fun r f => fl r f j) f).
Proof.
  intros H. unfold newflag. destruct (memn f _) eqn:E; [| rewrite Bool.orb_false_r; reflexivity].
  apply memn_spec, win_spec in E. contradiction.
Qed.

(** Afterwards the flags of every baseline and polarization factor, in every selected window, into a set of
    channels and a set of times (the windows may come in any order but must not overlap). *)
Definition disjoint (s s' : nat * nat) : Prop := forall f, ~ ((fst s <= f < snd s)%nat /\ (fst s' <= f < snd s')%nat).
Fixpoint pairwise {A} (R : A -> A -> Prop) (l : list A) : Prop :=
  match l with [] => True | x :: l' => (forall y, In y l' -> R x y) /\ pairwise R l' end.
Definition separable (d : fdset) (spw : nat * nat) (bl : Z) (j : nat) : Prop :=
  exists F T : nat -> bool, forall r f, row_of d bl r -> in_win d spw f -> fla d r f j = F f || T r.

Lemma separable_kept num den s bl j : forall spws d d', (j < fnp d)%nat -> (forall s', In s' spws -> disjoint s s') ->
  separable d s bl j -> do_spws num den false spws d = Ok d' -> separable d' s bl j.
Proof.
  induction spws as [| s1 l IH]; cbn; intros d d' Hj HD HS H.
  - injection H as <-. assumption.
  - apply bind_ok in H. destruct H as (d1 & H1 & H2). destruct (do_spw_spec _ _ _ _ _ H1) as (A & B & C & D).
    apply (IH d1 d'); [rewrite C; assumption | intros; apply HD; auto | | assumption].
    destruct HS as (F & T & HS).
    exists (fun f => F f || (Nat.ltb f (fnf d) && exceeds (fnf d) num den (bl_inds (fbls d) bl) (fun r f => fla d r f j) f)), T.
    intros r f Hr Hf. unfold row_of in Hr. rewrite A in Hr. unfold in_win in Hf. rewrite B in Hf.
    rewrite (D r f j bl Hr Hj), newflag_outside.
    + rewrite (HS r f Hr Hf). destruct (F f), (T r); cbn; rewrite ?Bool.orb_true_r, ?Bool.orb_false_r; reflexivity.
    + intros [W _]. apply (HD s1 (or_introl eq_refl) f). split; [apply Hf | exact W].
Qed.
Theorem broadcast_separable :
  forall num den spws d d', do_spws num den false spws d = Ok d' -> pairwise disjoint spws ->
    forall spw bl j, In spw spws -> (j < fnp d)%nat -> separable d' spw bl j.
Proof.
  intros num den spws. induction spws as [| s l IH]; cbn; intros d d' H HDP spw bl j Hin Hj; [contradiction |]. destruct HDP as [HD HP].
  apply bind_ok in H. destruct H as (d1 & H1 & H2). destruct (do_spw_spec _ _ _ _ _ H1) as (A & B & C & D).
  destruct Hin as [<- | Hin]; [| apply (IH d1 d' H2 HP spw bl j Hin); rewrite C; assumption].
  apply (separable_kept num den s bl j l d1 d'); [rewrite C; assumption | assumption | | assumption].
  set (ex := exceeds (fnf d) num den (bl_inds (fbls d) bl) (fun r f => fla d r f j)).
  exists ex, (fun r => existsb (fun g => if ex g then false else fla d r g j) (filter (fun f => Nat.ltb f (fnf d)) (seq (fst s) (snd s - fst s)))).
  intros r f Hr Hf. unfold row_of in Hr. rewrite A in Hr. unfold in_win in Hf. rewrite B in Hf.
  rewrite (D r f j bl Hr Hj). unfold newflag. fold ex. set (win := filter _ _).
  assert (W : In f win) by (apply win_spec; assumption).
  replace (memn f win) with true by (symmetry; apply memn_spec; assumption).
  replace (Nat.ltb f (fnf d)) with true by (symmetry; apply Nat.ltb_lt; apply Hf). cbn [andb].
  destruct (ex f) eqn:Ef; [rewrite Bool.orb_true_r; reflexivity |]. rewrite Bool.orb_false_r. cbn [orb].
  destruct (fla d r f j) eqn:Ex; [| reflexivity]. cbn [orb]. symmetry. apply existsb_exists. exists f. rewrite Ef. auto.
Qed.

(** Outside the selected windows only whole channels are flagged. *)
Theorem broadcast_outside_windows_columns :
  forall num den spws d d', do_spws num den false spws d = Ok d' ->
    forall bl j f, (j < fnp d)%nat -> (forall s, In s spws -> ~ in_win d s f) ->
      (forall r, row_of d bl r -> fla d' r f j = fla d r f j) \/ (forall r, row_of d bl r -> fla d' r f j = true).
Proof.
  intros num den spws. induction spws as [| s l IH]; cbn; intros d d' H bl j f Hj Ho.
  - injection H as <-. left. reflexivity.
  - apply bind_ok in H. destruct H as (d1 & H1 & H2). destruct (do_spw_spec _ _ _ _ _ H1) as (A & B & C & D).
    assert (Ho1 : forall s, In s l -> ~ in_win d1 s f) by (intros s' Hs'; unfold in_win; rewrite B; apply Ho; auto).
    assert (Hj1 : (j < fnp d1)%nat) by (rewrite C; assumption).
    destruct (IH d1 d' H2 bl j f Hj1 Ho1) as [K | K]; unfold row_of in *; rewrite A in K; [| right; assumption].
    destruct (Nat.ltb f (fnf d) && exceeds (fnf d) num den (bl_inds (fbls d) bl) (fun r f => fla d r f j) f) eqn:E.
    + right. intros r Hr. rewrite (K r Hr), (D r f j bl Hr Hj), newflag_outside by (apply Ho; auto). rewrite E. apply Bool.orb_true_r.
    + left. intros r Hr. rewrite (K r Hr), (D r f j bl Hr Hj), newflag_outside by (apply Ho; auto). rewrite E. apply Bool.orb_false_r.
Qed.

(** The claim that nothing changes outside the windows is false: a channel outside is flagged for all times. *)
Definition ex_dset : fdset := mkfd [7; 7; 7; 9] 4 1 (fun r f _ => Nat.eqb f 3 && Nat.ltb r 2).
Theorem broadcast_outside_windows_refuted :
  exists num den spws d d' r f,
    do_spws num den false spws d = Ok d' /\ (r < length (fbls d))%nat /\ (f < fnf d)%nat /\
    (forall s, In s spws -> ~ in_win d s f) /\ fla d r f 0%nat = false /\ fla d' r f 0%nat = true.
Proof.
  exists 1, 5%positive, [(0, 2)%nat], ex_dset. eexists. exists 2%nat, 3%nat. split; [reflexivity |].
  split; [cbn; lia |]. split; [cbn; lia |]. split; [| split; reflexivity].
  intros s [<- | []] [W _]. cbn in W. lia.
Qed.

(** unflag=True: exactly the flags of the windows are cleared. *)
Theorem broadcast_unflag :
  forall num den spws d, exists d',
    do_spws num den true spws d = Ok d' /\
    forall r f j, (r < length (fbls d))%nat -> (j < fnp d)%nat ->
      ((exists s, In s spws /\ in_win d s f) -> fla d' r f j = false) /\
      ((forall s, In s spws -> ~ in_win d s f) -> fla d' r f j = fla d r f j).
Proof.
  intros num den spws. induction spws as [| s l IH]; intros d.
  - exists d. split; [reflexivity |]. intros r f j Hr Hj. split; [intros (s & [] & _) | reflexivity].
  - destruct (IH (unflag_spw d s)) as (d' & E & K). exists d'. split; [exact E |]. intros r f j Hr Hj.
    destruct (K r f j Hr Hj) as [K1 K2]. clear K E.
    assert (V : forall x, in_win (unflag_spw d s) x f <-> in_win d x f) by (intros; reflexivity).
    assert (U : fla (unflag_spw d s) r f j = if Nat.leb (fst s) f && Nat.ltb f (snd s) && Nat.ltb f (fnf d) then false else fla d r f j).
    { unfold unflag_spw. cbn [fla]. apply Nat.ltb_lt in Hr, Hj. rewrite Hr, Hj. cbn [andb]. rewrite Bool.andb_true_r. reflexivity. }
    assert (DW : (exists x, In x l /\ in_win d x f) \/ (forall x, In x l -> ~ in_win d x f)).
    { clear -l. induction l as [| x l IHl]; [right; intros ? [] |].
      destruct IHl as [(y & Hy & W) | N]; [left; exists y; split; [right; assumption | assumption] |].
      destruct (Nat.leb (fst x) f && Nat.ltb f (snd x) && Nat.ltb f (fnf d)) eqn:E.
      - left. exists x. split; [left; reflexivity |]. rewrite !Bool.andb_true_iff, Nat.leb_le, !Nat.ltb_lt in E. unfold in_win. lia.
      - right. intros y [<- | Hy]; [| auto]. intros W. apply Bool.not_true_iff_false in E. apply E.
        rewrite !Bool.andb_true_iff, Nat.leb_le, !Nat.ltb_lt. unfold in_win in W. lia. }
    split.
    + intros (x & [<- | Hx] & W).
      * destruct DW as [DW | DW]; [apply K1; destruct DW as (y & ? & ?); exists y; split; [assumption | apply V; assumption] |].
        rewrite K2 by (intros y Hy; rewrite V; apply DW; assumption). rewrite U.
        replace (Nat.leb (fst s) f && Nat.ltb f (snd s) && Nat.ltb f (fnf d)) with true; [reflexivity |]. symmetry.
        rewrite !Bool.andb_true_iff, Nat.leb_le, !Nat.ltb_lt. unfold in_win in W. lia.
      * apply K1. exists x. split; [assumption | apply V; assumption].
    + intros N. rewrite K2 by (intros y Hy; rewrite V; apply N; right; assumption). rewrite U.
      destruct (Nat.leb (fst s) f && Nat.ltb f (snd s) && Nat.ltb f (fnf d)) eqn:E; [| reflexivity].
      exfalso. apply (N s (or_introl eq_refl)). rewrite !Bool.andb_true_iff, Nat.leb_le, !Nat.ltb_lt in E. unfold in_win. lia.
Qed.

(** Every dataset is treated alike and independently, and the shapes are kept. *)
Theorem broadcast_every_dataset :
  forall spws num den unflag ds ds',
    broadcast_dset_flags (Some spws) num den unflag ds = Ok ds' ->
    Forall2 (fun d d' => do_spws num den unflag spws d = Ok d') ds ds'.
Proof. intros. apply map_res_spec. assumption. Qed.

(** Without [unflag] every window must contain a channel of the data, and that is enough. *)
Theorem broadcast_accepts : forall num den spws d, (0 < fnp d)%nat -> fbls d <> [] ->
  ((exists d', do_spws num den false spws d = Ok d') <-> forall s, In s spws -> exists f, (fst s <= f < snd s)%nat /\ (f < fnf d)%nat).
Proof.
  intros num den.
  assert (W : forall nf spw, match filter (fun f => Nat.ltb f nf) (seq (fst spw) (snd spw - fst spw)) with [] => false | _ => true end = true <-> exists f, (fst spw <= f < snd spw)%nat /\ (f < nf)%nat).
  { intros nf spw. destruct (filter _ _) as [|f l] eqn:E.
    - split; [discriminate|]. intros (f & Hf). apply win_spec in Hf. rewrite E in Hf. destruct Hf.
    - split; [|reflexivity]. intros _. exists f. apply (proj1 (win_spec nf spw f)). rewrite E. left; reflexivity. }
  assert (B : forall d spw l fl, l <> [] -> (exists fl', bcast_all d spw num den l fl = Ok fl') <-> exists f, (fst spw <= f < snd spw)%nat /\ (f < fnf d)%nat).
  { intros d spw l fl Nl. split.
    - intros (fl' & H). destruct l as [|[i b] l]; [congruence|]. cbn in H. apply bind_ok in H. destruct H as (fl1 & H1 & _). unfold bcast_bl in H1. apply (W (fnf d) spw). unfold require in H1. destruct (match filter _ _ with [] => false | _ => true end); [reflexivity|discriminate].
    - intros E. apply W in E. clear Nl. revert fl. induction l as [|[i b] l IH]; intros fl; [eexists; reflexivity|]. cbn. unfold bcast_bl. rewrite E. cbn. apply IH. }
  induction spws as [|s l IH]; intros d Hp Hb; [split; [intros _ s []|eexists; reflexivity]|]. cbn [do_spws].
  assert (Nl : pol_bls d <> []). { destruct (fbls d) as [|b bs] eqn:Eb; [congruence|]. intros N. assert (I : In (0%nat, b) (pol_bls d)) by (apply pol_bls_spec; rewrite Eb; split; [exact Hp|left; reflexivity]). rewrite N in I. destruct I. }
  split.
  - intros (d' & H). apply bind_ok in H. destruct H as (d1 & H1 & H2). destruct (do_spw_spec _ _ _ _ _ H1) as (A1 & A2 & A3 & _).
    intros x [<-|Hx].
    + unfold do_spw in H1. apply bind_ok in H1. destruct H1 as (fl & H1 & _). apply (B d s (pol_bls d) (fla d) Nl). eauto.
    + rewrite <- A2. apply (proj1 (IH d1 ltac:(rewrite A3; exact Hp) ltac:(rewrite A1; exact Hb))); [eauto|exact Hx].
  - intros H. destruct (proj2 (B d s (pol_bls d) (fla d) Nl) (H s (or_introl eq_refl))) as (fl & E). unfold do_spw. rewrite E. cbn [bind]. apply IH; [exact Hp|exact Hb|]. intros x Hx. apply (H x (or_intror Hx)).
Qed.
Print Assumptions broadcast_accepts.

(** A second call on the whole band changes nothing more. *)
Lemma filter_length_le {A} (p : A -> bool) l : (length (filter p l) <= length l)%nat.
Proof. induction l; cbn; [lia |]. destruct (p a); cbn; lia. Qed.
Lemma count_le p l : 0 <= count p l <= Z.of_nat (length l).
Proof. unfold count. pose proof (filter_length_le p l). lia. Qed.
Lemma count_all p l : (forall x, In x l -> p x = true) -> count p l = Z.of_nat (length l).
Proof. intros H. unfold count. f_equal. induction l; cbn; [reflexivity |]. rewrite (H a) by (left; reflexivity). cbn. rewrite IHl; [reflexivity |]. intros; apply H; right; assumption. Qed.
Lemma count_none p l : (forall x, In x l -> p x = false) -> count p l = 0.
Proof. intros H. unfold count. replace (filter p l) with (@nil nat); [reflexivity |]. symmetry. induction l; cbn; [reflexivity |]. rewrite (H a) by (left; reflexivity). apply IHl. intros; apply H; right; assumption. Qed.
Lemma count_full p l : count p l = Z.of_nat (length l) -> forall x, In x l -> p x = true.
Proof.
  unfold count. intros H. induction l as [| y l IH]; [intros x [] |]. cbn in H. pose proof (filter_length_le p l).
  destruct (p y) eqn:E; cbn in H; [| lia]. intros x [<- | Hx]; [assumption |]. apply IH; [lia | assumption].
Qed.
Theorem broadcast_idempotent :
  forall num den d d', 0 <= num -> num < Z.pos den -> Z.of_nat (fnf d) <= 1000000 ->
    do_spws num den false [(0%nat, fnf d)] d = Ok d' ->
    forall d'', do_spws num den false [(0%nat, fnf d')] d' = Ok d'' ->
    forall r f j, (r < length (fbls d))%nat -> (j < fnp d)%nat -> (f < fnf d)%nat -> fla d'' r f j = fla d' r f j.
Proof.
  intros num den d d' Hn Hd Hnf H d'' H' r f j Hr Hj Hf. pose proof H as H0.
  assert (SEP : separable d' (0%nat, fnf d) (nth r (fbls d) 0) j).
  { apply (broadcast_separable _ _ _ _ _ H); [split; [intros y Hy; destruct Hy | exact I] | left; reflexivity | assumption]. }
  destruct SEP as (F & T & SEP).
  cbn in H, H'. apply bind_ok in H. destruct H as (d1 & H & E). injection E as ->. apply bind_ok in H'. destruct H' as (d2 & H' & E). injection E as ->.
  destruct (do_spw_spec _ _ _ _ _ H) as (A & B & C & _). destruct (do_spw_spec _ _ _ _ _ H') as (A' & B' & C' & D').
  destruct (nth_error (fbls d) r) as [bl |] eqn:Er; [| apply nth_error_None in Er; lia].
  assert (Ebl : nth r (fbls d) 0 = bl) by (apply nth_error_nth; assumption). rewrite Ebl in SEP.
  rewrite <- A in Er. rewrite (D' r f j bl Er) by (rewrite C; assumption). unfold newflag.
  set (rs := bl_inds (fbls d') bl). set (wf := fun r f => fla d' r f j). set (ex := exceeds (fnf d') num den rs wf). set (win := filter _ _).
  assert (SEP' : forall q g, In q rs -> (g < fnf d)%nat -> wf q g = F g || T q).
  { intros q g Hq Hg. apply SEP; [apply bl_inds_spec; assumption |]. split; cbn; lia. }
  assert (Rr : In r rs) by (apply bl_inds_spec; assumption).
  (* a row with T set is flagged throughout *)
  assert (CT : forall q, In q rs -> T q = true -> contig (fnf d') wf q = true).
  { intros q Hq HT. unfold contig. rewrite count_all.
    - rewrite seq_length, B. apply Z.ltb_lt. assert (0 < fnf d)%nat by lia. lia.
    - intros g Hg. apply in_seq in Hg. rewrite B in Hg. rewrite SEP' by (auto; lia). rewrite HT. apply Bool.orb_true_r. }
  assert (EXF : forall g, (g < fnf d)%nat -> ex g = true -> F g = true).
  { intros g Hg He. unfold ex, exceeds in He. set (nc := filter _ rs) in He. apply Bool.andb_true_iff in He. destruct He as [E1 E2].
    apply Z.ltb_lt in E1, E2. destruct (F g) eqn:EF; [reflexivity |]. exfalso.
    rewrite (count_none (fun r0 => wf r0 g) nc) in E2; [nia |]. intros q Hq. apply filter_In in Hq. destruct Hq as [Hq Hc].
    rewrite SEP' by assumption. rewrite EF. cbn. destruct (T q) eqn:ET; [| reflexivity]. rewrite (CT q Hq ET) in Hc. discriminate. }
  destruct (wf r f) eqn:Ew; fold (wf r f); rewrite Ew; [reflexivity |]. cbn [orb].
  destruct (ex f) eqn:Ef.
  { rewrite SEP' in Ew by assumption. rewrite (EXF f Hf Ef) in Ew. discriminate. }
  rewrite Bool.andb_false_r. cbn [orb]. apply Bool.andb_false_intro2. apply Bool.not_true_iff_false. intros Hex.
  apply existsb_exists in Hex. destruct Hex as (g & Hg & Eg). unfold win in Hg. apply win_spec in Hg. rewrite B in Hg.
  destruct (ex g) eqn:Eeg; [discriminate |]. change (wf r g = true) in Eg.
  rewrite SEP' in Ew, Eg by (auto; lia). apply Bool.orb_false_iff in Ew. destruct Ew as [EF ET]. rewrite ET, Bool.orb_false_r in Eg.
  (* channel g is flagged in all rows, so it exceeds the threshold unless no integration is left *)
  unfold ex, exceeds in Eeg. set (nc := filter _ rs) in Eeg.
  assert (Hin : In r nc).
  { apply filter_In. split; [assumption |]. apply Bool.negb_true_iff. apply Bool.not_true_iff_false. intros Hc.
    unfold contig in Hc. apply Z.ltb_lt in Hc. pose proof (count_le (wf r) (seq 0 (fnf d'))) as L. rewrite seq_length in L.
    assert (count (wf r) (seq 0 (fnf d')) = Z.of_nat (length (seq 0 (fnf d')))) by (rewrite seq_length; lia).
    pose proof (count_full _ _ H1 f ltac:(apply in_seq; lia)) as Z. rewrite SEP' in Z by assumption. rewrite EF, ET in Z. discriminate. }
  assert (L : 0 < Z.of_nat (length nc)) by (destruct nc; [destruct Hin | cbn; lia]).
  apply Z.ltb_lt in L. rewrite L in Eeg. cbn [andb] in Eeg. apply Z.ltb_ge in Eeg. apply Z.ltb_lt in L.
  rewrite (count_all (fun r0 => wf r0 g) nc) in Eeg; [nia |].
  intros q Hq. apply filter_In in Hq. rewrite SEP' by (try tauto; lia). rewrite Eg. reflexivity.
Qed.

(** an example: two windows, three times of baseline 7, one of baseline 9; threshold 1/2. Channel 1 is flagged in
    two of three times and is flagged throughout; channel 2 is flagged once, so that this time is flagged. *)
Definition ex2 : fdset := mkfd [7; 9; 7; 7] 4 1 (fun r f _ => (Nat.eqb f 1 && Nat.ltb r 3) || (Nat.eqb f 2 && Nat.eqb r 2)).
Example broadcast_example :
  exists d', do_spws 1 2 false [(0, 3); (3, 4)]%nat ex2 = Ok d' /\
    pairwise disjoint [(0, 3); (3, 4)]%nat /\
    map (fun r => map (fun f => fla d' r f 0%nat) (seq 0 4)) (seq 0 4)
    = [[false; true; false; false]; [false; true; false; false]; [true; true; true; false]; [false; true; false; false]].
Proof.
  eexists. split; [reflexivity |]. split; [| reflexivity]. split; [| split; [intros ? [] | exact I]].
  intros y [<- | []] f [W1 W2]. cbn in *. lia.
Qed.
Print Assumptions broadcast_one_window.
Print Assumptions broadcast_separable.
Print Assumptions broadcast_idempotent.

(** without windows: the whole band of the first dataset *)
Theorem broadcast_default_whole_band : forall num den unflag d ds,
  broadcast_dset_flags None num den unflag (d :: ds) = broadcast_dset_flags (Some [(0%nat, fnf d)]) num den unflag (d :: ds).
Proof. reflexivity. Qed.
