(** Properties C316-C318: laws of repeated selections and of selecting and folding. *)
From Coq Require Import QArith Qabs Sorted Permutation.
From Verif Require Import PyDict.
From Verif Require Import Prelude ListLemmas UvpModel UvpSpec UvpProofs SelectProofs SelectMain SelectTotal FoldModel FoldProofs LengthProofs LawModel LawProofs LawSelect LawFold UvpProps FoldProps.
Open Scope nat_scope.

Lemma orelse_none {A} (x y : option A) : orelse x y = None <-> x = None /\ y = None.
Proof. destruct x, y; cbn; split; intros; try tauto; try (destruct H; discriminate); discriminate. Qed.
Lemma at_once_conj a b : different_kinds a b -> conj_args a b (at_once a b).
Proof.
  intros (K1 & K2 & K3 & K4). constructor.
  - intros x t l. unfold row_ok, at_once. cbn.
    assert (RB : ((orelse (a_bls a) (a_bls b) = None /\ orelse (a_blpairs a) (a_blpairs b) = None) \/
       (exists bls, orelse (a_bls a) (a_bls b) = Some bls /\
         if (match a_bls a with Some _ => a_only_pairs_in_bls a | None => a_only_pairs_in_bls b end) then In (x / 1000000)%Z bls /\ In (x mod 1000000)%Z bls else In (x / 1000000)%Z bls \/ In (x mod 1000000)%Z bls) \/
       (exists bps, orelse (a_blpairs a) (a_blpairs b) = Some bps /\ In x bps)) <->
      ((a_bls a = None /\ a_blpairs a = None) \/ (exists bls, a_bls a = Some bls /\ if a_only_pairs_in_bls a then In (x / 1000000)%Z bls /\ In (x mod 1000000)%Z bls else In (x / 1000000)%Z bls \/ In (x mod 1000000)%Z bls) \/ (exists bps, a_blpairs a = Some bps /\ In x bps)) /\
      ((a_bls b = None /\ a_blpairs b = None) \/ (exists bls, a_bls b = Some bls /\ if a_only_pairs_in_bls b then In (x / 1000000)%Z bls /\ In (x mod 1000000)%Z bls else In (x / 1000000)%Z bls \/ In (x mod 1000000)%Z bls) \/ (exists bps, a_blpairs b = Some bps /\ In x bps))).
    { destruct K2 as [[-> ->]|[-> ->]]; cbn.
      - split; [intros H; split; [left; auto|exact H]|tauto].
      - split.
        + intros H. split; [|left; auto]. destruct H as [[H1 H2]|[[bls [H1 H2]]|[bps [H1 H2]]]].
          * left. apply orelse_none in H1, H2. tauto.
          * right. left. exists bls. destruct (a_bls a); cbn in H1; [split; assumption|discriminate].
          * right. right. exists bps. destruct (a_blpairs a); cbn in H1; [split; assumption|discriminate].
        + intros [H _]. destruct H as [[H1 H2]|[[bls [H1 H2]]|[bps [H1 H2]]]].
          * left. rewrite H1, H2. auto.
          * right. left. exists bls. rewrite H1. cbn. auto.
          * right. right. exists bps. rewrite H1. cbn. auto. }
    assert (RT : ((forall ts, orelse (a_times a) (a_times b) = Some ts -> exists t', In t' ts /\ close t t') /\ (forall ts, orelse (a_lsts a) (a_lsts b) = Some ts -> exists l', In l' ts /\ close l l')) <->
       ((forall ts, a_times a = Some ts -> exists t', In t' ts /\ close t t') /\ (forall ts, a_lsts a = Some ts -> exists l', In l' ts /\ close l l')) /\
       ((forall ts, a_times b = Some ts -> exists t', In t' ts /\ close t t') /\ (forall ts, a_lsts b = Some ts -> exists l', In l' ts /\ close l l'))).
    { destruct K3 as [[-> ->]|[-> ->]]; cbn; [|destruct (a_times a), (a_lsts a); cbn];
      (split; [intros [H1 H2]; repeat split; intros; try discriminate; auto|intros [[H1 H2] [H3 H4]]; split; intros; try discriminate; auto]). }
    split.
    + intros [H1 H2]. apply RB in H1. apply RT in H2. destruct H1 as [H1 H1'], H2 as [H2 H2']. exact (conj (conj H1 H2) (conj H1' H2')).
    + intros [[H1 H2] [H1' H2']]. split; [apply RB; exact (conj H1 H1')|apply RT; exact (conj H2 H2')].
  - intros p. unfold pol_ok, at_once. cbn. destruct K4 as [-> | ->]; cbn; [tauto|]. destruct (a_polpairs a); cbn; tauto.
  - cbn. destruct K1 as [E|E]; rewrite E; cbn; [right; auto|left; split; [reflexivity|]]. destruct (a_spws a); reflexivity.
  - unfold no_row_args, at_once. cbn. rewrite !orelse_none. tauto.
Qed.
Lemma conj_sym a b c : conj_args a b c -> conj_args b a c.
Proof.
  intros [H1 H2 H3 H4]. constructor.
  - intros x t l. rewrite H1. tauto.
  - intros p. rewrite H2. tauto.
  - tauto.
  - tauto.
Qed.

(** the single call succeeds only if both calls in a row do *)
Lemma once_gives_twice {X} (u u3 : uvp X) a b c : wf u -> conj_args a b c -> select u c = Ok u3 ->
  a_bls a <> Some [] -> a_blpairs a <> Some [] -> (a_times a = None \/ a_lsts a = None) -> (a_polpairs c = None -> a_polpairs a = None /\ a_polpairs b = None) ->
  a_bls b <> Some [] -> a_blpairs b <> Some [] -> (a_times b = None \/ a_lsts b = None) -> (forall spws, a_spws b = Some spws -> a_spws a = None) ->
  exists u1 u2, select u a = Ok u1 /\ select u1 b = Ok u2.
Proof.
  intros W C H A1 A2 A3 A4 B1 B2 B3 B4.
  assert (V : valid_args u c) by (apply select_ok_iff; eauto).
  assert (E1 : exists u1, select u a = Ok u1).
  { apply select_ok_iff; [exact W|]. constructor; try assumption.
    - intros spws E s Hs. apply (va_spws _ _ V spws); [|exact Hs]. destruct (ca_spw _ _ _ C) as [[_ Ec]|[Ea _]]; congruence.
    - destruct (va_row _ _ V) as [N|[i Hi]]; [left; apply (ca_none _ _ _ C); exact N|right; exists i].
      apply row_wanted_ok in Hi. apply row_wanted_ok. destruct Hi as (x & t & l & Q1 & Q2 & Q3 & Q4). exists x, t, l. apply (ca_row _ _ _ C) in Q4. tauto.
    - destruct (a_polpairs a) eqn:Qa; [right|left; reflexivity]. destruct (va_pols _ _ V) as [N|[k Hk]]; [apply A4 in N; destruct N; discriminate|].
      exists k. destruct Hk as (p & Hp & Hc). exists p. split; [exact Hp|]. apply (ca_pol _ _ _ C) in Hc. rewrite Qa. destruct Hc as [Hc _]. unfold pol_ok in Hc. rewrite Qa in Hc. exact Hc. }
  destruct E1 as [u1 E1]. exists u1. pose proof (select_wf u a u1 W E1) as W1. destruct (select_correct u a u1 W E1) as (R & P & S).
  assert (V1 : valid_args u a) by (apply select_ok_iff; eauto).
  pose proof (sp_rows _ _ _ _ _ S) as G.
  assert (E2 : exists u2, select u1 b = Ok u2).
  { apply select_ok_iff; [exact W1|]. constructor; try assumption.
    - intros spws E s Hs. pose proof (B4 spws E) as Ea. destruct (spec_nospw _ _ _ _ _ W S Ea) as [_ _ k3 _ k5 _]. rewrite k3, k5.
      apply (va_spws _ _ V spws); [|exact Hs]. destruct (ca_spw _ _ _ C) as [[Eb _]|[_ Ec]]; congruence.
    - destruct (va_row _ _ V) as [N|[i Hi]]; [left; apply (ca_none _ _ _ C); exact N|right].
      assert (HR : In i R).
      { apply (sp_R _ _ _ _ _ S). split; [eapply row_wanted_lt; exact Hi|]. apply row_wanted_ok in Hi. apply row_wanted_ok. destruct Hi as (x & t & l & Q1 & Q2 & Q3 & Q4). exists x, t, l. apply (ca_row _ _ _ C) in Q4. tauto. }
      apply In_nth_error in HR. destruct HR as [j Ej]. exists j. apply row_wanted_ok in Hi. apply row_wanted_ok. destruct Hi as (x & t & l & Q1 & Q2 & Q3 & Q4). exists x, t, l.
      rewrite (picks_nth _ _ _ j i (rp_bp _ _ _ G) Ej), (picks_nth _ _ _ j i (rp_ta _ _ _ G) Ej), (picks_nth _ _ _ j i (rp_la _ _ _ G) Ej). apply (ca_row _ _ _ C) in Q4. tauto.
    - destruct (a_polpairs b) eqn:Qb; [right|left; reflexivity]. destruct (va_pols _ _ V) as [N|[k Hk]]; [apply A4 in N; destruct N; congruence|].
      destruct Hk as (p & Hp & Hc). change (pol_ok c p) in Hc. apply (ca_pol _ _ _ C) in Hc. destruct Hc as [Hc1 Hc2].
      assert (HP : In k P) by (apply (sp_P _ _ _ _ _ S); exists p; split; assumption). apply In_nth_error in HP. destruct HP as [j Ej]. exists j, p.
      rewrite (picks_nth _ _ _ j k (sp_pols _ _ _ _ _ S) Ej). split; [exact Hp|]. exact Hc2. }
  destruct E2 as [u2 E2]. exists u2. split; assumption.
Qed.
Lemma select_nonempty {X} (u u' : uvp X) a : wf u -> select u a = Ok u' -> a_bls a <> Some [] /\ a_blpairs a <> Some [] /\ (a_times a = None \/ a_lsts a = None).
Proof. intros W H. assert (V : valid_args u a) by (apply select_ok_iff; eauto). destruct V. auto. Qed.

(** * C316 *)
(** two selections of different kinds in a row are the selection with both sets of arguments *)
Theorem select_twice_is_once : forall (X : Type) (u u1 u2 : uvp X) a b, wf u -> different_kinds a b ->
  select u a = Ok u1 -> select u1 b = Ok u2 ->
  exists u3, select u (at_once a b) = Ok u3 /\ same_object u2 u3.
Proof.
  intros X u u1 u2 a b W K H1 H2. pose proof (at_once_conj a b K) as C. pose proof (select_wf u a u1 W H1) as W1.
  destruct (select_nonempty u u1 a W H1) as (A1 & A2 & A3). destruct (select_nonempty u1 u2 b W1 H2) as (B1 & B2 & B3).
  destruct (comp_valid u u1 u2 a b (at_once a b) W C H1 H2) as [u3 H3].
  - cbn. destruct (a_bls a); cbn; assumption.
  - cbn. destruct (a_blpairs a); cbn; assumption.
  - cbn. destruct K as (_ & _ & K & _). destruct K as [[-> ->]|[-> ->]]; cbn; [exact B3|]. destruct (a_times a), (a_lsts a); cbn; tauto.
  - cbn. apply orelse_none.
  - exists u3. split; [exact H3|]. exact (two_is_one u u1 u2 u3 a b (at_once a b) W C H1 H2 H3).
Qed.
Print Assumptions select_twice_is_once.

(** and the other way round; hence nor does the order of the two selections matter *)
Theorem select_once_is_twice : forall (X : Type) (u u3 : uvp X) a b, wf u -> different_kinds a b ->
  select u (at_once a b) = Ok u3 ->
  exists u1 u2, select u a = Ok u1 /\ select u1 b = Ok u2 /\ same_object u2 u3.
Proof.
  intros X u u3 a b W K H. pose proof (at_once_conj a b K) as C. destruct (select_nonempty u u3 _ W H) as (A1 & A2 & A3). cbn in A1, A2, A3.
  pose proof K as (K1 & K2 & K3 & K4).
  assert (E : exists u1 u2, select u a = Ok u1 /\ select u1 b = Ok u2).
  { apply (once_gives_twice u u3 a b (at_once a b) W C H).
    - destruct (a_bls a); cbn in A1; [exact A1|discriminate].
    - destruct (a_blpairs a); cbn in A2; [exact A2|discriminate].
    - destruct (a_times a), (a_lsts a); cbn in A3; auto; destruct A3; discriminate.
    - cbn. intros Q. apply orelse_none. exact Q.
    - destruct K2 as [[E1 E2]|[E1 E2]]; [rewrite E1 in A1; exact A1|rewrite E1; discriminate].
    - destruct K2 as [[E1 E2]|[E1 E2]]; [rewrite E2 in A2; exact A2|rewrite E2; discriminate].
    - destruct K3 as [[E1 E2]|[E1 E2]]; [rewrite E1, E2 in A3; exact A3|left; exact E1].
    - intros spws E. destruct K1 as [K1|K1]; [exact K1|congruence]. }
  destruct E as (u1 & u2 & E1 & E2). exists u1, u2. split; [exact E1|]. split; [exact E2|]. exact (two_is_one u u1 u2 u3 a b (at_once a b) W C E1 E2 H).
Qed.
Print Assumptions select_once_is_twice.

Lemma same_object_sym {X} (u v : uvp X) : same_object u v -> same_object v u.
Proof.
  assert (SO : forall x y : option (list (nat * arr X)), same_opt x y -> same_opt y x) by (intros [|] [|]; cbn; auto; intros H s; symmetry; apply H).
  intros []. constructor; try (symmetry; assumption); try (apply SO; assumption); intros s; symmetry; auto.
Qed.
Lemma same_object_trans {X} (u v w : uvp X) : same_object u v -> same_object v w -> same_object u w.
Proof.
  assert (SO : forall x y z : option (list (nat * arr X)), same_opt x y -> same_opt y z -> same_opt x z) by (intros [|] [|] [|]; cbn; try tauto; intros H1 H2 s; rewrite H1; apply H2).
  intros H1 H2. pose proof (so_da _ _ H1) as A1. pose proof (so_wg _ _ H1) as A2. pose proof (so_in _ _ H1) as A3. pose proof (so_ns _ _ H1) as A4.
  pose proof (so_da _ _ H2) as B1. pose proof (so_wg _ _ H2) as B2. pose proof (so_in _ _ H2) as B3. pose proof (so_ns _ _ H2) as B4.
  destruct H1, H2. constructor; try (etransitivity; eassumption); try (eapply SO; eassumption); intros s;
  [rewrite A1; apply B1|rewrite A2; apply B2|rewrite A3; apply B3|rewrite A4; apply B4].
Qed.
Lemma different_kinds_sym a b : different_kinds a b -> different_kinds b a.
Proof. unfold different_kinds. tauto. Qed.

Theorem select_order_irrelevant : forall (X : Type) (u u1 u2 : uvp X) a b, wf u -> different_kinds a b ->
  select u a = Ok u1 -> select u1 b = Ok u2 ->
  exists v1 v2, select u b = Ok v1 /\ select v1 a = Ok v2 /\ same_object u2 v2.
Proof.
  intros X u u1 u2 a b W K H1 H2. destruct (select_twice_is_once X u u1 u2 a b W K H1 H2) as (u3 & H3 & S3).
  pose proof (conj_sym _ _ _ (at_once_conj a b K)) as C. pose proof K as (K1 & K2 & K3 & K4). pose proof (select_wf u a u1 W H1) as W1.
  destruct (select_nonempty u u1 a W H1) as (A1 & A2 & A3). destruct (select_nonempty u1 u2 b W1 H2) as (B1 & B2 & B3).
  destruct (once_gives_twice u u3 b a (at_once a b) W C H3) as (v1 & v2 & E1 & E2); try assumption.
  - cbn. intros Q. apply orelse_none in Q. tauto.
  - intros spws E. destruct K1 as [K1|K1]; [congruence|exact K1].
  - exists v1, v2. split; [exact E1|]. split; [exact E2|]. eapply same_object_trans; [exact S3|]. apply same_object_sym. exact (two_is_one u v1 v2 u3 b a (at_once a b) W C E1 E2 H3).
Qed.
Print Assumptions select_order_irrelevant.

Definition by_time : select_args := {| a_spws := None; a_bls := None; a_only_pairs_in_bls := true; a_blpairs := None; a_times := Some [1%Q]; a_lsts := None; a_polpairs := None |}.
Definition by_pair : select_args := {| a_spws := Some [1]; a_bls := None; a_only_pairs_in_bls := true; a_blpairs := Some [bA]; a_times := None; a_lsts := None; a_polpairs := Some [606%Z] |}.
Example select_twice_case : wf sample /\ different_kinds by_time by_pair /\
  option_map (fun u => (u_blpair_array u, u_data u)) (match bind (select sample by_time) (fun u1 => select u1 by_pair) with Ok u => Some u | _ => None end)
  = Some ([bA], [(0, [[spectrum 4 1 0 1]])]).
Proof. split; [exact sample_wf|]. split; [unfold different_kinds; cbn; intuition|vm_compute; reflexivity]. Qed.

(** the baselines of the arguments [bls] and [blpairs] are one kind: given in one call, a baseline-pair matching either is
    kept, given in two calls only those matching both *)
Theorem bls_and_blpairs_one_call_refuted : exists (u u1 u2 u3 : uvp Z) a b, wf u /\ a_blpairs a = None /\ a_bls b = None /\
  select u a = Ok u1 /\ select u1 b = Ok u2 /\ select u (at_once a b) = Ok u3 /\ u_blpair_array u2 <> u_blpair_array u3.
Proof.
  eexists sample, _, _, _, {| a_spws := None; a_bls := Some [101102%Z]; a_only_pairs_in_bls := false; a_blpairs := None; a_times := None; a_lsts := None; a_polpairs := None |},
    {| a_spws := None; a_bls := None; a_only_pairs_in_bls := false; a_blpairs := Some [bB]; a_times := None; a_lsts := None; a_polpairs := None |}.
  split; [exact sample_wf|]. split; [reflexivity|]. split; [reflexivity|]. split; [vm_compute; reflexivity|]. split; [vm_compute; reflexivity|]. split; [vm_compute; reflexivity|]. vm_compute. discriminate.
Qed.
Print Assumptions bls_and_blpairs_one_call_refuted.

(** * C317: repeating a selection *)
Theorem select_idempotent : forall (X : Type) (u u1 : uvp X) a, wf u -> a_spws a = None -> select u a = Ok u1 ->
  exists u2, select u1 a = Ok u2 /\ same_object u2 u1.
Proof.
  intros X u u1 a W N H.
  assert (C : conj_args a a a) by (constructor; intros; tauto).
  destruct (select_nonempty u u1 a W H) as (A1 & A2 & A3).
  destruct (once_gives_twice u u1 a a a W C H A1 A2 A3 (fun q => conj q q) A1 A2 A3 ltac:(intros; congruence)) as (v1 & v2 & E1 & E2).
  rewrite H in E1. injection E1 as <-. exists v2. split; [exact E2|]. exact (two_is_one u u1 v2 u1 a a a W C H E2 H).
Qed.
Print Assumptions select_idempotent.
Example select_idempotent_case : a_spws by_time = None /\
  option_map (fun u => (u_blpair_array u, length (u_data u))) (match bind (select sample by_time) (fun u1 => select u1 by_time) with Ok u => Some u | _ => None end) = Some ([bA; bB], 2).
Proof. split; [reflexivity|vm_compute; reflexivity]. Qed.

(** the windows of a selection are renumbered from 0, so repeating a selection of windows can fail *)
Theorem select_windows_twice_refuted : exists (u u1 : uvp Z) a, wf u /\ a_spws a = Some [1] /\ select u a = Ok u1 /\ select u1 a = Err AssertionError.
Proof.
  eexists sample, _, {| a_spws := Some [1]; a_bls := None; a_only_pairs_in_bls := true; a_blpairs := None; a_times := None; a_lsts := None; a_polpairs := None |}.
  split; [exact sample_wf|]. split; [reflexivity|]. split; vm_compute; reflexivity.
Qed.
Print Assumptions select_windows_twice_refuted.

(** * C318: selecting and folding *)
(** for an object without window functions and covariances, and a selection that names no windows *)
Theorem select_fold_commute : forall (X : Type) mean invquad zero nan double (u u1 u2 : uvp X) a, wf u ->
  u_cov u = None -> u_window u = None -> a_spws a = None ->
  select u a = Ok u1 -> fold_uvp mean invquad zero nan double u1 = Ok u2 ->
  exists v v2, fold_uvp mean invquad zero nan double u = Ok v /\ select v a = Ok v2 /\ same_object u2 v2.
Proof.
  intros X mean invquad zero nan double u u1 u2 a W N1 N2 Na H1 H2.
  destruct (select_correct u a u1 W H1) as (R & P & S). destruct (fold_parts mean invquad zero nan double u1 u2 H2) as (f1 & _).
  destruct (fold_total mean invquad zero nan double u W) as [v Hv]; [rewrite <- (sp_folded _ _ _ _ _ S); exact f1|].
  pose proof (fold_wf mean invquad zero nan double u v W Hv) as Wv.
  destruct (fold_parts mean invquad zero nan double u v Hv) as (_ & _ & _ & _ & _ & e).
  assert (V : valid_args u a) by (apply select_ok_iff; eauto).
  assert (E : exists v2, select v a = Ok v2).
  { apply select_ok_iff; [exact Wv|]. destruct V as [V1 V2 V3 V4 V5 V6]. rewrite e. constructor; assumption. }
  destruct E as [v2 E]. exists v, v2. split; [exact Hv|]. split; [exact E|]. exact (fold_select mean invquad zero nan double u v u1 u2 v2 a W N1 N2 Na H1 H2 Hv E).
Qed.
Print Assumptions select_fold_commute.

Example select_fold_case : wf sample /\
  option_map (fun u => (u_folded u, u_blpair_array u)) (match bind (select sample by_time) Zfold with Ok u => Some u | _ => None end) = Some (true, [bA; bB]).
Proof. split; [exact sample_wf|]. vm_compute; reflexivity. Qed.

(** with windows named the two orders differ: selecting windows of a folded object throws away the delays that are not positive *)
Theorem select_windows_fold_refuted : exists (u u1 u2 v v2 : uvp Z) a, wf u /\ u_cov u = None /\ u_window u = None /\
  select u a = Ok u1 /\ Zfold u1 = Ok u2 /\ Zfold u = Ok v /\ select v a = Ok v2 /\ length (u_dly_array u2) = 3 /\ length (u_dly_array v2) = 1.
Proof.
  eexists sample, _, _, _, _, {| a_spws := Some [0]; a_bls := None; a_only_pairs_in_bls := true; a_blpairs := None; a_times := None; a_lsts := None; a_polpairs := None |}.
  split; [exact sample_wf|]. split; [reflexivity|]. split; [reflexivity|]. repeat (split; [vm_compute; reflexivity|]). vm_compute. reflexivity.
Qed.
Print Assumptions select_windows_fold_refuted.
