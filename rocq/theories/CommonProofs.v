From Coq Require Import QArith Qabs Sorted Permutation.
From Verif Require Import PyDict.
From Verif Require Import Prelude ListLemmas UvpModel UvpSpec UvpProofs SelectProofs SelectMain.
Open Scope nat_scope.

Lemma insertZ_In x l y : In y (insertZ x l) <-> y = x \/ In y l.
Proof.
  induction l as [|z l IH]; cbn; [intuition|].
  destruct (Z.ltb_spec x z); cbn; [intuition|]. destruct (Z.eqb_spec x z); cbn; [subst; intuition|].
  rewrite IH. intuition.
Qed.
Lemma uniqueZ_In l y : In y (uniqueZ l) <-> In y l.
Proof. induction l as [|x l IH]; cbn [uniqueZ fold_right]; [tauto|]. fold (uniqueZ l). rewrite insertZ_In, IH. cbn. intuition. Qed.

Lemma memQ_spec x l : memQ x l = true <-> exists y, In y l /\ (y == x)%Q.
Proof.
  unfold memQ. rewrite existsb_exists. split; intros [y [H E]]; exists y; split; auto.
  - apply Qeq_bool_iff in E. symmetry; exact E.
  - apply Qeq_bool_iff. symmetry; exact E.
Qed.
Lemma insertQ_mem x l y : (exists z, In z (insertQ x l) /\ (z == y)%Q) <-> (x == y)%Q \/ exists z, In z l /\ (z == y)%Q.
Proof.
  induction l as [|z l IH]; cbn.
  - split; [intros [z [[<-|[]] E]]; auto|]. intros [E|[z [[] _]]]. exists x. auto.
  - destruct (Qeq_bool x z) eqn:Exz.
    + apply Qeq_bool_iff in Exz. cbn. split; [auto|]. intros [E|H]; [|exact H].
      exists z. split; [auto|]. rewrite <- Exz. exact E.
    + destruct (Qle_bool x z).
      * cbn. split.
        -- intros [q [[<-|Hq] E]]; [left; exact E | right; exists q; auto].
        -- intros [E|[q [Hq E]]]; [exists x; auto | exists q; auto].
      * cbn. split.
        -- intros [q [[<-|Hq] E]]; [right; exists z; auto|].
           assert (H0 : exists z0, In z0 (insertQ x l) /\ (z0 == y)%Q) by (exists q; auto).
           apply IH in H0. destruct H0 as [E0|[q' [Hq' E']]]; [left; exact E0 | right; exists q'; auto].
        -- intros [E|[q [[<-|Hq] E]]].
           ++ destruct (proj2 IH (or_introl E)) as [q [Hq Eq]]. exists q. auto.
           ++ exists z. auto.
           ++ destruct (proj2 IH (or_intror (ex_intro _ q (conj Hq E)))) as [q' [Hq' Eq]]. exists q'. auto.
Qed.
Lemma uniqueQ_mem l y : (exists z, In z (uniqueQ l) /\ (z == y)%Q) <-> exists z, In z l /\ (z == y)%Q.
Proof.
  induction l as [|x l IH]; cbn [uniqueQ fold_right]; [tauto|]. fold (uniqueQ l). rewrite insertQ_mem, IH. cbn. split.
  - intros [E|[z [H E]]]; eauto.
  - intros [z [[<-|H] E]]; eauto.
Qed.

Section S.
Context {X : Type}.
Notation uvp := (uvp X).

(** the time [t] is (exactly) in every object's list of times *)
Definition common_q (f : uvp -> list Q) (l : list uvp) (t : Q) : Prop :=
  forall v, In v l -> exists t', In t' (f v) /\ (t' == t)%Q.
Definition common_b (l : list uvp) (b : Z) : Prop := forall v, In v l -> In b (u_blpair_array v).

Lemma forallb_memQ (f : uvp -> list Q) l t : forallb (fun u => memQ t (f u)) l = true <-> common_q f l t.
Proof.
  rewrite forallb_forall. split; intros H v Hv; specialize (H v Hv); apply memQ_spec; exact H.
Qed.
Lemma forallb_memZ l b : forallb (fun u => memZ b (u_blpair_array u)) l = true <-> common_b l b.
Proof.
  rewrite forallb_forall. split; intros H v Hv; specialize (H v Hv); apply memZ_In; exact H.
Qed.

(** rows of [u] that the requested axes have in common *)
Definition common_row (l : list uvp) (f : common_flags) (u : uvp) (i : nat) : Prop :=
  exists b t s, nth_error (u_blpair_array u) i = Some b /\ nth_error (u_time_avg_array u) i = Some t /\
    nth_error (u_lst_avg_array u) i = Some s /\
    (f_blpairs f = true -> common_b l b) /\
    (f_times f = true -> exists t', common_q u_time_avg_array l t' /\ close t t') /\
    (f_lsts f = true -> exists s', common_q u_lst_avg_array l s' /\ close s s').

Lemma close_Qeq t a b : (a == b)%Q -> close t a -> close t b.
Proof. unfold close. intros E. rewrite E. tauto. Qed.

Context {T : Type} (rng : list X -> T) (eqT : forall x y : T * nat, {x = y} + {x <> y}).

Definition common_times (l : list uvp) (u0 : uvp) := filter (fun t => forallb (fun u => memQ t (u_time_avg_array u)) l) (uniqueQ (u_time_avg_array u0)).
Definition common_lsts (l : list uvp) (u0 : uvp) := filter (fun t => forallb (fun u => memQ t (u_lst_avg_array u)) l) (uniqueQ (u_lst_avg_array u0)).
Definition common_blpairs (l : list uvp) (u0 : uvp) := filter (fun b => forallb (fun u => memZ b (u_blpair_array u)) l) (uniqueZ (u_blpair_array u0)).

Lemma common_filterQ (f : uvp -> list Q) l u0 x : In u0 l ->
  (exists t', In t' (filter (fun t => forallb (fun u => memQ t (f u)) l) (uniqueQ (f u0))) /\ close x t') <->
  (exists t', common_q f l t' /\ close x t').
Proof.
  intros H0. split.
  - intros [t' [H C]]. apply filter_In in H. destruct H as [_ H]. apply forallb_memQ in H. eauto.
  - intros [t' [H C]]. destruct (proj2 (uniqueQ_mem (f u0) t') (H u0 H0)) as [z [Hz E]].
    exists z. split.
    + apply filter_In. split; [exact Hz|]. apply forallb_memQ. intros v Hv. destruct (H v Hv) as [q [Hq Eq]].
      exists q. split; [exact Hq|]. rewrite Eq. symmetry; exact E.
    + eapply close_Qeq; [symmetry; exact E | exact C].
Qed.

(** what is passed to [select] for one object *)
Definition common_args (l : list uvp) (u0 : uvp) (f : common_flags) (sp : option (list nat)) : select_args :=
  {| a_spws := sp; a_bls := None; a_only_pairs_in_bls := true;
     a_blpairs := if f_blpairs f then Some (common_blpairs l u0) else None;
     a_times := if f_times f then Some (common_times l u0) else None;
     a_lsts := if f_lsts f then Some (common_lsts l u0) else None;
     a_polpairs := None |}.

Lemma row_wanted_common l u0 f sp u i : In u0 l ->
  row_wanted u (common_args l u0 f sp) i <-> common_row l f u i.
Proof.
  intros H0. unfold row_wanted, common_row, common_args; cbn.
  split; intros [b [t [s [Eb [Et [Es [C1 [C2 C3]]]]]]]]; exists b, t, s.
  - split; [exact Eb|]. split; [exact Et|]. split; [exact Es|]. split; [|split].
    + intros Ef. rewrite Ef in C1. destruct C1 as [[_ C]|[[bls [C _]]|[bps [C I]]]]; try discriminate.
      injection C as <-. apply filter_In in I. destruct I as [_ I]. apply forallb_memZ. exact I.
    + intros Ef. rewrite Ef in C2. apply (common_filterQ u_time_avg_array l u0 t H0). apply C2; reflexivity.
    + intros Ef. rewrite Ef in C3. apply (common_filterQ u_lst_avg_array l u0 s H0). apply C3; reflexivity.
  - split; [exact Eb|]. split; [exact Et|]. split; [exact Es|]. split; [|split].
    + destruct (f_blpairs f); [right; right|left; auto]. eexists; split; [reflexivity|].
      apply filter_In. split; [apply uniqueZ_In; apply C1; auto | apply forallb_memZ; apply C1; reflexivity].
    + intros ts E. destruct (f_times f); [|discriminate]. injection E as <-.
      apply (common_filterQ u_time_avg_array l u0 t H0). apply C2; reflexivity.
    + intros ts E. destruct (f_lsts f); [|discriminate]. injection E as <-.
      apply (common_filterQ u_lst_avg_array l u0 s H0). apply C3; reflexivity.
Qed.

Definition common_window (l : list uvp) (u : uvp) (w : nat) : Prop :=
  exists r ru, get_spw_ranges rng u = Ok ru /\ nth_error ru w = Some r /\
    forall v, In v l -> exists rv, get_spw_ranges rng v = Ok rv /\ In r rv.

Lemma index_of_spec r l i : index_of eqT r l = Some i -> nth_error l i = Some r.
Proof.
  revert i; induction l as [|x l IH]; intros i H; cbn in H; [discriminate|].
  destruct (eqT r x); [injection H as <-; cbn; congruence|].
  destruct (index_of eqT r l) as [j|]; [|discriminate]. injection H as <-. cbn. apply IH; reflexivity.
Qed.

Lemma select_common_inv l f l' : select_common rng eqT l f = Ok l' -> Forall wf l ->
  (forall u ru, In u l -> get_spw_ranges rng u = Ok ru -> NoDup ru) ->
  Forall2 (fun u u' => exists sp u0, In u0 l /\ select u (common_args l u0 f sp) = Ok u' /\
     (f_spws f = false -> sp = None) /\
     (f_spws f = true -> exists ix, sp = Some ix /\ forall w, In w ix <-> common_window l u w)) l l'.
Proof.
  intros H W ND. destruct l as [|u0 [|u1 l]]; try discriminate. set (L := u0 :: u1 :: l) in *.
  unfold select_common in H. fold L in H.
  change (u0 :: u1 :: l) with L in H.
  apply bind_ok in H. destruct H as [cs [Hcs H]].
  do 5 (apply require_ok in H; destruct H as [? H]).
  apply map_res_spec in H. eapply Forall2_impl_in; [|exact H]. intros u u' Hu. cbn beta. intros Hs.
  apply bind_ok in Hs. destruct Hs as [sp [Hsp Hs]].
  exists sp, u0. split; [left; reflexivity|]. split; [exact Hs|]. clear Hs H. split.
  - intros Ef. rewrite Ef in Hsp. congruence.
  - intros Ef. rewrite Ef in Hsp, Hcs.
    apply bind_ok in Hcs. destruct Hcs as [rs [Hrs Hcs]]. injection Hcs as <-.
    apply map_res_spec in Hrs.
    apply bind_ok in Hsp. destruct Hsp as [ru [Hru Hsp]]. apply bind_ok in Hsp. destruct Hsp as [ix [Hix Hsp]].
    injection Hsp as <-. exists ix. split; [reflexivity|].
    apply map_res_spec in Hix.
    assert (Crs : forall r, (forallb (fun ru0 => if in_dec eqT r ru0 then true else false) rs = true) <->
               forall v, In v L -> exists rv, get_spw_ranges rng v = Ok rv /\ In r rv).
    { intros r. rewrite forallb_forall. clear -Hrs. induction Hrs as [|v rv vs rvs E Hrs IH]; cbn.
      - split; [intros _ v []|intros _ x []].
      - split.
        + intros A v0 [<-|Hv].
          * exists rv. split; [exact E|]. specialize (A rv (or_introl eq_refl)). destruct (in_dec eqT r rv); [assumption|discriminate].
          * apply IH; [|exact Hv]. intros x Hx. apply A. right; exact Hx.
        + intros A x [<-|Hx].
          * destruct (A v (or_introl eq_refl)) as [rv' [E' I]]. rewrite E in E'. injection E' as <-.
            destruct (in_dec eqT r rv); [reflexivity | contradiction].
          * apply IH; [|exact Hx]. intros v0 Hv. apply A. right; exact Hv. }
    intros w. split.
    + intros Hw. assert (Q : exists r, In r (filter (fun r => forallb (fun ru => if in_dec eqT r ru then true else false) rs) (hd [] rs)) /\ nth_error ru w = Some r).
      { clear -Hix Hw. induction Hix as [|r i rs' is' E Hix IH]; [destruct Hw|].
        destruct Hw as [<-|Hw].
        - exists r. split; [left; reflexivity|]. destruct (index_of eqT r ru) as [j|] eqn:Ej; [|discriminate].
          injection E as <-. apply index_of_spec. exact Ej.
        - destruct (IH Hw) as [q [Q1 Q2]]. exists q. split; [right; exact Q1 | exact Q2]. }
      destruct Q as [r [Q1 Q2]]. exists r, ru. split; [exact Hru|]. split; [exact Q2|].
      apply Crs. apply filter_In in Q1. tauto.
    + intros [r [ru' [E1 [E2 C]]]]. rewrite Hru in E1. injection E1 as <-.
      assert (I : In r (filter (fun r => forallb (fun ru => if in_dec eqT r ru then true else false) rs) (hd [] rs))).
      { apply filter_In. split; [|apply Crs; exact C].
        destruct (C u0 (or_introl eq_refl)) as [rv [Ev Iv]].
        inversion Hrs as [|? rv' ? ? Ev' Hrest Q1 Q2]; subst. rewrite Ev in Ev'. injection Ev' as <-. exact Iv. }
      assert (Q : exists i, In i ix /\ nth_error ru i = Some r).
      { clear -Hix I. induction Hix as [|r' i rs' is' E Hix IH]; [destruct I|].
        destruct I as [<-|I].
        - exists i. split; [left; reflexivity|]. destruct (index_of eqT r' ru) as [j|] eqn:Ej; [|discriminate].
          injection E as <-. apply index_of_spec. exact Ej.
        - destruct (IH I) as [q [Q1 Q2]]. exists q. split; [right; exact Q1 | exact Q2]. }
      destruct Q as [i [I1 I2]].
      assert (N : NoDup ru) by (eapply ND; [exact Hu | exact Hru]).
      rewrite NoDup_nth_error in N. rewrite (N w i); [exact I1 | apply nth_error_Some; congruence | congruence].
Qed.

Theorem select_common_correct l f l' : select_common rng eqT l f = Ok l' -> Forall wf l ->
  (forall u ru, In u l -> get_spw_ranges rng u = Ok ru -> NoDup ru) ->
  Forall2 (fun u u' => exists a R P, select_spec u a u' R P /\ a_polpairs a = None /\
     (forall i, In i R <-> common_row l f u i) /\
     (forall w, In w (spw_kept u a) <-> In w (u_spw_array u) /\ (f_spws f = true -> common_window l u w))) l l'.
Proof.
  intros H W ND. pose proof (select_common_inv l f l' H W ND) as I.
  eapply Forall2_impl_in; [|exact I]. intros u u' Hu. cbn beta. intros [sp [u0 [H0 [Hs [A B]]]]].
  rewrite Forall_forall in W. destruct (select_correct u _ u' (W u Hu) Hs) as [R [P S]].
  exists (common_args l u0 f sp), R, P. split; [exact S|]. split; [reflexivity|]. split.
  - intros i. rewrite (sp_R _ _ _ _ _ S), (row_wanted_common l u0 f sp u i H0). split; [tauto|].
    intros C. split; [|exact C]. destruct C as [b [t [s [Eb _]]]]. apply nth_error_Some. congruence.
  - intros w. unfold spw_kept. rewrite filter_In. unfold spw_wanted, common_args; cbn [a_spws].
    destruct (f_spws f).
    + destruct (B eq_refl) as [ix [-> Hix]]. rewrite memN_In, Hix. tauto.
    + rewrite (A eq_refl). split; [intros [Q _]|intros [Q _]]; split; auto. discriminate.
Qed.

(** with the baseline-pair axis only: every output has exactly the common baseline-pairs *)
Corollary select_common_blpairs l f l' : select_common rng eqT l f = Ok l' -> Forall wf l ->
  (forall u ru, In u l -> get_spw_ranges rng u = Ok ru -> NoDup ru) ->
  f_blpairs f = true -> f_times f = false -> f_lsts f = false ->
  Forall (fun u' => forall b, In b (u_blpair_array u') <-> common_b l b) l'.
Proof.
  intros H W ND E1 E2 E3. pose proof (select_common_correct l f l' H W ND) as I.
  eapply Forall2_Forall_r; [exact I|]. intros u u' Hu [a [R [P [S [_ [HR _]]]]]] b.
  rewrite (picks_In _ _ _ _ (rp_bp _ _ _ (sp_rows _ _ _ _ _ S))). split.
  - intros [i [Hi Eb]]. apply HR in Hi. destruct Hi as [b' [t [s [Eb' [_ [_ [C _]]]]]]].
    rewrite Eb in Eb'. injection Eb' as <-. apply C; exact E1.
  - intros C. destruct (In_nth_error _ _ (C u Hu)) as [i Ei]. exists i. split; [|exact Ei]. apply HR.
    rewrite Forall_forall in W. specialize (W u Hu).
    destruct (nth_error_same_len _ (u_time_avg_array u) i b (eq_sym (wf_ta u W)) Ei) as [t Et].
    destruct (nth_error_same_len _ (u_lst_avg_array u) i b (eq_sym (wf_la u W)) Ei) as [s Es].
    exists b, t, s. repeat split; auto; congruence.
Qed.

Theorem select_common_short f (l : list uvp) : length l < 2 -> select_common rng eqT l f = Err IndexError.
Proof. destruct l as [|u0 [|u1 l]]; cbn; [reflexivity | reflexivity | lia]. Qed.

Theorem select_common_empty f (l : list uvp) : 2 <= length l -> f_spws f = false ->
  (f_blpairs f = true /\ (forall b, ~ common_b l b)) \/
  (f_times f = true /\ (forall t, ~ common_q u_time_avg_array l t)) \/
  (f_lsts f = true /\ (forall t, ~ common_q u_lst_avg_array l t)) ->
  select_common rng eqT l f = Err ValueError.
Proof.
  intros L Es H. destruct l as [|u0 [|u1 l]]; cbn in L; try lia. set (l0 := u0 :: u1 :: l) in *.
  unfold select_common. change (u0 :: u1 :: l) with l0. fold l0. rewrite Es. cbn [bind andb].
  assert (F1 : (forall b, ~ common_b l0 b) -> length (common_blpairs l0 u0) = 0).
  { intros N. apply length_zero_iff_nil. unfold common_blpairs. destruct (filter _ _) as [|b q] eqn:E; [reflexivity|].
    exfalso. apply (N b). apply forallb_memZ. assert (I : In b (b :: q)) by (left; reflexivity).
    rewrite <- E in I. apply filter_In in I. tauto. }
  assert (F2 : forall g : uvp -> list Q, (forall b, ~ common_q g l0 b) ->
     length (filter (fun t => forallb (fun u => memQ t (g u)) l0) (uniqueQ (g u0))) = 0).
  { intros g N. apply length_zero_iff_nil. destruct (filter _ _) as [|b q] eqn:E; [reflexivity|].
    exfalso. apply (N b). apply forallb_memQ. assert (I : In b (b :: q)) by (left; reflexivity).
    rewrite <- E in I. apply filter_In in I. tauto. }
  unfold common_blpairs in F1. cbn [negb require]. subst l0.
  destruct H as [[E N]|[[E N]|[E N]]].
  - rewrite E, (F1 N). reflexivity.
  - rewrite E, (F2 u_time_avg_array N). destruct (negb _); reflexivity.
  - rewrite E, (F2 u_lst_avg_array N). destruct (negb _); [destruct (negb _)|]; reflexivity.
Qed.
End S.
