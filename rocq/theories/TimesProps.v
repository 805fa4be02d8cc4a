(** C38, C72: interleaved times and common LSTs. *)
From Coq Require Import Permutation Sorted.
From Verif Require Import Prelude ListLemmas CombineModel CombineProofs TimesModel.
Open Scope Z_scope.

Lemma memz_spec x l : memz x l = true <-> In x l.
Proof. unfold memz. rewrite existsb_exists. split; [intros (y & H & E); apply Z.eqb_eq in E; subst; assumption | intros H; exists x; split; [assumption | apply Z.eqb_refl]]. Qed.
Lemma utimes_in d t : In t (utimes d) <-> exists r, In r d /\ rtime r = t.
Proof.
  unfold utimes, sorted_set. split.
  - intros H. apply (Permutation_in _ (isort_perm Z.leb _)) in H. apply nodup_In, in_map_iff in H. destruct H as (r & <- & H). eauto.
  - intros (r & H & <-). apply (Permutation_in _ (Permutation_sym (isort_perm Z.leb _))). apply nodup_In, in_map, H.
Qed.
Lemma insert_strict x l : StronglySorted Z.lt l -> ~ In x l -> StronglySorted Z.lt (insert Z.leb x l).
Proof.
  induction 1 as [| y l Hs IH Hf]; cbn; intros Hn; [repeat constructor |].
  destruct (Z.leb_spec x y) as [L | L].
  - constructor; [constructor; assumption |]. constructor; [lia |]. rewrite Forall_forall in *. intros z Hz. specialize (Hf z Hz). lia.
  - constructor; [apply IH; tauto |]. rewrite Forall_forall in *. intros z Hz.
    assert (P : Permutation (insert Z.leb x l) (x :: l)).
    { clear. induction l as [| w l IHl]; cbn; [reflexivity |]. destruct (Z.leb x w); [reflexivity |].
      transitivity (w :: x :: l); [constructor; assumption | constructor]. }
    apply (Permutation_in _ P) in Hz. destruct Hz as [<- | Hz]; [lia | auto].
Qed.
Lemma utimes_sorted d : StronglySorted Z.lt (utimes d).
Proof.
  unfold utimes, sorted_set, isort. pose proof (NoDup_nodup Z.eq_dec (map rtime d)) as N.
  induction (nodup Z.eq_dec (map rtime d)) as [| x l IH]; cbn; [constructor |]. inversion N; subst.
  apply insert_strict; [apply IH; assumption |]. intros H. apply (Permutation_in _ (isort_perm Z.leb l)) in H. contradiction.
Qed.

(** every other element *)
Lemma every2_SS {A} (x y : A) l : every2 (x :: y :: l) = x :: every2 l. Proof. reflexivity. Qed.
Lemma every2_nth {A} (l : list A) : forall k, nth_error (every2 l) k = nth_error l (2 * k).
Proof.
  assert (H : forall n (l : list A), (length l <= n)%nat -> forall k, nth_error (every2 l) k = nth_error l (2 * k)).
  { induction n as [| n IH]; intros l0 Hl k.
    - destruct l0; [| cbn in Hl; lia]. cbn. destruct k; reflexivity.
    - destruct l0 as [| x [| y l0]]; [destruct k; reflexivity | |].
      + destruct k as [| k]; [reflexivity |]. replace (2 * S k)%nat with (S (S (2 * k))) by lia. cbn [every2 nth_error]. destruct k; reflexivity.
      + rewrite every2_SS. destruct k as [| k]; [reflexivity |]. cbn [nth_error]. rewrite IH by (cbn in Hl; lia).
        replace (2 * S k)%nat with (S (S (2 * k))) by lia. reflexivity. }
  intros k. apply (H (length l)); lia.
Qed.
Lemma slice2_nth {A} s n (l : list A) k : nth_error (slice2 s n l) k = if Nat.ltb (s + 2 * k) n then nth_error l (s + 2 * k) else None.
Proof.
  unfold slice2. rewrite every2_nth.
  assert (E : forall (l : list A) s i, nth_error (skipn s l) i = nth_error l (s + i)).
  { clear. induction l as [| x l IH]; intros [| s] i; cbn; try reflexivity; [destruct i; reflexivity | apply IH]. }
  rewrite E.
  assert (F : forall (l : list A) n i, nth_error (firstn n l) i = if Nat.ltb i n then nth_error l i else None).
  { clear. induction l as [| x l IH]; intros m i.
    - rewrite firstn_nil. destruct (Nat.ltb i m), i; reflexivity.
    - destruct m as [| m]; [destruct i; reflexivity |]. destruct i as [| i]; [reflexivity |]. cbn [firstn nth_error]. rewrite IH. reflexivity. }
  apply F.
Qed.

(** The times kept: with ts the sorted distinct times of the dataset and m = length ts / 2, the first dataset has the
    times ts[0], ts[2], ..., ts[2m-2], the second ts[1], ts[3], ..., ts[2m-1]: all but the last of an odd number. *)
Lemma half_even nt : (nt - nt mod 2 = 2 * (nt / 2))%nat.
Proof. pose proof (Nat.div_mod nt 2 ltac:(lia)). lia. Qed.
Lemma slice2_len s nt (l : list Z) : length l = nt -> (s < 2)%nat -> length (slice2 s (nt - nt mod 2) l) = (nt / 2)%nat.
Proof.
  intros Hl Hs. rewrite half_even. set (m := (nt / 2)%nat).
  assert (Hm : (2 * m <= nt)%nat) by (unfold m; pose proof (Nat.div_mod nt 2 ltac:(lia)); lia).
  apply Nat.le_antisymm.
  - destruct (Nat.le_gt_cases (length (slice2 s (2 * m) l)) m) as [|G]; [assumption |]. exfalso.
    destruct (nth_error (slice2 s (2 * m) l) m) eqn:E; [| apply nth_error_None in E; lia].
    rewrite slice2_nth in E. destruct (Nat.ltb_spec (s + 2 * m) (2 * m)); [lia | discriminate].
  - destruct m as [| m']; [lia |].
    assert (nth_error (slice2 s (2 * S m') l) m' <> None).
    { rewrite slice2_nth. destruct (Nat.ltb_spec (s + 2 * m') (2 * S m')); [| lia]. apply nth_error_Some. lia. }
    apply nth_error_Some in H. lia.
Qed.

Definition times_of (d : dset) (ts : list Z) : Prop := forall t, In t ts <-> exists r, In r d /\ rtime r = t.

Theorem interleave_splits_times :
  forall d std ds' std' prs, interleave [d] std = Ok (ds', std', prs) ->
    let ts := utimes d in
    exists d0 d1 e o,
      ds' = [d0; d1] /\ prs = [(0, 1)] /\
      times_of d0 e /\ times_of d1 o /\
      length e = length o /\ (2 * length e <= length ts <= 2 * length e + 1)%nat /\
      (forall k, (k < length e)%nat -> nth_error e k = nth_error ts (2 * k) /\ nth_error o k = nth_error ts (2 * k + 1)) /\
      (forall r, In r d0 <-> In r d /\ In (rtime r) e) /\ (forall r, In r d1 <-> In r d /\ In (rtime r) o) /\
      (forall t, ~ (In t e /\ In t o)) /\
      (forall k a b, nth_error e k = Some a -> nth_error o k = Some b -> a < b) /\
      (forall k a b, nth_error o k = Some a -> nth_error e (S k) = Some b -> a < b).
Proof.
  intros d std ds' std' prs H ts. cbn [interleave] in H. fold ts in H. set (nt := length ts) in *.
  apply bind_ok in H. destruct H as (d1 & H1 & H). apply bind_ok in H. destruct H as (d0 & H0 & H).
  unfold select_times in H1, H0. apply require_ok in H1, H0. destruct H1 as [_ H1], H0 as [_ H0]. injection H1 as H1. injection H0 as H0.
  exists d0, d1, (slice2 0 (nt - nt mod 2) ts), (slice2 1 (nt - nt mod 2) ts).
  assert (ES : ds' = [d0; d1] /\ prs = [(0, 1)]).
  { destruct std as [| [s |] rest]; [discriminate | | injection H as <- _ <-; auto].
    apply bind_ok in H. destruct H as (s1 & _ & H). apply bind_ok in H. destruct H as (s0 & _ & H). injection H as <- _ <-. auto. }
  assert (LEN : forall s, (s < 2)%nat -> length (slice2 s (nt - nt mod 2) ts) = (nt / 2)%nat) by (intros; apply slice2_len; auto).
  assert (SUB : forall s t, In t (slice2 s (nt - nt mod 2) ts) -> In t ts).
  { intros s t Ht. apply In_nth_error in Ht. destruct Ht as (k & Hk). rewrite slice2_nth in Hk.
    destruct (Nat.ltb _ _); [| discriminate]. eapply nth_error_In; eassumption. }
  assert (ROW : forall s d', d' = filter (fun r => memz (rtime r) (slice2 s (nt - nt mod 2) ts)) d ->
     (forall r, In r d' <-> In r d /\ In (rtime r) (slice2 s (nt - nt mod 2) ts)) /\ times_of d' (slice2 s (nt - nt mod 2) ts)).
  { intros s d' ->. assert (R : forall r, In r (filter (fun r => memz (rtime r) (slice2 s (nt - nt mod 2) ts)) d) <-> In r d /\ In (rtime r) (slice2 s (nt - nt mod 2) ts)).
    { intros r. rewrite filter_In, memz_spec. reflexivity. }
    split; [exact R |]. intros t. split.
    - intros Ht. pose proof (SUB _ _ Ht) as Ht'. unfold ts in Ht'. apply utimes_in in Ht'. destruct Ht' as (r & Hr & <-). exists r. rewrite R. auto.
    - intros (r & Hr & <-). apply R in Hr. tauto. }
  destruct (ROW 0%nat d0 (eq_sym H0)) as [R0 T0]. destruct (ROW 1%nat d1 (eq_sym H1)) as [R1 T1].
  assert (HM : (2 * (nt / 2) <= nt <= 2 * (nt / 2) + 1)%nat).
  { pose proof (Nat.div_mod nt 2 ltac:(lia)). pose proof (Nat.mod_upper_bound nt 2 ltac:(lia)). lia. }
  assert (NTH : forall s k, (s < 2)%nat -> (k < nt / 2)%nat -> nth_error (slice2 s (nt - nt mod 2) ts) k = nth_error ts (s + 2 * k)).
  { intros s k Hs Hk. rewrite slice2_nth, half_even. destruct (Nat.ltb_spec (s + 2 * k) (2 * (nt / 2))); [reflexivity | lia]. }
  assert (MONO : forall i j a b, (i < j)%nat -> nth_error ts i = Some a -> nth_error ts j = Some b -> a < b).
  { pose proof (utimes_sorted d) as S. fold ts in S. clear -S. induction S as [| x l S IH F]; intros i j a b L Ha Hb.
    - destruct i; discriminate.
    - destruct j as [| j]; [lia |]. cbn in Hb. destruct i as [| i].
      + injection Ha as <-. rewrite Forall_forall in F. apply F. eapply nth_error_In; eassumption.
      + apply (IH i j a b); [lia | assumption | assumption]. }
  destruct ES as [E1 E2]. split; [assumption |]. split; [assumption |]. split; [assumption |]. split; [assumption |].
  split; [rewrite !LEN by lia; reflexivity |]. split; [rewrite LEN by lia; fold nt; lia |].
  split; [intros k Hk; rewrite LEN in Hk by lia; rewrite !NTH by lia; split; f_equal; lia |].
  split; [assumption |]. split; [assumption |].
  assert (EQ : forall i j a, nth_error ts i = Some a -> nth_error ts j = Some a -> i = j).
  { intros i j a Ha Hb. destruct (Nat.lt_trichotomy i j) as [L | [L | L]]; [| assumption |]; exfalso.
    - pose proof (MONO _ _ _ _ L Ha Hb). lia.
    - pose proof (MONO _ _ _ _ L Hb Ha). lia. }
  assert (KK : forall s k a, (s < 2)%nat -> nth_error (slice2 s (nt - nt mod 2) ts) k = Some a -> (k < nt / 2)%nat /\ nth_error ts (s + 2 * k) = Some a).
  { intros s k a Hs Hk. assert (k < nt / 2)%nat by (rewrite <- (LEN s Hs); apply nth_error_Some; congruence). split; [assumption |]. rewrite <- NTH; assumption. }
  split; [| split].
  - intros t [He Ho]. apply In_nth_error in He, Ho. destruct He as (k & He), Ho as (k' & Ho).
    apply KK in He, Ho; try lia. pose proof (EQ _ _ _ (proj2 He) (proj2 Ho)). lia.
  - intros k a b Ha Hb. apply KK in Ha, Hb; try lia. apply (MONO (0 + 2 * k)%nat (1 + 2 * k)%nat a b); [lia | apply Ha | apply Hb].
  - intros k a b Ha Hb. apply KK in Ha, Hb; try lia. apply (MONO (1 + 2 * k)%nat (0 + 2 * S k)%nat a b); [lia | apply Ha | apply Hb].
Qed.

(** It is refused exactly for other numbers of datasets than one, and for fewer than two times. *)
Theorem interleave_accepts :
  forall ds, (exists r, interleave ds [None] = Ok r) <-> (exists d, ds = [d] /\ (2 <= length (utimes d))%nat).
Proof.
  intros ds. split.
  - intros (r & H). destruct ds as [| d [| d2 ds]]; [discriminate | | discriminate]. exists d. split; [reflexivity |].
    cbn [interleave] in H. apply bind_ok in H. destruct H as (d1 & H1 & _). unfold select_times in H1. apply require_ok in H1. destruct H1 as [H1 _].
    set (nt := length (utimes d)) in *. assert (L := slice2_len 1 nt (utimes d) eq_refl ltac:(lia)).
    destruct (slice2 1 _ (utimes d)); [discriminate |]. cbn [length] in L. pose proof (Nat.div_mod nt 2 ltac:(lia)). lia.
  - intros (d & -> & H). cbn [interleave]. set (nt := length (utimes d)) in *.
    assert (D : (2 / 2 <= nt / 2)%nat) by (apply Nat.div_le_mono; lia). change (2 / 2)%nat with 1%nat in D.
    assert (L1 := slice2_len 1 nt (utimes d) eq_refl ltac:(lia)). assert (L0 := slice2_len 0 nt (utimes d) eq_refl ltac:(lia)).
    unfold select_times. destruct (slice2 1 _ (utimes d)); [cbn [length] in L1; lia |]. destruct (slice2 0 _ (utimes d)); [cbn [length] in L0; lia |].
    cbn [require bind]. eexists. reflexivity.
Qed.

(** The standard deviations stay aligned with the data: with the same times, the same selection. *)
Theorem interleave_std_aligned :
  forall d s ds' std' prs, utimes s = utimes d -> interleave [d] [Some s] = Ok (ds', std', prs) ->
    exists d0 d1 s0 s1 e o, ds' = [d0; d1] /\ std' = [Some s0; Some s1] /\
      (forall r, In r d0 <-> In r d /\ In (rtime r) e) /\ (forall r, In r s0 <-> In r s /\ In (rtime r) e) /\
      (forall r, In r d1 <-> In r d /\ In (rtime r) o) /\ (forall r, In r s1 <-> In r s /\ In (rtime r) o).
Proof.
  intros d s ds' std' prs E H. cbn [interleave] in H. rewrite E in H.
  set (n := (length (utimes d) - length (utimes d) mod 2)%nat) in *.
  apply bind_ok in H. destruct H as (d1 & H1 & H). apply bind_ok in H. destruct H as (d0 & H0 & H).
  apply bind_ok in H. destruct H as (s1 & H2 & H). apply bind_ok in H. destruct H as (s0 & H3 & H). injection H as <- <- _.
  unfold select_times in *. apply require_ok in H0, H1, H2, H3. destruct H0 as [_ H0], H1 as [_ H1], H2 as [_ H2], H3 as [_ H3].
  injection H0 as <-. injection H1 as <-. injection H2 as <-. injection H3 as <-.
  eexists _, _, _, _, (slice2 0 n (utimes d)), (slice2 1 n (utimes d)). split; [reflexivity |]. split; [reflexivity |].
  assert (R : forall x ts r, In r (filter (fun r => memz (rtime r) ts) x) <-> In r x /\ In (rtime r) ts) by (intros; rewrite filter_In, memz_spec; reflexivity).
  split; [apply R |]. split; [apply R |]. split; apply R.
Qed.

(** ** trim_dset_lsts *)
Section Trim.
Variable same_grid : list dset -> bool.
Variable fmt : Z -> Z.
Definition has_lst (d : dset) (k : Z) : Prop := exists r, In r d /\ fmt (rlst r) = k.
(** equal times have equal LSTs *)
Definition consistent (d : dset) : Prop := forall r r', In r d -> In r' d -> rtime r = rtime r' -> rlst r = rlst r'.

Lemma common_spec ds k : ds <> [] -> (In k (common_lsts fmt ds) <-> forall d, In d ds -> has_lst d k).
Proof.
  destruct ds as [| d ds]; [congruence |]. intros _. cbn [common_lsts].
  assert (HL : forall d, In k (map (fun r => fmt (rlst r)) d) <-> has_lst d k).
  { intros d'. rewrite in_map_iff. unfold has_lst. split; intros (r & A & B); exists r; auto. }
  assert (G : forall ds c, In k (fold_left (fun c d' => filter (fun k => memz k (map (fun r => fmt (rlst r)) d')) c) ds c)
     <-> In k c /\ forall d, In d ds -> has_lst d k).
  { clear -HL. induction ds as [| d' ds IH]; intros c; cbn [fold_left]; [cbn; intuition |].
    rewrite IH, filter_In, memz_spec, HL. cbn [In]. split.
    - intros [[A B] C]. split; [assumption |]. intros x [<- | Hx]; auto.
    - intros [A B]. repeat split; auto. }
  rewrite G, HL. cbn [In]. split.
  - intros [A B] x [<- | Hx]; auto.
  - intros A. split; auto.
Qed.

(** Every dataset keeps, in order, exactly the rows whose LST is found in all datasets. *)
Theorem trim_keeps_common :
  forall ds ds', trim_dset_lsts same_grid fmt ds = Ok ds' -> (forall d, In d ds -> consistent d) ->
    Forall2 (fun d d' => exists keep, d' = filter keep d /\
       forall r, In r d -> (keep r = true <-> forall x, In x ds -> has_lst x (fmt (rlst r)))) ds ds'.
Proof.
  intros ds ds' H HC. unfold trim_dset_lsts in H. apply require_ok in H. destruct H as [_ H].
  assert (NE : forall d, In d ds -> ds <> []) by (intros d Hd ->; destruct Hd).
  apply map_res_spec in H. set (c := common_lsts fmt ds) in *.
  assert (Hall : forall d, In d ds -> In d ds) by auto.
  assert (K : forall d d', In d ds -> trim_one fmt c d = Ok d' -> exists keep, d' = filter keep d /\
       forall r, In r d -> (keep r = true <-> forall x, In x ds -> has_lst x (fmt (rlst r)))).
  { intros d d' Hd E.
    assert (CS : forall r, memz (fmt (rlst r)) c = true <-> forall x, In x ds -> has_lst x (fmt (rlst r))).
    { intros r. rewrite memz_spec. apply common_spec. eapply NE; eassumption. }
    unfold trim_one in E. destruct (forallb _ d) eqn:Ef.
    - injection E as <-. exists (fun _ => true). split.
      + clear. induction d; cbn; congruence.
      + intros r Hr. rewrite forallb_forall in Ef. pose proof (Ef r Hr) as Q. rewrite CS in Q. split; [intros _; exact Q | reflexivity].
    - unfold select_times in E. apply require_ok in E. destruct E as [_ E]. injection E as <-.
      eexists. split; [reflexivity |]. intros r Hr. cbv beta. rewrite memz_spec, in_map_iff. split.
      + intros (r' & Et & Hr'). apply filter_In in Hr'. destruct Hr' as [Hin Hk]. apply CS.
        rewrite (HC d Hd r r' Hr Hin (eq_sym Et)). exact Hk.
      + intros A. exists r. split; [reflexivity |]. apply filter_In. split; [assumption |]. apply CS. exact A. }
  assert (G : forall l l', Forall2 (fun d d' => trim_one fmt c d = Ok d') l l' -> (forall d, In d l -> In d ds) ->
    Forall2 (fun d d' => exists keep, d' = filter keep d /\ forall r, In r d -> (keep r = true <-> forall x, In x ds -> has_lst x (fmt (rlst r)))) l l').
  { intros l l' HF. induction HF as [| d d' l l' E F IH]; intros S; constructor; [apply K; [apply S; left; reflexivity | exact E] |].
    apply IH. intros x Hx. apply S. right. assumption. }
  apply G; auto.
Qed.


(** Afterwards all datasets have the same LSTs: those that all had before. *)
Theorem trim_same_lsts :
  forall ds ds', trim_dset_lsts same_grid fmt ds = Ok ds' -> (forall d, In d ds -> consistent d) ->
    forall d', In d' ds' -> forall k, has_lst d' k <-> forall d, In d ds -> has_lst d k.
Proof.
  intros ds ds' H HC d' Hd' k. pose proof (trim_keeps_common ds ds' H HC) as F.
  assert (E : exists d, In d ds /\ exists keep, d' = filter keep d /\
       forall r, In r d -> (keep r = true <-> forall x, In x ds -> has_lst x (fmt (rlst r)))).
  { clear H HC. revert Hd'. set (Q := fun d d' : dset => exists keep, d' = filter keep d /\
       forall r, In r d -> (keep r = true <-> forall x, In x ds -> has_lst x (fmt (rlst r)))) in *. 
    change (In d' ds' -> exists d, In d ds /\ Q d d'). change (Forall2 Q ds ds') in F. clearbody Q. clear -F. induction F as [| x x' l l' P F IH]; intros Hd'; [destruct Hd' |].
    destruct Hd' as [<- | Hd']; [exists x; split; [left; reflexivity | assumption] |].
    destruct (IH Hd') as (d & Hd & HQ). exists d. split; [right; assumption | exact HQ]. }
  destruct E as (d & Hd & keep & -> & HK). split.
  - intros (r & Hr & <-). apply filter_In in Hr. apply HK; tauto.
  - intros A. destruct (A d Hd) as (r & Hr & E). exists r. split; [| assumption]. apply filter_In. split; [assumption |].
    apply HK; [assumption |]. rewrite E. exact A.
Qed.

(** With the same LST grid and non-empty datasets it succeeds exactly when some LST is common to all. *)
Theorem trim_accepts :
  forall ds, same_grid ds = true -> ds <> [] -> (forall d, In d ds -> d <> []) ->
    ((exists ds', trim_dset_lsts same_grid fmt ds = Ok ds') <-> exists k, forall d, In d ds -> has_lst d k).
Proof.
  intros ds Hg Hne Hd. unfold trim_dset_lsts. rewrite Hg. cbn [require]. set (c := common_lsts fmt ds).
  assert (CS : forall k, In k c <-> forall d, In d ds -> has_lst d k) by (intros; apply common_spec; assumption).
  split.
  - intros (ds' & H). apply map_res_spec in H. destruct ds as [| d0 ds]; [congruence |]. inversion H as [| ? d0' ? ? E _]; subst.
    assert (D0 : d0 <> []) by (apply Hd; left; reflexivity).
    unfold trim_one in E. destruct (forallb _ d0) eqn:Ef.
    + destruct d0 as [| r d0]; [congruence |]. cbn in Ef. apply Bool.andb_true_iff in Ef. exists (fmt (rlst r)). apply CS, memz_spec, Ef.
    + unfold select_times in E. apply require_ok in E. destruct E as [E _].
      destruct (filter (fun r => memz (fmt (rlst r)) c) d0) as [| r l] eqn:Efl; [discriminate |].
      assert (Hr : In r (filter (fun r => memz (fmt (rlst r)) c) d0)) by (rewrite Efl; left; reflexivity).
      apply filter_In in Hr. exists (fmt (rlst r)). apply CS, memz_spec, Hr.
  - intros (k & Hk). apply map_res_total. apply Forall_forall. intros d Hin. unfold trim_one. destruct (forallb _ d); [eauto |].
    unfold select_times. destruct (Hk d Hin) as (r & Hr & E).
    assert (Hf : In r (filter (fun r => memz (fmt (rlst r)) c) d)).
    { apply filter_In. split; [assumption |]. apply memz_spec, CS. rewrite E. exact Hk. }
    destruct (filter (fun r => memz (fmt (rlst r)) c) d); [destruct Hf |]. cbn. eauto.
Qed.
End Trim.

(** LSTs closer than the tolerance need not be recognised as equal: the comparison is one of rounded texts. *)
Theorem trim_tolerance_refuted :
  exists ds ds' d d' r r',
    trim_dset_lsts (fun _ => true) fmt6 ds = Ok ds' /\ In d ds /\ In d' ds /\ In r d /\ In r' d' /\
    Z.abs (rlst r - rlst r') <= 2 (* 2e-9 radians; the tolerance is 1e-6 *) /\ ~ (exists x, In x ds' /\ In r x).
Proof.
  exists [[mkrow 1 1499 1; mkrow 2 5000 2]; [mkrow 1 1501 3; mkrow 2 5000 4]], [[mkrow 2 5000 2]; [mkrow 2 5000 4]].
  exists [mkrow 1 1499 1; mkrow 2 5000 2], [mkrow 1 1501 3; mkrow 2 5000 4], (mkrow 1 1499 1), (mkrow 1 1501 3).
  split; [reflexivity |]. cbn [In]. repeat split; auto; try (cbn; lia).
  intros (x & [<- | [<- | []]] & [E | []]); discriminate.
Qed.
(** the text is that of the nearest multiple of 1e-6, the even one of two *)
Theorem trim_rounds_to_nearest : forall a, 2 * Z.abs (a - 1000 * fmt6 a) < 1000 \/ (2 * Z.abs (a - 1000 * fmt6 a) = 1000 /\ Z.even (fmt6 a) = true).
Proof.
  intros a. unfold fmt6. pose proof (Z.div_mod a 1000 ltac:(lia)). pose proof (Z.mod_pos_bound a 1000 ltac:(lia)).
  destruct (Z.ltb_spec (a mod 1000) 500); [left; lia|]. destruct (Z.ltb_spec 500 (a mod 1000)); [left; lia|]. right.
  destruct (Z.even (a / 1000)) eqn:E; (split; [lia|]); [exact E|]. rewrite Z.even_add, E. reflexivity.
Qed.
Print Assumptions trim_rounds_to_nearest.
(** conversely, LSTs with equal texts differ by at most the tolerance *)
Theorem trim_matched_within_tolerance : forall a b, fmt6 a = fmt6 b -> Z.abs (a - b) <= 1000.
Proof.
  intros a b. unfold fmt6. pose proof (Z.div_mod a 1000 ltac:(lia)). pose proof (Z.div_mod b 1000 ltac:(lia)).
  pose proof (Z.mod_pos_bound a 1000 ltac:(lia)). pose proof (Z.mod_pos_bound b 1000 ltac:(lia)).
  destruct (Z.ltb_spec (a mod 1000) 500), (Z.ltb_spec 500 (a mod 1000)), (Z.ltb_spec (b mod 1000) 500), (Z.ltb_spec 500 (b mod 1000));
    destruct (Z.even (a / 1000)), (Z.even (b / 1000)); intros; lia.
Qed.

Example interleave_example :
  interleave [[mkrow 3 0 1; mkrow 1 0 2; mkrow 3 0 3; mkrow 4 0 4; mkrow 7 0 5; mkrow 9 0 6]] [None]
  = Ok ([[mkrow 1 0 2; mkrow 4 0 4]; [mkrow 3 0 1; mkrow 3 0 3; mkrow 7 0 5]], [None; None], [(0, 1)]).
Proof. reflexivity. Qed.
Example trim_example :
  let d1 := [mkrow 1 10000 1; mkrow 1 10000 2; mkrow 2 11000 3] in
  let d2 := [mkrow 5 11200 4; mkrow 6 12000 5] in
  consistent d1 /\ trim_dset_lsts (fun _ => true) fmt6 [d1; d2] = Ok [[mkrow 2 11000 3]; [mkrow 5 11200 4]].
Proof.
  split; [| reflexivity]. intros r r' Hr Hr' E. cbn in Hr, Hr'.
  repeat match goal with H : _ \/ _ |- _ => destruct H as [<- | H] end; try contradiction; cbn in *; congruence || lia.
Qed.
Print Assumptions interleave_splits_times.
Print Assumptions trim_same_lsts.

(** ** the grid test *)
(** the distinct LSTs of a dataset are [n] equally spaced ones *)
Definition uniform_lsts (d : dset) (l0 step : Z) (n : nat) : Prop :=
  forall l, (exists r, In r d /\ rlst r = l) <-> exists k : nat, (k < n)%nat /\ l = l0 + Z.of_nat k * step.

Lemma repeat_insert x n : insert Z.leb x (repeat x n) = repeat x (S n).
Proof. destruct n; cbn; [reflexivity |]. rewrite Z.leb_refl. reflexivity. Qed.
Lemma isort_repeat x n : isort Z.leb (repeat x n) = repeat x n.
Proof. induction n; cbn; [reflexivity |]. unfold isort in IHn. rewrite IHn. apply repeat_insert. Qed.
Lemma nth_repeat_lt (x d : Z) n : forall k, (k < n)%nat -> nth k (repeat x n) d = x.
Proof. induction n; intros k H; [lia |]. destruct k; cbn; [reflexivity |]. apply IHn. lia. Qed.
Lemma median2_repeat x n : (0 < n)%nat -> median2 (repeat x n) = Some (2 * x).
Proof.
  intros H. unfold median2. rewrite isort_repeat, repeat_length.
  assert (A : (n / 2 < n)%nat) by (apply Nat.div_lt; lia).
  destruct n as [| n]; [lia |]. rewrite !nth_repeat_lt by lia. destruct (Nat.even (S n)); f_equal; lia.
Qed.
(** the spacing compared by the LST trimming is the median of the differences: of any sorted list of them, the middle one, or the mean of the middle two *)
Theorem lst_spacing_is_median :
  forall l s, Permutation s l -> StronglySorted Z.le s ->
    (l = [] -> median2 l = None) /\ (forall k, length l = (2 * k + 1)%nat -> median2 l = Some (2 * nth k s 0)) /\
    (forall k, length l = (2 * k + 2)%nat -> median2 l = Some (nth k s 0 + nth (k + 1) s 0)).
Proof.
  intros l s P So. assert (E : isort Z.leb l = s).
  { assert (O : order Z.leb) by (constructor; intros; rewrite ?Z.leb_le in *; lia).
    apply (sorted_unique Z.leb (ord_anti _ O)); [apply (isort_sorted Z.leb (ord_total _ O) (ord_trans _ O)) | | exact (Permutation_trans (isort_perm _ _) (Permutation_sym P))].
    clear -So. induction So as [| x s S' IH F]; constructor; [exact IH |]. rewrite Forall_forall in *. intros y Hy. apply Z.leb_le, F, Hy. }
  unfold median2. rewrite E. split; [intros ->; reflexivity |]. split; intros k H; rewrite H.
  - replace (2 * k + 1)%nat with (S (2 * k))%nat by lia. rewrite Nat.even_succ, Nat.odd_mul. cbn [Nat.odd Nat.even negb andb]. replace (S (2 * k) / 2)%nat with k; [reflexivity |].
    apply (Nat.div_unique _ 2 k 1); lia.
  - replace (2 * k + 2)%nat with (S (S (2 * k))%nat) by lia. rewrite Nat.even_succ, Nat.odd_succ, Nat.even_mul. cbn [Nat.even orb]. replace (S (S (2 * k))%nat / 2)%nat with (k + 1)%nat; [| apply (Nat.div_unique _ 2 _ 0); lia].
    replace (k + 1 - 1)%nat with k by lia. reflexivity.
Qed.
Print Assumptions lst_spacing_is_median.
Lemma dlst2_uniform d l0 step n : uniform_lsts d l0 step n -> 0 < step -> (1 < n)%nat -> dlst2 d = Some (2 * step).
Proof.
  intros U Hs Hn. unfold dlst2.
  assert (E : sorted_set Z.eq_dec Z.leb (map rlst d) = map (fun k => l0 + Z.of_nat k * step) (seq 0 n)).
  { apply sorted_set_fix; [constructor; intros; rewrite ?Z.leb_le in *; lia | | |].
    - apply FinFun.Injective_map_NoDup; [| apply seq_NoDup]. intros a b E. nia.
    - generalize 0%nat. clear -Hs. induction n as [| n IH]; intros k; cbn; constructor; [apply IH |].
      apply Forall_forall. intros y Hy. apply in_map_iff in Hy. destruct Hy as (j & <- & Hj). apply in_seq in Hj. apply Z.leb_le. nia.
    - intros x. rewrite !in_map_iff. split.
      + intros (r & E & Hr). destruct (proj1 (U x)) as (k & Hk & Ek); [eauto |]. exists k. split; [auto |]. apply in_seq. lia.
      + intros (k & E & Hk). apply in_seq in Hk. destruct (proj2 (U x)) as (r & Hr & Er); [exists k; split; [lia | auto] |]. eauto. }
  rewrite E. assert (D : forall m k, diffs (map (fun k => l0 + Z.of_nat k * step) (seq k (S m))) = repeat step m).
  { clear. induction m as [| m IH]; intros k; [reflexivity |]. cbn [seq map diffs repeat]. f_equal; [nia |]. exact (IH (S k)). }
  destruct n as [| n]; [lia |]. rewrite D. apply median2_repeat. lia.
Qed.

(** Datasets that are all on equally spaced LSTs with the same spacing pass the test, whatever their offsets. *)
Theorem trim_same_spacing_accepted :
  forall ds step, 0 < step -> ds <> [] -> (forall d, In d ds -> exists l0 n, (1 < n)%nat /\ uniform_lsts d l0 step n) ->
    ((exists ds', trim_dset_lsts same_grid6 fmt6 ds = Ok ds') <-> exists k, forall d, In d ds -> has_lst fmt6 d k).
Proof.
  intros ds step Hs Hne HU.
  assert (HD : forall d, In d ds -> dlst2 d = Some (2 * step)).
  { intros d Hd. destruct (HU d Hd) as (l0 & n & Hn & U). eapply dlst2_uniform; eassumption. }
  apply trim_accepts; [| assumption |].
  - unfold same_grid6. destruct ds as [| d0 ds0]; [reflexivity |]. apply forallb_forall. intros d Hd.
    rewrite (HD d Hd), (HD d0 (or_introl eq_refl)). cbn [close_dlst]. apply Z.leb_le. rewrite Z.sub_diag. cbn [Z.abs]. lia.
  - intros d Hd ->. destruct (HU [] Hd) as (l0 & n & Hn & U). destruct (proj2 (U l0)) as (r & [] & _). exists 0%nat. lia.
Qed.
(** A dataset whose spacing differs from that of the first by more than 1e-6/Ntimes + 1e-5 of it is refused. *)
Theorem trim_other_spacing_refused :
  forall d0 ds d l0 l1 step0 step n0 n, In d ds -> 0 < step0 -> 0 < step -> (1 < n0)%nat -> (1 < n)%nat ->
    uniform_lsts d0 l0 step0 n0 -> uniform_lsts d l1 step n ->
    let nt := Z.of_nat (length (utimes d)) in
    1000 * 100000 + step * nt < Z.abs (step0 - step) * nt * 100000 ->
    trim_dset_lsts same_grid6 fmt6 (d0 :: ds) = Err ValueError.
Proof.
  intros d0 ds d l0 l1 step0 step n0 n Hd H0 H1 Hn0 Hn U0 U1 nt Hlt. unfold trim_dset_lsts.
  assert (E : same_grid6 (d0 :: ds) = false).
  { unfold same_grid6. destruct (forallb _ (d0 :: ds)) eqn:E; [| reflexivity]. exfalso. rewrite forallb_forall in E.
    specialize (E d (or_intror Hd)). rewrite (dlst2_uniform d0 l0 step0 n0 U0 H0 Hn0), (dlst2_uniform d l1 step n U1 H1 Hn) in E.
    cbn [close_dlst] in E. apply Z.leb_le in E. fold nt in E. rewrite <- Z.mul_sub_distr_l, Z.abs_mul in E. change (Z.abs 2) with 2 in E.
    rewrite (Z.abs_eq (2 * step)) in E by lia. nia. }
  rewrite E. reflexivity.
Qed.
(** False of the code: datasets that agree in every LST can be trimmed. With a single LST each there is no spacing to
    compare (the median of an empty array is nan), and the call is refused. *)
Theorem trim_single_lst_refuted :
  forall ds l, ds <> [] -> (forall d, In d ds -> d <> [] /\ forall r, In r d -> rlst r = l) ->
    trim_dset_lsts same_grid6 fmt6 ds = Err ValueError.
Proof.
  intros [| d ds] l Hne H; [congruence |]. destruct (H d (or_introl eq_refl)) as [Hd Hl]. unfold trim_dset_lsts.
  assert (E : dlst2 d = None).
  { unfold dlst2. assert (E : sorted_set Z.eq_dec Z.leb (map rlst d) = [l]).
    { apply sorted_set_fix; [constructor; intros; rewrite ?Z.leb_le in *; lia | | |].
      - repeat constructor. intros [].
      - repeat constructor.
      - intros x. cbn [In]. rewrite in_map_iff. split.
        + intros (r & <- & Hr). left. symmetry. apply Hl, Hr.
        + intros [<- | []]. destruct d as [| r d]; [congruence |]. exists r. split; [apply Hl |]; left; reflexivity. }
    rewrite E. reflexivity. }
  unfold same_grid6. cbn [forallb]. rewrite E. reflexivity.
Qed.
Example trim_spacing_example :
  uniform_lsts [mkrow 1 10000 1; mkrow 2 12000 3] 10000 2000 2 /\ uniform_lsts [mkrow 1 12000 1; mkrow 1 12000 2; mkrow 2 14000 3] 12000 2000 2
  /\ trim_dset_lsts same_grid6 fmt6 [[mkrow 1 10000 1; mkrow 2 12000 3]; [mkrow 1 12000 1; mkrow 1 12000 2; mkrow 2 14000 3]] = Ok [[mkrow 2 12000 3]; [mkrow 1 12000 1; mkrow 1 12000 2]]
  /\ trim_dset_lsts same_grid6 fmt6 [[mkrow 1 10000 1; mkrow 2 12000 3]; [mkrow 1 12000 1; mkrow 2 14600 3]] = Err ValueError
  /\ uniform_lsts [mkrow 1 12000 1; mkrow 2 14600 3] 12000 2600 2.
Proof.
  assert (T : forall a b, uniform_lsts [a; b] (rlst a) (rlst b - rlst a) 2).
  { intros a b l. split.
    - intros (r & [<- | [<- | []]] & <-); [exists 0%nat | exists 1%nat]; split; lia.
    - intros (k & Hk & ->). destruct k as [| [| k]]; [exists a | exists b | lia]; cbn [In]; split; auto; lia. }
  split; [apply (T (mkrow 1 10000 1) (mkrow 2 12000 3)) |]. split; [| split; [vm_compute; reflexivity | split; [vm_compute; reflexivity | apply (T (mkrow 1 12000 1) (mkrow 2 14600 3))]]].
  intros l. rewrite <- (T (mkrow 1 12000 2) (mkrow 2 14000 3) l). split; intros (r & Hr & E); [exists (if Z.eq_dec (rid r) 1 then mkrow 1 12000 2 else r) | exists r]; cbn [In] in *.
  - destruct Hr as [<- | [<- | [<- | []]]]; cbn in E; subst l.
    + cbn. auto.
    + auto.
    + auto.
  - tauto.
Qed.
Print Assumptions trim_same_spacing_accepted.
Print Assumptions trim_other_spacing_refused.
Print Assumptions trim_single_lst_refuted.
