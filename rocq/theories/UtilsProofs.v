(** Proofs about baseline pairs, spectral window ranges, redundant groups, retries. *)
From Coq Require Import Permutation Sorted.
From Verif Require Import Prelude ListLemmas UvpModel UvpProofs CombineModel CombineProofs CombineSound CombineObject CombineTree CombineMerge UtilsModel.

(** * lists *)
Lemma nodup_concat {A B} (f : A -> list B) l : NoDup l -> (forall x, In x l -> NoDup (f x)) ->
  (forall x y z, In x l -> In y l -> In z (f x) -> In z (f y) -> x = y) -> NoDup (concat (map f l)).
Proof.
  intros N Hf Hd. induction l as [|x l IH]; [constructor|]. cbn. apply NoDup_cons_iff in N. destruct N as [Hx N].
  assert (G : NoDup (concat (map f l))).
  { apply IH; [exact N | intros; apply Hf; right; assumption | intros a b z Ha Hb; apply Hd; right; assumption]. }
  assert (D : forall z, In z (f x) -> ~ In z (concat (map f l))).
  { intros z Hz Hc. apply in_concat in Hc. destruct Hc as [k [Hk Hz']]. apply in_map_iff in Hk. destruct Hk as [y [<- Hy]].
    assert (x = y) by (apply (Hd x y z); [left; reflexivity | right; exact Hy | exact Hz | exact Hz']). subst y. contradiction. }
  pose proof (Hf x (or_introl eq_refl)) as Nf. revert Nf D. generalize (f x) as k. clear -G. induction k as [|z k IH]; intros Nf D; [exact G|].
  cbn. apply NoDup_cons_iff in Nf. destruct Nf as [Hz Nf]. constructor.
  - intro H. apply in_app_or in H. destruct H; [contradiction|]. exact (D z (or_introl eq_refl) H).
  - apply IH; [exact Nf | intros w Hw; apply D; right; exact Hw].
Qed.
Lemma nodup_filter {A} (f : A -> bool) l : NoDup l -> NoDup (filter f l).
Proof. induction 1 as [|x l H N IH]; cbn; [constructor|]. destruct (f x); [constructor; [intro G; apply filter_In in G; tauto | exact IH] | exact IH]. Qed.

(** [a] is listed before [b] *)
Definition before {A} (a b : A) (l : list A) : Prop := exists x y z, l = x ++ a :: y ++ b :: z.

Lemma combos_In {A} (l : list A) a b : In (a, b) (combinations2 l) <-> before a b l.
Proof.
  assert (E : combinations2 l = all_pairs l) by (induction l as [|x l IH]; [reflexivity|]; cbn; rewrite IH; reflexivity).
  rewrite E. exact (all_pairs_In l a b).
Qed.
Lemma combos_NoDup {A} (l : list A) : NoDup l -> NoDup (combinations2 l).
Proof.
  induction l as [|x l IH]; intro N; [constructor|]. cbn. apply NoDup_cons_iff in N. destruct N as [Hx N].
  assert (D : forall p, In p (map (pair x) l) -> ~ In p (combinations2 l)).
  { intros p Hp Hc. apply in_map_iff in Hp. destruct Hp as [y [<- Hy]]. apply combos_In in Hc. destruct Hc as (a & b & c & E).
    apply Hx. rewrite E. apply in_or_app. right. left. reflexivity. }
  assert (N1 : NoDup (map (pair x) l)) by (apply FinFun.Injective_map_NoDup; [intros ? ? E; congruence | exact N]).
  specialize (IH N). revert N1 D. generalize (map (pair x) l) as k. induction k as [|p k IHk]; intros N1 D; [exact IH|].
  cbn. apply NoDup_cons_iff in N1. destruct N1 as [Hp N1]. constructor.
  - intro H. apply in_app_or in H. destruct H; [contradiction|]. exact (D p (or_introl eq_refl) H).
  - apply IHk; [exact N1 | intros w Hw; apply D; right; exact Hw].
Qed.
Lemma without_split {A} (l : list A) i a : nth_error l i = Some a -> l = firstn i l ++ a :: skipn (S i) l.
Proof.
  revert l; induction i as [|i IH]; intros [|x l] H; try discriminate; cbn in *; [congruence|]. f_equal. apply IH, H.
Qed.
Lemma without_In {A} (l : list A) i a b : NoDup l -> nth_error l i = Some a -> (In b (without i l) <-> In b l /\ b <> a).
Proof.
  intros N H. unfold without. pose proof (without_split l i a H) as E. rewrite in_app_iff.
  rewrite E in N. pose proof (NoDup_remove_2 _ _ _ N) as Na. rewrite in_app_iff in Na.
  split.
  - intro Hb. split; [|intros ->; tauto]. rewrite E, in_app_iff. cbn [In]. tauto.
  - intros [Hb Hne]. rewrite E, in_app_iff in Hb. cbn [In] in Hb. destruct Hb as [Hb|[Hb|Hb]]; [tauto | congruence | tauto].
Qed.
Lemma perms_In {A} (l : list A) a b : NoDup l -> (In (a, b) (permutations2 l) <-> In a l /\ In b l /\ a <> b).
Proof.
  intro N. unfold permutations2. rewrite in_concat. split.
  - intros [k [Hk Hp]]. apply in_map_iff in Hk. destruct Hk as [[i x] [<- Hi]]. apply indexed_In in Hi. cbn [fst snd] in Hp.
    apply in_map_iff in Hp. destruct Hp as [y [E Hy]]. injection E as -> ->. apply (without_In l i a b N Hi) in Hy.
    split; [eapply nth_error_In; exact Hi|]. split; [tauto | intro; apply (proj2 Hy); congruence].
  - intros [Ha [Hb Hne]]. apply In_nth_error in Ha. destruct Ha as [i Hi].
    exists (map (pair a) (without i l)). split.
    + apply in_map_iff. exists (i, a). split; [reflexivity|]. eapply nth_error_In. exact (indexed_nth l i a Hi).
    + apply in_map. apply (without_In l i a b N Hi). split; [exact Hb | congruence].
Qed.
Lemma without_NoDup {A} (l : list A) i : NoDup l -> NoDup (without i l).
Proof.
  intro N. destruct (nth_error l i) as [a|] eqn:E.
  - rewrite (without_split l i a E) in N. apply NoDup_remove_1 in N. exact N.
  - apply nth_error_None in E. unfold without. rewrite firstn_all2, skipn_all2, app_nil_r by lia. exact N.
Qed.
Lemma perms_NoDup {A} (l : list A) : NoDup l -> NoDup (permutations2 l).
Proof.
  intro N. unfold permutations2. apply nodup_concat.
  - assert (G : NoDup (map fst (combine (seq 0 (length l)) l))).
    { assert (E : map fst (combine (seq 0 (length l)) l) = seq 0 (length l)); [|rewrite E; apply seq_NoDup].
      assert (K : forall k, map fst (combine (seq k (length l)) l) = seq k (length l)); [|apply K].
      clear N. induction l as [|x l IH]; intro k; [reflexivity|]. cbn. f_equal. apply IH. }
    eapply NoDup_map_inv. exact G.
  - intros [i x] _. apply FinFun.Injective_map_NoDup; [intros ? ? E; congruence | apply without_NoDup, N].
  - intros [i x] [j y] p Hi Hj Hp Hq. cbn [fst snd] in *. apply in_map_iff in Hp. destruct Hp as [u [<- _]]. apply in_map_iff in Hq. destruct Hq as [v [E _]].
    injection E as -> ->. apply indexed_In in Hi. apply indexed_In in Hj. f_equal. exact (NoDup_nth_inj l i j _ N Hi Hj).
Qed.
Lemma autos_In {A} (l : list A) a b : In (a, b) (combine l l) <-> In a l /\ a = b.
Proof.
  split.
  - intro H. split; [apply in_combine_l in H; exact H|]. induction l as [|x l IH]; [destruct H|]. destruct H as [H|H]; [congruence | auto].
  - intros [H ->]. induction l as [|x l IH]; [destruct H|]. cbn. destruct H as [->|H]; [left; reflexivity | right; auto].
Qed.
Lemma autos_NoDup {A} (l : list A) : NoDup l -> NoDup (combine l l).
Proof. intro N. apply (NoDup_map_inv fst). replace (map fst (combine l l)) with l; [exact N|]. clear. induction l; cbn; congruence. Qed.
Lemma before_ne {A} (a b : A) l : NoDup l -> before a b l -> a <> b.
Proof. intros N (x & y & z & ->) ->. apply NoDup_remove_2 in N. apply N, in_or_app. right. apply in_or_app. right. left. reflexivity. Qed.
Lemma before_in {A} (a b : A) l : before a b l -> In a l /\ In b l.
Proof. intros (x & y & z & ->). split; apply in_or_app; right; [left; reflexivity|]. right. apply in_or_app. right. left. reflexivity. Qed.
Lemma before_total {A} (a b : A) l : In a l -> In b l -> a <> b -> before a b l \/ before b a l.
Proof.
  intros Ha Hb Hne. apply in_split in Ha. destruct Ha as [x [z ->]]. apply in_app_or in Hb. destruct Hb as [Hb|[Hb|Hb]]; [| congruence |].
  - right. apply in_split in Hb. destruct Hb as [u [v ->]]. exists u, v, z. rewrite <- app_assoc. reflexivity.
  - left. apply in_split in Hb. destruct Hb as [u [v ->]]. exists x, u, v. reflexivity.
Qed.
Lemma before_anti {A} (a b : A) l : NoDup l -> before a b l -> before b a l -> False.
Proof.
  intros N (x & y & z & E) (x' & y' & z' & E').
  assert (Na : nth_error l (length x) = Some a) by (rewrite E, nth_error_app2, Nat.sub_diag by lia; reflexivity).
  assert (Nb : nth_error l (length (x ++ a :: y)) = Some b).
  { rewrite E. change (x ++ a :: y ++ b :: z) with (x ++ (a :: y) ++ b :: z). rewrite app_assoc, nth_error_app2, Nat.sub_diag by lia. reflexivity. }
  assert (Nb' : nth_error l (length x') = Some b) by (rewrite E', nth_error_app2, Nat.sub_diag by lia; reflexivity).
  assert (Na' : nth_error l (length (x' ++ b :: y')) = Some a).
  { rewrite E'. change (x' ++ b :: y' ++ a :: z') with (x' ++ (b :: y') ++ a :: z'). rewrite app_assoc, nth_error_app2, Nat.sub_diag by lia. reflexivity. }
  pose proof (NoDup_nth_inj l _ _ _ N Na Na') as E1. pose proof (NoDup_nth_inj l _ _ _ N Nb Nb') as E2.
  rewrite app_length in E1, E2. cbn in E1, E2. lia.
Qed.

(** * construct_blpairs *)
Section CB.
Context {A : Type}.
Variable eqb : A -> A -> bool.
Hypothesis eqb_eq : forall a b, eqb a b = true <-> a = b.

Theorem blpairs_flat_spec bls ea ec ep : bls <> [] -> ea && ec = false -> NoDup bls ->
  exists ps, blpairs_flat eqb bls ea ec ep = Ok ps /\ NoDup ps /\
    forall a b, In (a, b) ps <-> In a bls /\ In b bls /\ (ea = true -> a <> b) /\ (ec = true -> a = b) /\
                                 (ep = true -> a = b \/ before a b bls).
Proof.
  intros Hne Hx N. unfold blpairs_flat. destruct bls as [|b0 bls0]; [congruence|]. set (bls := b0 :: bls0) in *.
  replace (negb ea || negb ec) with true by (destruct ea, ec; cbn in *; congruence). cbn [require].
  set (p0 := (if ep then combinations2 bls else permutations2 bls) ++ combine bls bls).
  assert (M0 : forall a b, In (a, b) p0 <-> In a bls /\ In b bls /\ (ep = true -> a = b \/ before a b bls)).
  { intros a b. unfold p0. rewrite in_app_iff, autos_In. destruct ep.
    - rewrite combos_In. split.
      + intros [H|[H E]]; [destruct (before_in a b bls H); auto | subst b; auto].
      + intros [Ha [Hb Hp]]. destruct (Hp eq_refl) as [E|E]; [right; auto | left; exact E].
    - rewrite (perms_In bls a b N). split.
      + intros [H|[H E]]; [split; [tauto|]; split; [tauto | discriminate] | subst b; split; [exact H|]; split; [exact H | discriminate]].
      + intros [Ha [Hb _]]. destruct (eqb a b) eqn:E; [right; split; [exact Ha | apply eqb_eq, E]|].
        left. split; [exact Ha|]. split; [exact Hb|]. intro C. apply eqb_eq in C. congruence. }
  assert (N0 : NoDup p0).
  { unfold p0. assert (N1 : NoDup (if ep then combinations2 bls else permutations2 bls)) by (destruct ep; [apply combos_NoDup, N | apply perms_NoDup, N]).
    assert (D : forall p, In p (if ep then combinations2 bls else permutations2 bls) -> ~ In p (combine bls bls)).
    { intros [a b] Hp Hc. apply autos_In in Hc. destruct Hc as [_ ->]. destruct ep.
      - apply combos_In in Hp. exact (before_ne b b bls N Hp eq_refl).
      - apply (perms_In bls b b N) in Hp. tauto. }
    pose proof (autos_NoDup bls N) as N2. revert N1 D. generalize (if ep then combinations2 bls else permutations2 bls) as k.
    induction k as [|p k IHk]; intros N1 D; [exact N2|]. cbn. apply NoDup_cons_iff in N1. destruct N1 as [Hp N1]. constructor.
    - intro H. apply in_app_or in H. destruct H; [contradiction|]. exact (D p (or_introl eq_refl) H).
    - apply IHk; [exact N1 | intros w Hw; apply D; right; exact Hw]. }
  eexists. split; [reflexivity|]. split.
  - destruct ec; [apply nodup_filter|]; (destruct ea; [apply nodup_filter|]); exact N0.
  - intros a b. destruct ea, ec; try discriminate; rewrite ?filter_In, M0; cbn [fst snd];
      rewrite ?negb_true_iff; try rewrite <- (not_true_iff_false (eqb a b)), eqb_eq; try rewrite eqb_eq; intuition congruence.
Qed.
End CB.

(** * chunks *)
Lemma slice_cat {X} (a n : nat) (l : list X) : slice a (a + n) l = firstn n (skipn a l).
Proof. unfold slice. rewrite skipn_firstn_comm. f_equal. lia. Qed.
Definition nchunks {X} (k : nat) (l : list X) : list (list X) :=
  map (fun i => slice (i * k) ((i + 1) * k) l) (seq 0 ((length l + k - 1) / k)).
Lemma nchunks_nil {X} k : 1 <= k -> nchunks k (@nil X) = [].
Proof. intro H. unfold nchunks. cbn [length plus]. rewrite Nat.div_small by lia. reflexivity. Qed.
Lemma nchunks_cons {X} k (l : list X) : 1 <= k -> l <> [] -> nchunks k l = firstn k l :: nchunks k (skipn k l).
Proof.
  intros Hs Hne. unfold nchunks.
  assert (L : 1 <= length l) by (destruct l; [congruence | cbn; lia]).
  assert (D : (length l + k - 1) / k = S ((length (skipn k l) + k - 1) / k)).
  { rewrite skipn_length. destruct (Nat.le_gt_cases k (length l)) as [G|G].
    - replace (length l + k - 1) with ((length l - k + k - 1) + 1 * k) by lia. rewrite Nat.div_add by lia. lia.
    - replace (length l - k) with 0 by lia. rewrite (Nat.div_small (0 + k - 1) k) by lia.
      replace (length l + k - 1) with ((length l - 1) + 1 * k) by lia. rewrite Nat.div_add by lia.
      rewrite Nat.div_small by lia. reflexivity. }
  rewrite D. cbn [seq map]. f_equal.
  - rewrite Nat.mul_0_l, Nat.add_0_l, Nat.mul_1_l. unfold slice. reflexivity.
  - rewrite <- seq_shift, map_map. apply map_ext. intro i.
    replace ((S i + 1) * k) with (S i * k + k) by lia. replace ((i + 1) * k) with (i * k + k) by lia. rewrite !slice_cat.
    rewrite skipn_skipn'. f_equal. f_equal. lia.
Qed.
Lemma nchunks_ind {X} (P : list X -> list (list X) -> Prop) k : 1 <= k -> P [] [] ->
  (forall l, l <> [] -> P (skipn k l) (nchunks k (skipn k l)) -> P l (firstn k l :: nchunks k (skipn k l))) ->
  forall l, P l (nchunks k l).
Proof.
  intros Hk H0 HS l. remember (length l) as n eqn:En. assert (Hn : length l <= n) by lia. clear En. revert l Hn.
  induction n as [|n IH]; intros l Hn.
  - destruct l; [|cbn in Hn; lia]. rewrite nchunks_nil by exact Hk. exact H0.
  - destruct l as [|x l]; [rewrite nchunks_nil by exact Hk; exact H0|]. rewrite nchunks_cons by (try exact Hk; discriminate).
    apply HS; [discriminate|]. apply IH. rewrite skipn_length. cbn [length] in *. lia.
Qed.
Lemma nchunks_concat {X} k (l : list X) : 1 <= k -> concat (nchunks k l) = l.
Proof. intro Hk. apply (nchunks_ind (fun l c => concat c = l) k Hk); [reflexivity|]. intros m _ E. cbn. rewrite E. apply firstn_skipn. Qed.
Lemma nchunks_sizes {X} k (l : list X) : 1 <= k -> forall c, In c (nchunks k l) -> 1 <= length c <= k.
Proof.
  intro Hk. apply (nchunks_ind (fun l cs => forall c, In c cs -> 1 <= length c <= k) k Hk); [intros c []|].
  intros m Hm IH c [<-|Hc]; [|apply IH, Hc]. rewrite firstn_length. destruct m; [congruence|]. cbn. lia.
Qed.
Lemma nchunks_full {X} k (l : list X) : 1 <= k -> forall a c b, nchunks k l = a ++ c :: b -> b <> [] -> length c = k.
Proof.
  intro Hk. apply (nchunks_ind (fun l cs => forall a c b, cs = a ++ c :: b -> b <> [] -> length c = k) k Hk); [intros [|] c b E; discriminate|].
  intros m Hm IH [|a0 a] c b E Hb.
  - injection E as <- E. rewrite firstn_length. destruct (Nat.le_gt_cases k (length m)); [lia|].
    rewrite skipn_all2, nchunks_nil in E by lia. congruence.
  - injection E as _ E. exact (IH a c b E Hb).
Qed.
Lemma nchunks_map {X Y} (f : X -> Y) k l : nchunks k (map f l) = map (map f) (nchunks k l).
Proof. unfold nchunks. rewrite map_map, map_length. apply map_ext. intro i. unfold slice. rewrite firstn_map, skipn_map. reflexivity. Qed.
Lemma chunks_pos {X} n (l : list X) : (0 < n)%Z -> chunks n l = Ok (nchunks (Z.to_nat n) l).
Proof. intro H. unfold chunks. destruct (Z.eqb_spec n 0); [lia|]. destruct (Z.ltb_spec n 0); [lia|]. reflexivity. Qed.

(** * spw_range_from_freqs *)
Lemma last_in {A} (l : list A) d : l <> [] -> In (last l d) l.
Proof. intro H. induction l as [|x l IH]; [congruence|]. destruct l as [|y l]; [left; reflexivity|]. right. apply IH. discriminate. Qed.
Lemma sorted_last (l : list nat) d : StronglySorted lt l -> forall x, In x l -> x <= last l d.
Proof.
  induction 1 as [|x l S IH F]; intros y Hy; [destruct Hy|]. destruct l as [|z l].
  - destruct Hy as [->|[]]. cbn. lia.
  - destruct Hy as [->|Hy].
    + rewrite Forall_forall in F. assert (G : In (last (z :: l) d) (z :: l)) by (apply last_in; discriminate). apply F in G. change (last (y :: z :: l) d) with (last (z :: l) d). lia.
    + apply IH, Hy.
Qed.
Lemma sorted_first (l : list nat) x : StronglySorted lt (x :: l) -> forall y, In y (x :: l) -> x <= y.
Proof. intros S y [->|H]; [lia|]. apply StronglySorted_inv in S. destruct S as [_ F]. rewrite Forall_forall in F. specialize (F y H). lia. Qed.
Definition ascending (freqs : list Z) : Prop := forall i j fi fj, nth_error freqs i = Some fi -> nth_error freqs j = Some fj -> i < j -> (fi < fj)%Z.

Theorem spw_range_spec freqs fmin fmax be i j : ascending freqs -> spw_range freqs fmin fmax be = Ok (Some (i, j)) ->
  i <= j < length freqs /\ forall k f, nth_error freqs k = Some f -> (i <= k <= j <-> (fmin <= f < fmax)%Z).
Proof.
  intros Asc H. unfold spw_range in H. repeat (apply require_ok in H; destruct H as [_ H]). injection H as H.
  set (m := map (fun f => (fmin <=? f)%Z && (f <? fmax)%Z) freqs) in *.
  pose proof (where_sorted m) as S. pose proof (where_spec m) as W.
  destruct (where_ m) as [|i0 l] eqn:E; [discriminate|]. injection H as <- <-.
  change (match l with [] => i0 | _ :: _ => last l i0 end) with (last (i0 :: l) i0).
  set (j0 := last (i0 :: l) i0) in *.
  assert (Hj : In j0 (i0 :: l)) by (apply last_in; discriminate).
  assert (Wf : forall k f, nth_error freqs k = Some f -> (In k (i0 :: l) <-> (fmin <= f < fmax)%Z)).
  { intros k f Hk. rewrite W. unfold m. rewrite nth_error_map, Hk. cbn. rewrite <- Z.leb_le, <- Z.ltb_lt.
    destruct (fmin <=? f)%Z, (f <? fmax)%Z; cbn; split; try congruence; intuition congruence. }
  assert (Lt : forall k, In k (i0 :: l) -> k < length freqs).
  { intros k Hk. apply W in Hk. apply nth_error_Some_lt in Hk. unfold m in Hk. rewrite map_length in Hk. exact Hk. }
  split; [split; [apply sorted_first with (l := l); assumption | apply Lt, Hj]|].
  intros k f Hk. rewrite <- (Wf k f Hk). split.
  - intros [H1 H2]. apply (Wf k f Hk).
    destruct (nth_error_lt freqs i0 (Lt i0 (or_introl eq_refl))) as [fi Fi]. destruct (nth_error_lt freqs j0 (Lt j0 Hj)) as [fj Fj].
    pose proof (proj1 (Wf i0 fi Fi) (or_introl eq_refl)) as Gi. pose proof (proj1 (Wf j0 fj Fj) Hj) as Gj.
    assert (fi <= f)%Z. { destruct (Nat.eq_dec i0 k) as [->|]; [assert (fi = f) by congruence; lia|]. pose proof (Asc i0 k fi f Fi Hk ltac:(lia)). lia. }
    assert (f <= fj)%Z. { destruct (Nat.eq_dec k j0) as [->|]; [assert (fj = f) by congruence; lia|]. pose proof (Asc k j0 f fj Hk Fj ltac:(lia)). lia. }
    lia.
  - intro H. split; [exact (sorted_first l i0 S k H) | exact (sorted_last (i0 :: l) i0 S k H)].
Qed.
Theorem spw_range_none freqs fmin fmax be : spw_range freqs fmin fmax be = Ok None ->
  forall f, In f freqs -> ~ (fmin <= f < fmax)%Z.
Proof.
  intros H f Hf C. unfold spw_range in H. repeat (apply require_ok in H; destruct H as [_ H]). injection H as H.
  apply In_nth_error in Hf. destruct Hf as [k Hk].
  destruct (where_ _) as [|i0 l] eqn:E; [|discriminate].
  assert (In k []); [|contradiction]. rewrite <- E. apply where_spec. rewrite nth_error_map, Hk. cbn.
  apply f_equal. apply andb_true_iff. rewrite Z.leb_le, Z.ltb_lt. lia.
Qed.
Lemma minZ_le l f : In f l -> (minZ l <= f)%Z.
Proof.
  unfold minZ. generalize (hd 0%Z l) as d. induction l as [|x l IH]; intros d H; [destruct H|]. cbn [fold_right].
  destruct H as [->|H]; [lia|]. specialize (IH d H). lia.
Qed.
Lemma maxZ_ge l f : In f l -> (f <= maxZ l)%Z.
Proof.
  unfold maxZ. generalize (hd 0%Z l) as d. induction l as [|x l IH]; intros d H; [destruct H|]. cbn [fold_right].
  destruct H as [->|H]; [lia|]. specialize (IH d H). lia.
Qed.
Lemma fold_pick (op : Z -> Z -> Z) l d : (forall a b, op a b = a \/ op a b = b) -> fold_right op d l = d \/ In (fold_right op d l) l.
Proof. intro H. induction l as [|x l IH]; [left; reflexivity|]. cbn [fold_right]. destruct (H x (fold_right op d l)) as [->| ->]; [right; left; reflexivity|]. destruct IH; [left; assumption | right; right; assumption]. Qed.
Lemma minZ_in l : l <> [] -> In (minZ l) l.
Proof. intro H. unfold minZ. destruct l as [|x l]; [congruence|]. destruct (fold_pick Z.min (x :: l) (hd 0%Z (x :: l))) as [E|E]; [intros; lia | rewrite E; left; reflexivity | exact E]. Qed.
Lemma maxZ_in l : l <> [] -> In (maxZ l) l.
Proof. intro H. unfold maxZ. destruct l as [|x l]; [congruence|]. destruct (fold_pick Z.max (x :: l) (hd 0%Z (x :: l))) as [E|E]; [intros; lia | rewrite E; left; reflexivity | exact E]. Qed.
Theorem spw_range_errors freqs fmin fmax : freqs <> [] ->
  ((exists e, spw_range freqs fmin fmax true = Err e) <->
   (fmax < fmin)%Z \/ (forall f, In f freqs -> (fmin < f)%Z) \/ (forall f, In f freqs -> (f < fmax)%Z)).
Proof.
  intro Hne. pose proof (minZ_in freqs Hne) as Hmin. pose proof (maxZ_in freqs Hne) as Hmax.
  unfold spw_range. destruct freqs as [|f0 fs]; [congruence|]. set (freqs := f0 :: fs) in *. rewrite !andb_true_r.
  destruct (Z.ltb_spec fmax fmin) as [L|L]; cbn [negb require]; [split; [intro; left; exact L | eauto]|].
  destruct (Z.ltb_spec fmin (minZ freqs)) as [L1|L1]; cbn [negb require].
  { split; [|eauto]. intros _. right. left. intros f Hf. pose proof (minZ_le freqs f Hf). lia. }
  destruct (Z.ltb_spec (maxZ freqs) fmax) as [L2|L2]; cbn [negb require].
  { split; [|eauto]. intros _. right. right. intros f Hf. pose proof (maxZ_ge freqs f Hf). lia. }
  split; [intros [e E]; discriminate|]. intros [H|[H|H]]; [lia | specialize (H _ Hmin); lia | specialize (H _ Hmax); lia].
Qed.
