From Coq Require Import Permutation.
From Verif Require Import Prelude ListLemmas UvpModel UvpProofs KeyProofs GroupModel.

Section G.
Context {A : Type}.
Implicit Types l : list A.

Lemma slice_app_next (a n : nat) l : slice 0 a l ++ slice a (a + n) l = slice 0 (a + n) l.
Proof.
  unfold slice. cbn [skipn].
  replace (firstn a l) with (firstn a (firstn (a + n) l)) by (rewrite firstn_firstn; f_equal; lia).
  apply firstn_skipn.
Qed.

Definition chunk (n i : nat) l := slice (i * n) (S i * n) l.

Lemma concat_chunks n g l : concat (map (fun i => chunk n i l) (seq 0 g)) = firstn (g * n) l.
Proof.
  induction g as [|g IH]; [reflexivity|].
  rewrite seq_S, map_app, concat_app, IH. cbn [map concat]. rewrite app_nil_r. unfold chunk.
  change (firstn (g * n) l) with (slice 0 (g * n) l). cbn [plus].
  replace (S g * n) with (g * n + n) by lia. rewrite slice_app_next. reflexivity.
Qed.

Lemma chunk_length n i l : S i * n <= length l -> length (chunk n i l) = n.
Proof. intro H. unfold chunk, slice. rewrite skipn_length, firstn_length. lia. Qed.

Lemma grouped_eq (bls : list A) G n : (0 <= n)%Z -> (0 < G)%Z ->
  map (fun i => sliceZ (Z.of_nat i * n) ((Z.of_nat i + 1) * n) bls) (seq 0 (Z.to_nat G)) =
  map (fun i => chunk (Z.to_nat n) i bls) (seq 0 (Z.to_nat G)).
Proof.
  intros Hn HG. apply map_ext. intro i. unfold sliceZ, chunk. f_equal; lia.
Qed.

Lemma concat_removelast_last (gs : list (list A)) e : gs <> [] ->
  concat (removelast gs ++ [last gs [] ++ e]) = concat gs ++ e.
Proof.
  intro H. rewrite concat_app. cbn [concat]. rewrite app_nil_r.
  rewrite (app_removelast_last [] H) at 3. rewrite concat_app. cbn [concat].
  rewrite app_nil_r, app_assoc. reflexivity.
Qed.

Lemma removelast_map_seq {B} (f : nat -> B) n : removelast (map f (seq 0 (S n))) = map f (seq 0 n).
Proof. rewrite seq_S, map_app. cbn [map]. rewrite removelast_last. reflexivity. Qed.
Lemma last_map_seq' {B} (f : nat -> B) n d : last (map f (seq 0 (S n))) d = f n.
Proof. rewrite seq_S, map_app. cbn [map plus]. apply last_last. Qed.
Lemma map_seq_len {B} (f : nat -> B) n : length (map f (seq 0 n)) = n.
Proof. rewrite map_length, seq_length. reflexivity. Qed.

(** everything about a successful grouping *)
Theorem group_baselines_spec (bls : list A) G keep sh :
  (forall f, sh = Some f -> Permutation (f bls) bls) ->
  (0 < G <= Z.of_nat (length bls))%Z ->
  let n := length bls / Z.to_nat G in
  let rem := length bls mod Z.to_nat G in
  let order := match sh with Some f => f bls | None => bls end in
  exists gs, group_baselines bls G keep sh = Ok gs /\
    length gs = Z.to_nat G /\
    1 <= n /\
    (forall i g, nth_error gs i = Some g ->
       length g = if keep && (i =? Z.to_nat G - 1) then n + rem else n) /\
    concat gs = if keep then order else firstn (length bls - rem) order.
Proof.
  intros Hp HG n rem order.
  assert (Lo : length order = length bls).
  { unfold order. destruct sh as [f|]; [apply Permutation_length, Hp; reflexivity | reflexivity]. }
  assert (En : (Z.of_nat (length bls) / G)%Z = Z.of_nat n).
  { unfold n. rewrite Nat2Z.inj_div. rewrite Z2Nat.id by lia. reflexivity. }
  assert (Hdm : length bls = Z.to_nat G * n + rem /\ rem < Z.to_nat G).
  { split; [apply Nat.div_mod; lia | apply Nat.mod_upper_bound; lia]. }
  destruct Hdm as [Hdm Hrem].
  assert (Hn : 1 <= n). { destruct n; lia. }
  clearbody n rem. unfold group_baselines.
  destruct (Z.eqb_spec G 0) as [?|_]; [lia|].
  destruct (Z.ltb_spec (Z.of_nat (length bls)) G) as [?|_]; [lia|].
  change (match sh with Some f => f bls | None => bls end) with order.
  rewrite En. rewrite grouped_eq by lia. rewrite Nat2Z.id.
  remember (Z.to_nat G) as g eqn:Eg.
  assert (Erem : (Z.of_nat (length bls) - Z.of_nat n * G)%Z = Z.of_nat rem).
  { replace G with (Z.of_nat g) by lia. nia. }
  rewrite Erem.
  assert (Hch : forall i c, nth_error (map (fun i => chunk n i order) (seq 0 g)) i = Some c -> length c = n).
  { intros i c Hc. assert (i < g). { rewrite <- (map_seq_len (fun i => chunk n i order) g). apply nth_error_Some. congruence. }
    rewrite nth_error_map in Hc. assert (Es : nth_error (seq 0 g) i = Some i).
    { rewrite (nth_error_nth' _ 0) by (rewrite seq_length; lia). rewrite seq_nth by lia. reflexivity. }
    rewrite Es in Hc. cbn in Hc. injection Hc as <-. apply chunk_length. rewrite Lo. nia. }
  destruct keep; cbn [andb].
  - destruct (Z.ltb_spec 0 (Z.of_nat rem)) as [Hr|Hr].
    + destruct g as [|g']; [lia|].
      unfold append_last.
      destruct (map (fun i => chunk n i order) (seq 0 (S g'))) as [|h t] eqn:Em; [discriminate Em|].
      rewrite <- Em in *. clear Em h t. eexists. split; [reflexivity|].
      split. { rewrite removelast_map_seq, app_length, map_seq_len. cbn [length]. lia. }
      split; [exact Hn|]. split.
      * intros i c Hc. rewrite removelast_map_seq, last_map_seq' in Hc.
        destruct (Nat.eqb_spec i (S g' - 1)) as [->|Hi].
        -- rewrite nth_error_app2 in Hc by (rewrite map_seq_len; lia). rewrite map_seq_len in Hc.
           replace (S g' - 1 - g') with 0 in Hc by lia. cbn in Hc. injection Hc as <-.
           rewrite app_length, chunk_length by (rewrite Lo; nia). unfold last_r.
           rewrite skipn_length, Lo, Nat2Z.id. lia.
        -- assert (i < g').
           { assert (i < length (map (fun i => chunk n i order) (seq 0 g') ++ [chunk n g' order ++ last_r (Z.of_nat rem) order])) by (apply nth_error_Some; congruence).
             rewrite app_length, map_seq_len in H. cbn in H. lia. }
           rewrite nth_error_app1 in Hc by (rewrite map_seq_len; lia).
           apply Hch with i. rewrite seq_S, map_app, nth_error_app1 by (rewrite map_seq_len; lia). exact Hc.
      * rewrite concat_removelast_last by (rewrite seq_S, map_app; destruct (map _ (seq 0 g')); discriminate).
        rewrite concat_chunks. unfold last_r. rewrite Nat2Z.id, Lo.
        replace (length bls - rem) with (S g' * n) by nia. apply firstn_skipn.
    + assert (rem = 0) by lia. eexists. split; [reflexivity|]. split; [apply map_seq_len|].
      split; [exact Hn|]. split.
      * intros i c Hc. rewrite (Hch i c Hc). destruct (i =? g - 1); lia.
      * rewrite concat_chunks. apply firstn_all2. lia.
  - eexists. split; [reflexivity|]. split; [apply map_seq_len|]. split; [exact Hn|]. split.
    + intros i c Hc. exact (Hch i c Hc).
    + rewrite concat_chunks. f_equal. lia.
Qed.

Theorem group_baselines_errors (bls : list A) G keep sh :
  (G = 0%Z -> group_baselines bls G keep sh = Err ZeroDivisionError) /\
  ((Z.of_nat (length bls) < G)%Z -> group_baselines bls G keep sh = Err ValueError) /\
  ((G < 0)%Z -> group_baselines bls G keep sh = Ok []).
Proof.
  unfold group_baselines. repeat split; intro H.
  - subst. reflexivity.
  - destruct (Z.eqb_spec G 0) as [?|_]; [lia|].
    destruct (Z.ltb_spec (Z.of_nat (length bls)) G) as [_|?]; [reflexivity|lia].
  - destruct (Z.eqb_spec G 0) as [?|_]; [lia|].
    destruct (Z.ltb_spec (Z.of_nat (length bls)) G) as [?|_]; [lia|].
    replace (Z.to_nat G) with 0 by lia. cbn [seq map].
    destruct (Z.ltb_spec 0 (Z.of_nat (length bls) - Z.of_nat (length bls) / G * G)) as [Hr|_].
    + pose proof (Z.mod_neg_bound (Z.of_nat (length bls)) G H) as B.
      rewrite Z.mod_eq in B by lia. lia.
    + rewrite andb_false_r. reflexivity.
Qed.

Theorem sample_baselines_spec (bls : list A) draw :
  (forall i, i < length bls -> draw i < length bls) ->
  exists s, sample_baselines bls draw = Ok s /\ length s = length bls /\
    (forall x, In x s -> In x bls) /\
    forall i, i < length bls -> nth_error s i = nth_error bls (draw i).
Proof.
  intro H. unfold sample_baselines.
  destruct (gather_total bls (map draw (seq 0 (length bls)))) as [s Hs].
  { apply Forall_forall. intros j Hj. apply in_map_iff in Hj. destruct Hj as [i [<- Hi]].
    apply in_seq in Hi. apply H. lia. }
  exists s. split; [exact Hs|]. apply gather_spec in Hs.
  pose proof (picks_length _ _ _ Hs) as L. rewrite map_seq_len in L. split; [exact L|]. split.
  - intros x Hx. apply (picks_In _ _ _ x Hs) in Hx. destruct Hx as [i [_ Hi]].
    eapply nth_error_In. exact Hi.
  - intros i Hi. rewrite (picks_nth _ _ _ i (draw i) Hs); [reflexivity|].
    rewrite nth_error_map. rewrite (nth_error_nth' _ 0) by (rewrite seq_length; lia).
    rewrite seq_nth by lia. reflexivity.
Qed.
End G.

(** * bootstrap *)
Lemma sum_filter_eqb (num : nat) (draw : list nat) : Forall (fun i => i < num) draw ->
  list_sum (multiplicities num draw) = length draw.
Proof.
  intro H. unfold multiplicities. induction draw as [|d draw IH].
  - cbn. induction (seq 0 num) as [|x l IHl]; [reflexivity | exact IHl].
  - inversion H as [|? ? Hd Hr]; subst. specialize (IH Hr). cbn [length].
    rewrite <- IH. clear IH Hr H.
    assert (E : forall l, NoDup l ->
      list_sum (map (fun i => length (filter (Nat.eqb i) (d :: draw))) l) =
      (if memN d l then 1 else 0) + list_sum (map (fun i => length (filter (Nat.eqb i) draw)) l)).
    { induction l as [|x l IHl]; intro N; [reflexivity|]. inversion N as [|? ? Nx Nl]; subst.
      specialize (IHl Nl). unfold list_sum in *. cbn [map fold_right]. rewrite IHl.
      cbn [filter]. unfold memN. cbn [existsb].
      destruct (Nat.eqb_spec x d) as [->|Hne].
      - rewrite Nat.eqb_refl. cbn [orb length].
        assert (Hm : memN d l = false) by (apply memN_false; exact Nx). unfold memN in Hm. rewrite Hm. lia.
      - destruct (Nat.eqb_spec d x) as [?|_]; [congruence|]. cbn [orb length].
        destruct (existsb (Nat.eqb d) l); lia. }
    rewrite (E _ (seq_NoDup _ _)).
    assert (Hm : memN d (seq 0 num) = true) by (apply memN_In, in_seq; lia). rewrite Hm. reflexivity.
Qed.

Lemma multiplicities_length num draw : length (multiplicities num draw) = num.
Proof. unfold multiplicities. rewrite map_length, seq_length. reflexivity. Qed.

Lemma avail_in_spec grp blps : NoDup (avail_in grp blps) /\
  forall b, In b (avail_in grp blps) <-> In b grp /\ In b blps.
Proof.
  unfold avail_in. destruct (ordered_unique_spec [] grp) as [H1 H2]. split.
  - apply NoDup_filter. exact H2.
  - intro b. rewrite filter_In, H1, memZ_In. cbn. tauto.
Qed.

Lemma bootstrap_single obj groups draws :
  bootstrap_weights [obj] groups draws =
  require (forallb (forallb (fun b => memZ b obj)) groups) KeyError
    (Ok [map (fun gi => (avail_in (snd gi) obj,
            multiplicities (length (avail_in (snd gi) obj)) (draws (fst gi) (length (avail_in (snd gi) obj)))))
         (combine (seq 0 (length groups)) groups)]).
Proof.
  unfold bootstrap_weights. cbn [length Nat.ltb Nat.leb].
  replace (forallb (forallb (fun b => existsb (memZ b) [obj])) groups)
    with (forallb (forallb (fun b => memZ b obj)) groups).
  - f_equal. f_equal. f_equal. cbn [seq map]. f_equal. rewrite map_map. apply map_ext. intros [i g].
    unfold bootstrap_group. cbn [map concat split_weights snd fst nth app]. rewrite app_nil_r.
    f_equal. apply firstn_all2. rewrite multiplicities_length. lia.
  - induction groups as [|g groups IH]; [reflexivity|]. cbn [forallb]. rewrite IH. f_equal.
    induction g as [|b g IHg]; [reflexivity|]. cbn [forallb existsb]. rewrite IHg, orb_false_r. reflexivity.
Qed.

Theorem bootstrap_spec obj groups draws out :
  (forall g n, length (draws g n) = n /\ Forall (fun i => i < n) (draws g n)) ->
  bootstrap_weights [obj] groups draws = Ok out ->
  exists res, out = [res] /\ length res = length groups /\
  forall i grp, nth_error groups i = Some grp -> exists blps ws, nth_error res i = Some (blps, ws) /\
    NoDup blps /\ (forall b, In b blps <-> In b grp) /\ (forall b, In b grp -> In b obj) /\
    length ws = length blps /\ list_sum ws = length blps /\
    forall j, j < length blps -> nth_error ws j = Some (count_occ Nat.eq_dec (draws i (length blps)) j).
Proof.
  intros Hd H. rewrite bootstrap_single in H. apply require_ok in H. destruct H as [Hk H].
  injection H as <-. eexists. split; [reflexivity|].
  assert (Lc : length (combine (seq 0 (length groups)) groups) = length groups)
    by (rewrite combine_length, seq_length; lia).
  split; [rewrite map_length; exact Lc|].
  intros i grp Hi. assert (i < length groups) by (apply nth_error_Some; congruence).
  assert (Ec : nth_error (combine (seq 0 (length groups)) groups) i = Some (i, grp)).
  { rewrite (nth_error_nth' _ (0, [])) by lia. rewrite combine_nth by (rewrite seq_length; lia).
    rewrite seq_nth by lia. cbn. erewrite nth_error_nth by exact Hi. reflexivity. }
  rewrite nth_error_map, Ec. cbn [option_map fst snd]. eexists _, _. split; [reflexivity|].
  destruct (avail_in_spec grp obj) as [N1 N2].
  rewrite forallb_forall in Hk. pose proof (Hk grp (nth_error_In _ _ Hi)) as Hg.
  rewrite forallb_forall in Hg.
  destruct (Hd i (length (avail_in grp obj))) as [D1 D2].
  repeat split.
  - exact N1.
  - intro Hb. apply N2 in Hb. tauto.
  - intro Hb. apply N2. split; [exact Hb|]. apply memZ_In, Hg, Hb.
  - intros b Hb. apply memZ_In, Hg, Hb.
  - apply multiplicities_length.
  - rewrite sum_filter_eqb by exact D2. exact D1.
  - intros j Hj. unfold multiplicities. rewrite nth_error_map.
    rewrite (nth_error_nth' _ 0) by (rewrite seq_length; lia). rewrite seq_nth by lia. cbn [option_map].
    f_equal. cbn [plus]. clear. induction (draws i (length (avail_in grp obj))) as [|d l IH]; [reflexivity|].
    cbn [filter count_occ]. destruct (Nat.eqb_spec j d) as [->|Hne].
    + destruct (Nat.eq_dec d d); [cbn; f_equal; exact IH | congruence].
    + destruct (Nat.eq_dec d j); [congruence | exact IH].
Qed.
