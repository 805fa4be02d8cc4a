From Coq Require Import QArith Qabs Sorted Permutation.
From Verif Require Import PyDict.
From Verif Require Import Prelude ListLemmas UvpModel UvpSpec.
Open Scope nat_scope.

(** * slices chosen by [to_sel] pick the same entries as the index array *)

Lemma every_skip {A} d k (l : list A) : every d k l = every d 0 (skipn k l).
Proof. revert k; induction l as [|x l IH]; intros [|k]; cbn; auto. Qed.

Lemma every_spec {A} d n (l : list A) : 1 <= d -> n * d < length l ->
  picks (map (fun j => j * d) (seq 0 (S n))) l (every d 0 (firstn (n * d + 1) l)).
Proof.
  intros Hd. revert l; induction n as [|n IH]; intros l Hl.
  - destruct l as [|x l]; [cbn in Hl; lia|]. cbn. repeat constructor.
  - destruct l as [|x l]; [cbn in Hl; lia|].
    replace (S n * d + 1) with (S (d - 1 + (n * d + 1))) by lia.
    cbn [firstn every]. rewrite every_skip.
    replace (seq 0 (S (S n))) with (0 :: map S (seq 0 (S n))) by (rewrite seq_shift; reflexivity).
    cbn [map]. constructor; [reflexivity|].
    rewrite <- firstn_skipn_comm. rewrite map_map.
    assert (I : picks (map (fun j => j * d) (seq 0 (S n))) (skipn (d - 1) l)
                  (every d 0 (firstn (n * d + 1) (skipn (d - 1) l)))).
    { apply IH. rewrite skipn_length. cbn in Hl. lia. }
    unfold picks in *. clear IH.
    remember (every d 0 (firstn (n * d + 1) (skipn (d - 1) l))) as r. clear Heqr Hl.
    revert r I. generalize (seq 0 (S n)). intros js.
    induction js as [|j js IHj]; intros r I; inversion I as [|? y ? r' Hy Hr]; subst; cbn; constructor.
    + rewrite <- Hy. rewrite <- (firstn_skipn (d - 1) l) at 1.
      destruct (d + j * d) as [|q] eqn:Eq; [lia|]. cbn.
      destruct (le_lt_dec (length l) (d - 1)) as [L|L].
      * assert (SK : skipn (d - 1) l = []) by (apply skipn_all2; lia).
        rewrite SK. destruct (j * d); cbn; rewrite app_nil_r; apply nth_error_None;
          rewrite firstn_length; lia.
      * rewrite nth_error_app2 by (rewrite firstn_length; lia).
        f_equal. rewrite firstn_length. lia.
    + apply IHj. exact Hr.
Qed.

Lemma diffs_const d a l : (forall x, In x (diffs (a :: l)) -> x = d) ->
  StronglySorted lt (a :: l) ->
  a :: l = map (fun j => a + j * d) (seq 0 (S (length l))).
Proof.
  revert a; induction l as [|b l IH]; intros a H S; [cbn; f_equal; lia|].
  inversion S as [|? ? S' F]; subst. inversion F; subst.
  assert (Hd : b - a = d) by (apply H; left; reflexivity).
  replace (seq 0 (Datatypes.S (length (b :: l)))) with (0 :: map Datatypes.S (seq 0 (Datatypes.S (length l))))
    by (rewrite seq_shift; reflexivity).
  cbn [map]. f_equal; [lia|].
  rewrite (IH b) by (auto; intros x Hx; apply H; right; exact Hx).
  rewrite map_map. apply map_ext. intros j. lia.
Qed.

Lemma nodup_single l d0 : length (nodup Nat.eq_dec l) = 1 -> forall x, In x l -> x = hd d0 l.
Proof.
  intros H. destruct l as [|a l]; [discriminate|]. cbn [hd].
  destruct (nodup Nat.eq_dec (a :: l)) as [|y [|]] eqn:E; try discriminate.
  assert (G : forall x, In x (a :: l) -> x = y).
  { intros x Hx. apply (nodup_In Nat.eq_dec) in Hx. rewrite E in Hx. destruct Hx as [|[]]; congruence. }
  intros x Hx. rewrite (G x Hx). symmetry. apply G. left; reflexivity.
Qed.

Lemma diffs_nil a l : diffs (a :: l) = [] -> l = [].
Proof. destruct l; [reflexivity | discriminate]. Qed.

Lemma last_map_seq (f : nat -> nat) n d : last (map f (seq 0 (S n))) d = f n.
Proof. rewrite seq_S, map_app. cbn. apply last_last. Qed.

Lemma slice3_spec {A} a n d (l : list A) : 1 <= d -> a + n * d < length l ->
  picks (map (fun j => a + j * d) (seq 0 (S n))) l (slice3 a (a + n * d + 1) d l).
Proof.
  intros Hd Hl. unfold slice3, slice.
  replace (a + n * d + 1) with (a + (n * d + 1)) by lia.
  rewrite <- firstn_skipn_comm.
  assert (I := every_spec d n (skipn a l) Hd). rewrite skipn_length in I.
  specialize (I ltac:(lia)).
  remember (every d 0 (firstn (n * d + 1) (skipn a l))) as r. clear Heqr.
  unfold picks in *. revert r I. generalize (seq 0 (S n)). intros js.
  induction js as [|j js IHj]; intros r I; inversion I as [|? y ? r' Hy Hr]; subst; cbn; constructor.
  - rewrite <- Hy. rewrite <- (firstn_skipn a l) at 1.
    rewrite nth_error_app2 by (rewrite firstn_length; lia).
    f_equal. rewrite firstn_length. lia.
  - apply IHj. exact Hr.
Qed.

Lemma to_sel_spec {A} idx s (l : list A) :
  StronglySorted lt idx -> Forall (fun i => i < length l) idx -> to_sel idx = Ok s ->
  exists r, index s l = Ok r /\ picks idx l r.
Proof.
  intros S F E. destruct idx as [|a idx]; [discriminate|]. unfold to_sel in E.
  set (z := last (a :: idx) a) in *.
  assert (Zin : forall d, a :: idx = map (fun j => a + j * d) (seq 0 (Datatypes.S (length idx))) ->
                z = a + length idx * d).
  { intros d Hd. unfold z. rewrite Hd. exact (last_map_seq (fun j => a + j * d) _ _). }
  assert (Zlt : z < length l).
  { rewrite Forall_forall in F. apply F. unfold z.
    assert (G : forall (q : list nat) x d, In (last (x :: q) d) (x :: q)).
    { clear. induction q as [|y q IH]; intros x d; [left; reflexivity|].
      right. apply (IH y d). }
    apply G. }
  unfold ndistinct in E.
  destruct (length (nodup Nat.eq_dec (diffs (a :: idx)))) as [|[|n]] eqn:N.
  - injection E as <-. cbn [index]. eexists; split; [reflexivity|].
    apply length_zero_iff_nil in N.
    assert (D : diffs (a :: idx) = []).
    { destruct (diffs (a :: idx)) as [|x q] eqn:Ed; [reflexivity|].
      assert (In x (nodup Nat.eq_dec (x :: q))) by (apply nodup_In; left; reflexivity).
      rewrite N in H. contradiction. }
    apply diffs_nil in D. subst idx. unfold z in *. cbn [last] in *.
    pose proof (slice3_spec a 0 1 l ltac:(lia) ltac:(lia)) as P. cbn [map seq] in P.
    rewrite Nat.mul_0_l, Nat.add_0_r in P. exact P.
  - injection E as <-. cbn [index]. eexists; split; [reflexivity|].
    pose proof (nodup_single _ 1 N) as H1.
    set (d := hd 1 (diffs (a :: idx))) in *.
    pose proof (diffs_const d a idx H1 S) as HC.
    rewrite (Zin d HC). rewrite HC at 1.
    apply slice3_spec.
    + destruct idx as [|b idx]; [cbn in N; discriminate|]. unfold d; cbn.
      inversion S as [|? ? S' F']; subst. inversion F'; subst. lia.
    + pose proof (Zin d HC) as ZE. change (a + length idx * d < length l). rewrite <- ZE. exact Zlt.
  - injection E as <-. cbn [index]. destruct (gather_total l (a :: idx) F) as [r Hr].
    exists r. split; [exact Hr | apply gather_spec; exact Hr].
Qed.

Lemma to_sel_total idx : idx <> [] -> exists s, to_sel idx = Ok s.
Proof.
  destruct idx as [|a idx]; [congruence|]. intros _. unfold to_sel.
  destruct (ndistinct (diffs (a :: idx))) as [|[|n]]; eauto.
Qed.

(** a selector [s] selects the positions [idx] of every list of length [n] *)
Definition selects (s : sel) (idx : list nat) (n : nat) : Prop :=
  forall (A : Type) (l : list A), length l = n -> exists r, index s l = Ok r /\ picks idx l r.

Lemma selects_all n : selects SAll (seq 0 n) n.
Proof. intros A l L. exists l. split; [reflexivity|]. subst n. apply picks_seq. Qed.

Lemma selects_to_sel idx s n :
  StronglySorted lt idx -> Forall (fun i => i < n) idx -> to_sel idx = Ok s -> selects s idx n.
Proof. intros S F E A l L. apply to_sel_spec; [exact S | rewrite L; exact F | exact E]. Qed.

Lemma selects_picks {A} s idx n (l r : list A) :
  selects s idx n -> length l = n -> index s l = Ok r -> picks idx l r.
Proof. intros H L E. destruct (H A l L) as [r' [E' P]]. rewrite E in E'. injection E' as ->. exact P. Qed.

(** * window renumbering *)

Lemma memN_In x l : memN x l = true <-> In x l.
Proof.
  unfold memN. rewrite existsb_exists. split.
  - intros [y [H E]]. apply Nat.eqb_eq in E. congruence.
  - intros H. exists x. split; [exact H | apply Nat.eqb_refl].
Qed.
Lemma memZ_In x l : memZ x l = true <-> In x l.
Proof.
  unfold memZ. rewrite existsb_exists. split.
  - intros [y [H E]]. apply Z.eqb_eq in E. congruence.
  - intros H. exists x. split; [exact H | apply Z.eqb_refl].
Qed.
Lemma memN_false x l : memN x l = false <-> ~ In x l.
Proof. rewrite <- memN_In. destruct (memN x l); split; congruence. Qed.

Lemma filter_len_le {A} (f g : A -> bool) l : (forall x, In x l -> f x = true -> g x = true) ->
  length (filter f l) <= length (filter g l).
Proof.
  induction l as [|x l IH]; intros H; cbn; [lia|].
  assert (I : length (filter f l) <= length (filter g l)) by (apply IH; intros; apply H; [right|]; auto).
  destruct (f x) eqn:Ef; [rewrite (H x (or_introl eq_refl) Ef); cbn; lia|].
  destruct (g x); cbn; lia.
Qed.

Lemma filter_len_lt {A} (f g : A -> bool) l x : (forall x, In x l -> f x = true -> g x = true) ->
  In x l -> f x = false -> g x = true -> length (filter f l) < length (filter g l).
Proof.
  induction l as [|y l IH]; intros H Hx Fx Gx; [contradiction|]. cbn.
  assert (H' : forall z, In z l -> f z = true -> g z = true) by (intros; apply H; [right|]; auto).
  destruct Hx as [->|Hx].
  - rewrite Fx, Gx. cbn. pose proof (filter_len_le f g l H'). lia.
  - specialize (IH H' Hx Fx Gx). destruct (f y) eqn:Ef.
    + rewrite (H y (or_introl eq_refl) Ef). cbn; lia.
    + destruct (g y); cbn; lia.
Qed.

Lemma rank_mono kept v w : v <= w -> rank kept v <= rank kept w.
Proof. intros H. apply filter_len_le. intros x _ E. apply Nat.ltb_lt in E. apply Nat.ltb_lt. lia. Qed.
Lemma rank_lt kept v w : In v kept -> v < w -> rank kept v < rank kept w.
Proof.
  intros Hv H. apply (filter_len_lt _ _ _ v).
  - intros x _ E. apply Nat.ltb_lt in E. apply Nat.ltb_lt. lia.
  - exact Hv.
  - apply Nat.ltb_irrefl.
  - apply Nat.ltb_lt. exact H.
Qed.
Lemma rank_le kept w : NoDup kept -> rank kept w <= w.
Proof.
  intros N. unfold rank. apply Nat.le_trans with (length (seq 0 w)); [|rewrite seq_length; lia].
  apply NoDup_incl_length; [apply NoDup_filter; exact N|].
  intros x H. apply filter_In in H. destruct H as [_ H]. apply Nat.ltb_lt in H. apply in_seq. lia.
Qed.
Lemma rank_bound kept w : In w kept -> rank kept w < length kept.
Proof.
  intros H.
  assert (E : forall l : list nat, length l = length (filter (fun _ => true) l)).
  { induction l as [|x l IH]; cbn; congruence. }
  unfold rank. rewrite (E kept). apply (filter_len_lt _ _ _ w); auto. apply Nat.ltb_irrefl.
Qed.
Lemma rank_inj kept v w : In v kept -> In w kept -> rank kept v = rank kept w -> v = w.
Proof.
  intros Hv Hw E. destruct (Nat.lt_trichotomy v w) as [L|[L|L]]; [|exact L|];
    [pose proof (rank_lt kept v w Hv L) | pose proof (rank_lt kept w v Hw L)]; lia.
Qed.
(** every value below the number of kept windows is some window's rank *)
Lemma rank_surj kept i : NoDup kept -> i < length kept -> exists w, In w kept /\ rank kept w = i.
Proof.
  intros N Hi.
  assert (P : Permutation (map (rank kept) kept) (seq 0 (length kept))).
  { apply NoDup_Permutation_bis.
    - apply NoDup_map_in; [|exact N]. intros a b Ha Hb E. apply (rank_inj kept); auto.
    - rewrite seq_length, map_length. lia.
    - intros x Hx. apply in_map_iff in Hx. destruct Hx as [w [<- Hw]]. apply in_seq.
      pose proof (rank_bound kept w Hw). lia. }
  assert (H : In i (map (rank kept) kept)).
  { eapply Permutation_in; [symmetry; exact P|]. apply in_seq. lia. }
  apply in_map_iff in H. destruct H as [w [E Hw]]. eauto.
Qed.

Lemma min_above_None i l m : fold_left (fun m x => if Nat.ltb i x then
      match m with None => Some x | Some y => Some (Nat.min x y) end else m) l m = None <->
  m = None /\ forall x, In x l -> x <= i.
Proof.
  revert m; induction l as [|x l IH]; intros m; cbn [fold_left In]; [firstorder|].
  rewrite IH. destruct (Nat.ltb_spec i x) as [L|L].
  - split.
    + intros [H _]. destruct m; discriminate.
    + intros [_ H]. specialize (H x (or_introl eq_refl)). lia.
  - split; intros [H1 H2]; split; auto. intros y [<-|Hy]; auto.
Qed.

Lemma min_above_Some i l m v : fold_left (fun m x => if Nat.ltb i x then
      match m with None => Some x | Some y => Some (Nat.min x y) end else m) l m = Some v ->
  ((m = Some v \/ (In v l /\ i < v)) /\ (forall x, In x l -> i < x -> v <= x) /\
   (forall y, m = Some y -> v <= y)).
Proof.
  revert m; induction l as [|x l IH]; intros m H; cbn [fold_left In] in *.
  - subst m. repeat split; [left; reflexivity | intros x []|]. intros y E; injection E as <-; lia.
  - specialize (IH _ H). destruct (Nat.ltb_spec i x) as [L|L].
    + destruct IH as [A [B C]]. repeat split.
      * destruct A as [A|[A1 A2]]; [|right; split; [right|]; auto].
        destruct m as [y|]; injection A as A.
        -- destruct (Nat.min_spec x y) as [[_ E]|[_ E]]; rewrite E in A; subst v;
             [right; split; [left; reflexivity | exact L] | left; reflexivity].
        -- subst; right; split; [left; reflexivity | exact L].
      * intros z [<-|Hz] Hi; [|auto]. destruct m as [y|]; specialize (C _ eq_refl); lia.
      * intros y ->. specialize (C _ eq_refl). lia.
    + destruct IH as [A [B C]]. repeat split; [destruct A as [A|[A1 A2]]; [left|right; split; [right|]]; auto| |exact C].
      intros z [<-|Hz] Hi; [lia | auto].
Qed.

(** the partially renumbered window array after the loop has handled 0..i-1 *)
Definition part (kept : list nat) (i w : nat) : nat := if rank kept w <? i then rank kept w else w.

Lemma part_step kept i w : NoDup kept -> In w kept -> ~ In i (map (part kept i) kept) ->
  rank kept w = i ->
  min_above i (map (part kept i) kept) = Some w /\
  (forall l, (forall x, In x l -> In x kept) ->
     renum w i (map (part kept i) l) = map (part kept (S i)) l).
Proof.
  intros N Hw Hi Hr.
  assert (Wi : i < w).
  { pose proof (rank_le kept w N). assert (w <> i); [|lia]. intros ->. apply Hi.
    apply in_map_iff. exists i. split; [|exact Hw]. unfold part. rewrite Hr.
    rewrite Nat.ltb_irrefl. reflexivity. }
  assert (Pw : part kept i w = w) by (unfold part; rewrite Hr, Nat.ltb_irrefl; reflexivity).
  split.
  - unfold min_above. destruct (fold_left _ _ None) as [v|] eqn:E.
    + apply min_above_Some in E. destruct E as [[A|[A1 A2]] [B _]]; [discriminate|].
      f_equal. apply in_map_iff in A1. destruct A1 as [x [Ex Hx]].
      assert (v <= w) by (apply B; [apply in_map_iff; exists w; auto | exact Wi]).
      unfold part in Ex. destruct (Nat.ltb_spec (rank kept x) i) as [L|L]; [lia|]. subst v.
      destruct (Nat.eq_dec x w) as [|Ne]; [assumption|].
      pose proof (rank_lt kept x w Hx ltac:(lia)). lia.
    + apply min_above_None in E. destruct E as [_ E].
      specialize (E w ltac:(apply in_map_iff; exists w; auto)). lia.
  - intros l Hl. unfold renum. rewrite map_map. apply map_ext_in. intros x Hx. specialize (Hl x Hx).
    destruct (Nat.eqb_spec (part kept i x) w) as [E|E].
    + assert (x = w).
      { unfold part in E. destruct (Nat.ltb_spec (rank kept x) i); [lia | exact E]. }
      subst x. unfold part. rewrite Hr. destruct (Nat.ltb_spec i (S i)); lia.
    + unfold part in *. destruct (Nat.ltb_spec (rank kept x) i), (Nat.ltb_spec (rank kept x) (S i)); try lia.
      exfalso. apply E. apply (rank_inj kept); auto. lia.
Qed.

Lemma part_step_id kept i : NoDup kept -> In i (map (part kept i) kept) ->
  forall l, (forall x, In x l -> In x kept) -> map (part kept i) l = map (part kept (S i)) l.
Proof.
  intros N Hi l Hl. apply map_ext_in. intros x Hx. specialize (Hl x Hx).
  apply in_map_iff in Hi. destruct Hi as [v [Ev Hv]].
  assert (V : v = i /\ rank kept i = i).
  { unfold part in Ev. destruct (Nat.ltb_spec (rank kept v) i) as [L|L]; [lia|]. subst v.
    pose proof (rank_le kept i N). lia. }
  destruct V as [-> Ri].
  unfold part. destruct (Nat.ltb_spec (rank kept x) i), (Nat.ltb_spec (rank kept x) (S i)); try lia.
  assert (E : rank kept x = rank kept i) by lia. apply rank_inj in E; auto. lia.
Qed.

Lemma down_convert_loop kept n i fa da : NoDup kept -> i + n = length kept ->
  (forall x, In x fa -> In x kept) -> (forall x, In x da -> In x kept) ->
  down_convert (seq i n) (map (part kept i) kept) (map (part kept i) fa) (map (part kept i) da) =
  Ok (map (part kept (i + n)) kept, map (part kept (i + n)) fa, map (part kept (i + n)) da).
Proof.
  intros N; revert i; induction n as [|n IH]; intros i L Hf Hd.
  - cbn. rewrite Nat.add_0_r. reflexivity.
  - cbn [seq down_convert]. destruct (memN i (map (part kept i) kept)) eqn:M.
    + apply memN_In in M. rewrite !(part_step_id kept i N M) by auto.
      rewrite IH by (auto; lia). replace (S i + n) with (i + S n) by lia. reflexivity.
    + apply memN_false in M. destruct (rank_surj kept i N ltac:(lia)) as [w [Hw Hr]].
      destruct (part_step kept i w N Hw M Hr) as [E R]. rewrite E.
      rewrite !R by auto. rewrite IH by (auto; lia). replace (S i + n) with (i + S n) by lia. reflexivity.
Qed.

Lemma down_convert_spec kept fa da : NoDup kept ->
  (forall x, In x fa -> In x kept) -> (forall x, In x da -> In x kept) ->
  down_convert (seq 0 (length kept)) kept fa da =
  Ok (map (rank kept) kept, map (rank kept) fa, map (rank kept) da).
Proof.
  intros N Hf Hd.
  assert (I0 : forall l, map (part kept 0) l = l).
  { intros l. rewrite <- (map_id l) at 2. apply map_ext. intros x. reflexivity. }
  pose proof (down_convert_loop kept (length kept) 0 fa da N eq_refl Hf Hd) as D.
  rewrite !I0 in D. rewrite D. cbn [Nat.add].
  assert (I1 : forall l, (forall x, In x l -> In x kept) -> map (part kept (length kept)) l = map (rank kept) l).
  { intros l Hl. apply map_ext_in. intros x Hx. unfold part.
    pose proof (rank_bound kept x (Hl x Hx)). destruct (Nat.ltb_spec (rank kept x) (length kept)); lia. }
  rewrite !I1 by auto. reflexivity.
Qed.

Lemma rank_seq n w : w < n -> rank (seq 0 n) w = w.
Proof.
  intros H. unfold rank. replace n with (w + (n - w)) by lia. rewrite seq_app, filter_app.
  replace (filter (fun x => x <? w) (seq 0 w)) with (seq 0 w).
  - replace (filter (fun x => x <? w) (seq (0 + w) (n - w))) with (@nil nat).
    + rewrite app_nil_r. apply seq_length.
    + symmetry. rewrite <- (filter_ext_in (fun _ => false)).
      * induction (seq (0 + w) (n - w)); auto.
      * intros x Hx. apply in_seq in Hx. symmetry. apply Nat.ltb_ge. lia.
  - symmetry. rewrite <- (filter_ext_in (fun _ => true)).
    + induction (seq 0 w) as [|y l IH]; [reflexivity | cbn; congruence].
    + intros x Hx. apply in_seq in Hx. symmetry. apply Nat.ltb_lt. lia.
Qed.

Lemma rank_perm k1 k2 w : Permutation k1 k2 -> rank k1 w = rank k2 w.
Proof.
  unfold rank. induction 1 as [|x l l' P IH|x y l|l1 l2 l3 P1 IH1 P2 IH2]; cbn [filter length]; auto.
  - destruct (x <? w); cbn [length]; congruence.
  - destruct (x <? w), (y <? w); reflexivity.
  - congruence.
Qed.
