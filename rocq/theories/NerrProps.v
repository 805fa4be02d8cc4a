(** C234-C241: noise errors of power spectrum objects from autocorrelations. *)
From Coq Require Import String.
From Coq Require Import Reals Lra Permutation Sorted.
From Verif Require Import Prelude PyDict CNum NoiseModel NoiseProps NerrModel ListLemmas.
Open Scope R_scope.

(** ** matching of times and channels *)
(** the first integration of the autocorrelations within 1e-5 day; an IndexError if there is none *)
Theorem match_time_spec :
  forall l t,
    match match_time l t with
    | Ok i => (i < length l)%nat /\ Rabs (nth i l 0 - t) <= / 10 ^ 5 /\ forall j, (j < i)%nat -> / 10 ^ 5 < Rabs (nth j l 0 - t)
    | Err e => e = IndexError /\ forall x, In x l -> / 10 ^ 5 < Rabs (x - t)
    end.
Proof.
  assert (G : forall l t k, match match_from k l t with
     | Ok i => (k <= i < k + length l)%nat /\ Rabs (nth (i - k) l 0 - t) <= / 10 ^ 5 /\ forall j, (j < i - k)%nat -> / 10 ^ 5 < Rabs (nth j l 0 - t)
     | Err e => e = IndexError /\ forall x, In x l -> / 10 ^ 5 < Rabs (x - t) end).
  { induction l as [| x l IH]; intros t k; cbn [match_from]. split; [reflexivity | intros ? []].
    unfold same_time. destruct (Rle_dec (Rabs (x - t)) (/ 10 ^ 5)) as [L | L].
    - cbn [length]. replace (k - k)%nat with 0%nat by lia. cbn [nth]. split; [lia |]. split; [exact L |]. intros j Hj; lia.
    - specialize (IH t (S k)). destruct (match_from (S k) l t) as [i | e].
      + destruct IH as (A & B & Cc). cbn [length]. replace (i - k)%nat with (S (i - S k)) by lia. cbn [nth]. split; [lia |]. split; [exact B |].
        intros [| j] Hj; [cbn [nth]; apply Rnot_le_lt; exact L | cbn [nth]; apply Cc; lia].
      + destruct IH as (A & B). split; [exact A |]. intros y [<- | Hy]; [apply Rnot_le_lt; exact L | apply B, Hy]. }
  intros l t. unfold match_time. specialize (G l t 0%nat). destruct (match_from 0 l t) as [i | e]; [| exact G].
  destruct G as (A & B & Cc). rewrite Nat.sub_0_r in B. split; [lia |]. split; [exact B |]. intros j Hj. apply Cc. lia.
Qed.

(** the window starts at the channel nearest to its lower frequency *)
Theorem spw_start_spec :
  forall a f0, at_freqs a <> [] -> (spw_start a f0 < length (at_freqs a))%nat /\ forall f, In f (at_freqs a) -> Rabs (nth (spw_start a f0) (at_freqs a) 0 - f0) <= Rabs (f - f0).
Proof.
  assert (G : forall (full : list R) l i best bv, (forall j, (j < length l)%nat -> nth (i + j) full 0 = nth j l 0) -> (i + length l = length full)%nat -> (best < length full)%nat -> nth best full 0 = bv ->
    (forall j, (j < i)%nat -> bv <= nth j full 0) -> let r := argmin_from i best bv l in (r < length full)%nat /\ forall j, (j < length full)%nat -> nth r full 0 <= nth j full 0).
  { induction l as [| x l IH]; intros i best bv Hl Hlen Hb Hv Hm; cbn [argmin_from].
    - cbn. split; [exact Hb |]. intros j Hj. rewrite Hv. apply Hm. cbn in Hlen. lia.
    - cbn [length] in Hlen. pose proof (Hl 0%nat ltac:(cbn; lia)) as H0. rewrite Nat.add_0_r in H0. cbn in H0.
      assert (Hl' : forall j, (j < length l)%nat -> nth (S i + j) full 0 = nth j l 0) by (intros j Hj; replace (S i + j)%nat with (i + S j)%nat by lia; apply (Hl (S j)); cbn; lia).
      destruct (Rlt_dec x bv) as [L | L]; apply IH; try lia; auto.
      + intros j Hj. destruct (Nat.eq_dec j i) as [-> | N]; [lra |]. specialize (Hm j ltac:(lia)). lra.
      + intros j Hj. destruct (Nat.eq_dec j i) as [-> | N]; [lra |]. apply Hm. lia. }
  intros a f0 Hne. set (l := map (fun f => Rabs (f - f0)) (at_freqs a)).
  assert (E : spw_start a f0 = argmin l) by reflexivity. rewrite E. clear E.
  assert (Ll : length l = length (at_freqs a)) by apply map_length.
  destruct l as [| x l'] eqn:El. { destruct (at_freqs a); [congruence | cbn in Ll; discriminate]. }
  destruct (G (x :: l') l' 1%nat 0%nat x) as [A B]; cbn [length]; try lia; auto.
  { intros j Hj. assert (j = 0%nat) as -> by lia. cbn. lra. }
  cbn [argmin]. rewrite <- Ll. split; [exact A |]. intros f Hf. destruct (In_nth _ _ 0 Hf) as (j & Hj & Ej).
  rewrite <- Ll in Hj. specialize (B j Hj). rewrite <- El in B. unfold l in B.
  rewrite <- El in A. unfold l in A. rewrite map_length in A.
  rewrite (nth_indep _ 0 (Rabs (0 - f0))) in B by (rewrite map_length; exact A).
  rewrite (nth_indep (map _ (at_freqs a)) 0 (Rabs (0 - f0))) in B by (rewrite map_length, <- Ll; exact Hj).
  rewrite (map_nth (fun f => Rabs (f - f0))) in B. rewrite (map_nth (fun f => Rabs (f - f0))) in B. rewrite Ej in B. exact B.
Qed.
Print Assumptions match_time_spec.
Print Assumptions spw_start_spec.

(** ** averages over channels *)
Lemma rsum_cons x l : rsum (x :: l) = x + rsum l. Proof. reflexivity. Qed.
Lemma rsum_ext {A} (f g : A -> R) l : (forall x, In x l -> f x = g x) -> rsum (map f l) = rsum (map g l).
Proof. intros H. f_equal. apply map_ext_in, H. Qed.
Lemma rsum_bound {A} (f g : A -> R) c l : (forall x, In x l -> f x <= c * g x) -> rsum (map f l) <= c * rsum (map g l).
Proof. induction l as [| x l IH]; intros H; cbn [map]. cbn; lra. rewrite !rsum_cons. pose proof (H x (or_introl eq_refl)). specialize (IH ltac:(intros y Hy; apply H; right; exact Hy)). lra. Qed.
Lemma rsum_bound' {A} (f g : A -> R) c l : (forall x, In x l -> c * g x <= f x) -> c * rsum (map g l) <= rsum (map f l).
Proof. induction l as [| x l IH]; intros H; cbn [map]. cbn; lra. rewrite !rsum_cons. pose proof (H x (or_introl eq_refl)). specialize (IH ltac:(intros y Hy; apply H; right; exact Hy)). lra. Qed.
Lemma rsum_nonneg {A} (f : A -> R) l : (forall x, In x l -> 0 <= f x) -> 0 <= rsum (map f l).
Proof. induction l as [| x l IH]; intros H; cbn [map]. cbn; lra. rewrite rsum_cons. pose proof (H x (or_introl eq_refl)). specialize (IH ltac:(intros y Hy; apply H; right; exact Hy)). lra. Qed.
Lemma p20 : 0 < / 10 ^ 20. Proof. apply Rinv_0_lt_compat, pow_lt. lra. Qed.
Lemma sqrt_between lo hi a b : 0 <= lo -> lo <= a <= hi -> lo <= b <= hi -> lo <= sqrt (a * b) <= hi.
Proof. intros H0 [A1 A2] [B1 B2]. split. rewrite <- (sqrt_square lo H0) at 1. apply sqrt_le_1_alt. nra. rewrite <- (sqrt_square hi) by lra. apply sqrt_le_1_alt. nra. Qed.

(** The temperature of a baseline and integration is a weighted mean over the unflagged channels of the window: between the least and the
    greatest of the temperatures of its two antennas; channels outside of the window and flagged channels (of either antenna) do not matter *)
Theorem meanT_bounds :
  forall a bl s n w i lo hi, 0 <= lo -> (forall f, (f < n)%nat -> 0 <= w f) ->
    / 10 ^ 20 <= rsum (map (fun f => if pairF a bl i (s + f) then 0 else w f) (seq 0 n)) ->
    (forall f, (f < n)%nat -> at_flag a (fst bl) i (s + f) = false -> at_flag a (snd bl) i (s + f) = false ->
       lo <= at_data a (fst bl) i (s + f) <= hi /\ lo <= at_data a (snd bl) i (s + f) <= hi) ->
    lo <= meanT a bl s n w i <= hi.
Proof.
  intros a bl s n w i lo hi H0 Hw Hs HT. unfold meanT, clip20, rsumn.
  assert (E : rsum (map (fun f => good (pairF a bl i (s + f)) * w f) (seq 0 n)) = rsum (map (fun f => if pairF a bl i (s + f) then 0 else w f) (seq 0 n))).
  { apply rsum_ext. intros f _. unfold good. destruct (pairF a bl i (s + f)); lra. }
  pose proof p20 as P. set (D := rsum (map (fun f => good (pairF a bl i (s + f)) * w f) (seq 0 n))) in *. destruct (Rle_dec (/ 10 ^ 20) D) as [L | L]; [| rewrite E in L; contradiction].
  assert (Q : forall f, In f (seq 0 n) -> lo * (good (pairF a bl i (s + f)) * w f) <= pairT a bl i (s + f) * good (pairF a bl i (s + f)) * w f <= hi * (good (pairF a bl i (s + f)) * w f)).
  { intros f Hf. apply in_seq in Hf. specialize (Hw f ltac:(lia)). unfold good. destruct (pairF a bl i (s + f)) eqn:F; [lra |].
    unfold pairF in F. apply orb_false_iff in F. destruct F as [F1 F2]. destruct (HT f ltac:(lia) F1 F2) as [X Y].
    pose proof (sqrt_between lo hi _ _ H0 X Y) as Z. unfold pairT. nra. }
  split.
  - apply Rmult_le_reg_r with D; [lra |]. unfold Rdiv. rewrite Rmult_assoc, Rinv_l, Rmult_1_r by lra. apply rsum_bound'. intros f Hf. apply Q, Hf.
  - apply Rmult_le_reg_r with D; [lra |]. unfold Rdiv. rewrite Rmult_assoc, Rinv_l, Rmult_1_r by lra. apply rsum_bound. intros f Hf. apply Q, Hf.
Qed.
Theorem meanT_flagged : forall a bl s n w i, allF a bl s n i = true -> meanT a bl s n w i = 0.
Proof.
  intros a bl s n w i H. unfold meanT, rsumn. rewrite (rsum_ext _ (fun _ => 0)).
  - replace (rsum (map (fun _ : nat => 0) (seq 0 n))) with 0; [unfold Rdiv; lra |]. induction (seq 0 n) as [| x l IH]; [reflexivity |]. cbn [map]. rewrite rsum_cons, <- IH. lra.
  - intros f Hf. unfold allF in H. rewrite forallb_forall in H. rewrite (H f Hf). unfold good. lra.
Qed.
Print Assumptions meanT_bounds.

(** ** nearest LST *)
Definition ptle (p q : R * R) : Prop := fst p <= fst q.
Lemma ins_pt_In p l q : In q (ins_pt p l) <-> q = p \/ In q l.
Proof. induction l as [| y l IH]; cbn [ins_pt]. cbn. intuition. destruct (Rle_dec (fst p) (fst y)); cbn [In]; rewrite ?IH; intuition. Qed.
Lemma sort_pts_In l q : In q (sort_pts l) <-> In q l.
Proof. induction l as [| y l IH]; cbn [sort_pts fold_right]. tauto. change (fold_right ins_pt [] l) with (sort_pts l). rewrite ins_pt_In, IH. cbn. intuition. Qed.
Lemma ins_pt_sorted p l : StronglySorted ptle l -> StronglySorted ptle (ins_pt p l).
Proof.
  induction 1 as [| y l S IH F]; cbn [ins_pt]. constructor; constructor. destruct (Rle_dec (fst p) (fst y)) as [L | L].
  - constructor. constructor; assumption. constructor; [exact L |]. rewrite Forall_forall in F |- *. intros z Hz. specialize (F z Hz). unfold ptle in *. lra.
  - constructor; [exact IH |]. rewrite Forall_forall in F |- *. intros z Hz. apply ins_pt_In in Hz. destruct Hz as [-> | Hz]; [unfold ptle; lra | auto].
Qed.
Lemma sort_pts_sorted l : StronglySorted ptle (sort_pts l).
Proof. induction l; cbn. constructor. apply ins_pt_sorted, IHl. Qed.
Lemma nearest_sorted_spec : forall l x, StronglySorted ptle l -> l <> [] ->
  exists p, In p l /\ nearest_sorted l x = snd p /\ forall q, In q l -> Rabs (fst p - x) <= Rabs (fst q - x).
Proof.
  induction l as [| p l IH]; intros x S N; [congruence |]. destruct l as [| q l'].
  { exists p. split; [left; reflexivity |]. split; [reflexivity |]. intros r [<- | []]. lra. }
  inversion S as [| ? ? S' F]; subst. pose proof (Forall_inv F) as Hpq. unfold ptle in Hpq.
  change (nearest_sorted (p :: q :: l') x) with (if Rlt_dec ((fst p + fst q) / 2) x then nearest_sorted (q :: l') x else snd p).
  destruct (Rlt_dec ((fst p + fst q) / 2) x) as [L | L].
  - destruct (IH x S' ltac:(discriminate)) as (r & Hr & Er & Mr). exists r. split; [right; exact Hr |]. split; [exact Er |].
    intros t [<- | Ht]; [| apply Mr, Ht]. specialize (Mr q (or_introl eq_refl)). revert Mr. unfold Rabs. repeat destruct (Rcase_abs _); lra.
  - exists p. split; [left; reflexivity |]. split; [reflexivity |]. intros t [<- | Ht]; [lra |].
    assert (Q : fst q <= fst t). { destruct Ht as [<- | Ht]; [lra |]. inversion S' as [| ? ? ? F']; subst. rewrite Forall_forall in F'. apply F', Ht. }
    unfold Rabs. repeat destruct (Rcase_abs _); lra.
Qed.
Lemma nearest_spec : forall l x, l <> [] -> exists p, In p l /\ nearest l x = snd p /\ forall q, In q l -> Rabs (fst p - x) <= Rabs (fst q - x).
Proof.
  intros l x N. destruct (nearest_sorted_spec (sort_pts l) x (sort_pts_sorted l)) as (p & A & B & Cc).
  - destruct l as [| y l]; [congruence |]. intros E. assert (In y (sort_pts (y :: l))) as H by (apply sort_pts_In; left; reflexivity). rewrite E in H. destruct H.
  - exists p. rewrite sort_pts_In in A. split; [exact A |]. split; [exact B |]. intros q Hq. apply Cc, sort_pts_In, Hq.
Qed.

(** ** temperatures of the rows *)
Definition lst_of (a : autos) (j : nat) : R := nth j (first_seen (at_lst_array a)) 0.
(** [j] is, among the integrations [ts], one with an unflagged channel, and of the nearest LST *)
Definition nearest_good (a : autos) (bl : Z * Z) (s n : nat) (ts : list nat) (x : R) (j : nat) : Prop :=
  In j ts /\ (exists f, (f < n)%nat /\ pairF a bl j (s + f) = false) /\
  forall j', In j' ts -> (exists f, (f < n)%nat /\ pairF a bl j' (s + f) = false) -> Rabs (lst_of a j - x) <= Rabs (lst_of a j' - x).

Lemma gather_nth {A} (l : list A) idx out d : gather l idx = Ok out -> length out = length idx /\ forall i, (i < length idx)%nat -> (nth i idx 0 < length l)%nat /\ nth i out d = nth (nth i idx 0%nat) l d.
Proof.
  revert out. induction idx as [| k idx IH]; intros out H; cbn [gather] in H. injection H as <-. split; [reflexivity | intros i Hi; cbn in Hi; lia].
  destruct (nth_error l k) as [x |] eqn:E; [| discriminate]. destruct (gather l idx) as [r |] eqn:G; [| discriminate]. injection H as <-. destruct (IH r eq_refl) as [L P].
  split; [cbn; lia |]. intros [| i] Hi; cbn [nth length] in *. split. apply nth_error_Some. congruence. symmetry. apply nth_error_nth, E. apply P. lia.
Qed.
Lemma allF_false a bl s n i : allF a bl s n i = false <-> exists f, (f < n)%nat /\ pairF a bl i (s + f) = false.
Proof.
  unfold allF. split.
  - intros H. destruct (existsb (fun f => negb (pairF a bl i (s + f))) (seq 0 n)) eqn:E.
    + apply existsb_exists in E. destruct E as (f & Hf & Hn). apply in_seq in Hf. exists f. split; [lia |]. apply negb_true_iff, Hn.
    + exfalso. assert (forallb (fun f => pairF a bl i (s + f)) (seq 0 n) = true); [| congruence]. apply forallb_forall. intros f Hf.
      destruct (pairF a bl i (s + f)) eqn:P; [reflexivity |]. assert (X : existsb (fun f => negb (pairF a bl i (s + f))) (seq 0 n) = true) by (apply existsb_exists; exists f; rewrite P; auto). congruence.
  - intros (f & Hf & P). destruct (forallb (fun f => pairF a bl i (s + f)) (seq 0 n)) eqn:E; [| reflexivity]. rewrite forallb_forall in E. rewrite (E f) in P by (apply in_seq; lia). discriminate.
Qed.
Lemma interp_side_spec a bl s n w ts xs T : interp_side a bl s n w ts xs = Ok T -> (0 < count_good a bl s n ts)%nat ->
  length T = length xs /\ forall i, (i < length xs)%nat -> exists j, nearest_good a bl s n ts (nth i xs 0) j /\ nth i T 0 = meanT a bl s n w j.
Proof.
  unfold interp_side, bind. destruct (gather (first_seen (at_lst_array a)) ts) as [ls |] eqn:G; [| discriminate]. intros E Cg.
  pose proof (f_equal (fun r => match r with Ok x => x | Err _ => [] end) E) as E'. cbn in E'. clear E. subst T.
  destruct (gather_nth _ _ _ 0 G) as [L P]. split; [apply map_length |]. intros i Hi.
  set (good_ := filter (fun p => negb (allF a bl s n (snd p))) (combine ls ts)). set (pts := map (fun p => (fst p, meanT a bl s n w (snd p))) good_).
  assert (M : forall l j, In (l, j) good_ <-> In j ts /\ l = lst_of a j /\ allF a bl s n j = false).
  { intros l j. unfold good_. rewrite filter_In. cbn [snd]. rewrite negb_true_iff. split.
    - intros [H Hf]. apply (In_nth _ _ (0, 0%nat)) in H. destruct H as (k & Hk & Ek). rewrite combine_length, L, Nat.min_id in Hk. rewrite combine_nth in Ek by exact L. apply pair_equal_spec in Ek. destruct Ek as [E1 E2].
      destruct (P k Hk) as [P1 P2]. split; [rewrite <- E2; apply nth_In, Hk |]. split; [| exact Hf]. rewrite <- E1, P2, E2. reflexivity.
    - intros (H1 & H2 & H3). split; [| exact H3]. apply (In_nth _ _ 0%nat) in H1. destruct H1 as (k & Hk & Ek). destruct (P k Hk) as [P1 P2].
      assert (X : nth k (combine ls ts) (0, 0%nat) = (l, j)). { rewrite combine_nth by exact L. rewrite P2, Ek, H2. reflexivity. }
      rewrite <- X. apply nth_In. rewrite combine_length, L. lia. }
  assert (Np : pts <> []).
  { unfold count_good in Cg. destruct (filter (fun i => negb (allF a bl s n i)) ts) as [| j r] eqn:F; [cbn in Cg; lia |].
    assert (Hj : In j (filter (fun i => negb (allF a bl s n i)) ts)) by (rewrite F; left; reflexivity). apply filter_In in Hj. destruct Hj as [Hj Hf]. apply negb_true_iff in Hf.
    assert (X : In (lst_of a j, j) good_) by (apply M; auto). intros E0. unfold pts in E0. apply map_eq_nil in E0. rewrite E0 in X. destruct X. }
  destruct (nearest_spec pts (nth i xs 0) Np) as (p & Hp & Ep & Mp). unfold pts in Hp. apply in_map_iff in Hp. destruct Hp as ([l j] & E1 & H1). cbn [fst snd] in E1.
  apply M in H1. destruct H1 as (J1 & J2 & J3). exists j. split.
  - split; [exact J1 |]. split; [apply allF_false, J3 |]. intros j' Hj' Hg. apply allF_false in Hg. specialize (Mp (lst_of a j', meanT a bl s n w j')).
    rewrite <- E1 in Mp. cbn [fst] in Mp. rewrite J2 in Mp. apply Mp. unfold pts. apply in_map_iff. exists (lst_of a j', j'). split; [reflexivity |]. apply M. auto.
  - rewrite (nth_indep _ 0 (nearest pts 0)) by (rewrite map_length; exact Hi). rewrite (map_nth (nearest pts)). fold pts. rewrite Ep, <- E1. reflexivity.
Qed.
Lemma map_res_nth {A B} (f : A -> result B) l out da db : map_res f l = Ok out -> length out = length l /\ forall i, (i < length l)%nat -> f (nth i l da) = Ok (nth i out db).
Proof.
  revert out. induction l as [| x l IH]; intros out H; cbn [map_res] in H. injection H as <-. split; [reflexivity | intros i Hi; cbn in Hi; lia].
  destruct (f x) as [y |] eqn:E; [| discriminate]. destruct (map_res f l) as [r |] eqn:G; [| discriminate]. injection H as <-. destruct (IH r eq_refl) as [L P].
  split; [cbn; lia |]. intros [| i] Hi; cbn [nth length] in *; [exact E | apply P; lia].
Qed.

(** The integrations of the autocorrelations used for the rows *)
Definition matched (times ts : list R) (idx : list nat) : Prop :=
  length idx = length ts /\ forall i, (i < length ts)%nat -> (nth i idx 0 < length times)%nat /\ Rabs (nth (nth i idx 0%nat) times 0 - nth i ts 0) <= / 10 ^ 5.
Lemma map_res_matched times ts idx : map_res (match_time times) ts = Ok idx -> matched times ts idx.
Proof.
  intros H. destruct (map_res_nth _ _ _ 0 0%nat H) as [L P]. split; [exact L |]. intros i Hi. specialize (P i Hi). pose proof (match_time_spec times (nth i ts 0)) as S. rewrite P in S. tauto.
Qed.

(** With at least two unflagged integrations for each baseline, the temperature of a row is the geometric mean of those of its two baselines, each at the
    unflagged integration of the nearest LST among those matched to the times of the baseline-pair *)
Theorem temperature_rows :
  forall a bl1 bl2 f0 n w rows l, temperature a bl1 bl2 f0 n w rows = Ok (TempRows l) ->
    exists i1 i2, matched (at_times a (fst bl1)) (map r_t1 rows) i1 /\ matched (at_times a (fst bl2)) (map r_t2 rows) i2 /\ length l = length rows /\
      forall r, (r < length rows)%nat -> exists j1 j2,
        nearest_good a bl1 (spw_start a f0) n i1 (nth r (map r_l1 rows) 0) j1 /\ nearest_good a bl2 (spw_start a f0) n i2 (nth r (map r_l2 rows) 0) j2 /\
        nth r l 0 = sqrt (meanT a bl1 (spw_start a f0) n w j1 * meanT a bl2 (spw_start a f0) n w j2).
Proof.
  intros a bl1 bl2 f0 n w rows l H. unfold temperature, bind, require in H. set (s := spw_start a f0) in *.
  destruct (map_res _ (map r_t1 rows)) as [i1 |] eqn:M1; [| discriminate]. destruct (map_res _ (map r_t2 rows)) as [i2 |] eqn:M2; [| discriminate].
  destruct (Nat.leb _ _); [| discriminate]. destruct (forallb _ _); [discriminate |]. destruct (Nat.ltb 1 _ && Nat.ltb 1 _)%bool eqn:Cg; [| destruct i1; destruct i2; discriminate].
  apply andb_prop in Cg. destruct Cg as [C1 C2]. apply Nat.ltb_lt in C1, C2.
  destruct (interp_side a bl1 _ _ _ _ _) as [T1 |] eqn:I1; [| discriminate]. destruct (interp_side a bl2 _ _ _ _ _) as [T2 |] eqn:I2; [| discriminate].
  pose proof (f_equal (fun r => match r with Ok (TempRows x) => x | _ => [] end) H) as H'. cbn in H'. clear H. subst l.
  exists i1, i2. split; [apply map_res_matched, M1 |]. split; [apply map_res_matched, M2 |].
  destruct (interp_side_spec _ _ _ _ _ _ _ _ I1 ltac:(lia)) as [L1 P1]. destruct (interp_side_spec _ _ _ _ _ _ _ _ I2 ltac:(lia)) as [L2 P2]. rewrite map_length in L1, L2.
  split; [rewrite map_length, combine_length; lia |]. intros r Hr. destruct (P1 r ltac:(rewrite map_length; exact Hr)) as (j1 & N1 & E1). destruct (P2 r ltac:(rewrite map_length; exact Hr)) as (j2 & N2 & E2).
  exists j1, j2. split; [exact N1 |]. split; [exact N2 |]. rewrite (nth_indep _ 0 ((fun p : R * R => sqrt (fst p * snd p)) (0, 0))) by (rewrite map_length, combine_length; lia).
  rewrite (map_nth (fun p : R * R => sqrt (fst p * snd p))), combine_nth by lia. cbn [fst snd]. rewrite E1, E2. reflexivity.
Qed.
Print Assumptions temperature_rows.

(** Infinite exactly if no channel of any row is unflagged for both baselines *)
Theorem temperature_flagged :
  forall a bl1 bl2 f0 n w rows i1 i2, map_res (match_time (at_times a (fst bl1))) (map r_t1 rows) = Ok i1 -> map_res (match_time (at_times a (fst bl2))) (map r_t2 rows) = Ok i2 ->
    (spw_start a f0 + n <= length (at_freqs a))%nat ->
    (temperature a bl1 bl2 f0 n w rows = Ok TempInf <->
     forall r f, (r < length rows)%nat -> (f < n)%nat -> pairF a bl1 (nth r i1 0%nat) (spw_start a f0 + f) = true \/ pairF a bl2 (nth r i2 0%nat) (spw_start a f0 + f) = true).
Proof.
  intros a bl1 bl2 f0 n w rows i1 i2 M1 M2 Hn. pose proof (map_res_matched _ _ _ M1) as [L1 _]. pose proof (map_res_matched _ _ _ M2) as [L2 _]. rewrite map_length in L1, L2.
  unfold temperature, bind, require. rewrite M1, M2. apply Nat.leb_le in Hn. rewrite Hn. set (s := spw_start a f0).
  match goal with |- context [if forallb ?g ?l then _ else _] => destruct (forallb g l) eqn:F end.
  - split; [| reflexivity]. intros _ r f Hr Hf. rewrite forallb_forall in F. assert (X : In (nth r i1 0%nat, nth r i2 0%nat) (combine i1 i2)).
    { rewrite <- combine_nth by lia. apply nth_In. rewrite combine_length. lia. }
    specialize (F _ X). cbn [fst snd] in F. rewrite forallb_forall in F. specialize (F f ltac:(apply in_seq; lia)). apply orb_prop in F. exact F.
  - split.
    + destruct (Nat.ltb 1 _ && Nat.ltb 1 _)%bool. unfold bind. destruct (interp_side _ bl1 _ _ _ _ _); [| discriminate]. destruct (interp_side _ bl2 _ _ _ _ _); discriminate.
      destruct i1, i2; discriminate.
    + intros H. exfalso. match goal with E : forallb ?g ?l = false |- _ => assert (X : forallb g l = true); [| congruence] end. apply forallb_forall. intros [x y] Hxy. cbn [fst snd].
      apply forallb_forall. intros f Hf. apply in_seq in Hf. apply (In_nth _ _ (0, 0)%nat) in Hxy. destruct Hxy as (r & Hr & Er). rewrite combine_length in Hr. rewrite combine_nth in Er by lia. apply pair_equal_spec in Er. destruct Er as [<- <-].
      apply orb_true_intro. apply H; lia.
Qed.
(** ... and then P_N is infinite at each row, and so are P_SN and the corrected P_SN *)
Theorem flagged_noise_infinite : forall sc ti ns i d, row_noise sc ti ns (row_temp TempInf i) = Inf /\ P_SN d Inf = Inf /\ corrected Inf (P_SN d Inf) = Inf.
Proof. intros. split; [reflexivity |]. destruct (P_SN_flagged d) as [A B]. rewrite A. auto. Qed.
(** the noise of a row with a finite temperature *)
Theorem row_noise_value : forall sc ti ns T, row_noise sc ti ns (Fin T) = Fin (sc * (1000 * T) ^ 2 / (ti * sqrt ns * sqrt 2)).
Proof.
  intros. unfold row_noise, calc_P_N, require. cbn [string_dec]. destruct (string_dec "Pk" "Pk") as [_ | N]; [| congruence]. destruct (string_dec "real" "abs") as [N | _]; [discriminate |]. destruct (string_dec "real" "real") as [_ | N]; [| congruence].
  destruct (string_dec "Pk" "DelSq") as [N | _]; [discriminate |]. f_equal. rewrite Rmult_1_r. unfold Rdiv. rewrite !Rinv_mult. ring.
Qed.
Print Assumptions temperature_flagged.
Print Assumptions row_noise_value.

(** "flagged integrations do not contribute": false if a baseline has a single unflagged integration.  Then the first integration is used for all rows,
    even if it is the flagged one, whose mean is 0: no noise anywhere *)
Theorem single_integration_refuted :
  forall a bl1 bl2 f0 n w rows x, temperature a bl1 bl2 f0 n w rows = Ok (TempAll x) ->
    exists i1 i2 r1 r2, map_res (match_time (at_times a (fst bl1))) (map r_t1 rows) = Ok (i1 :: r1) /\ map_res (match_time (at_times a (fst bl2))) (map r_t2 rows) = Ok (i2 :: r2) /\
      (count_good a bl1 (spw_start a f0) n (i1 :: r1) <= 1 \/ count_good a bl2 (spw_start a f0) n (i2 :: r2) <= 1)%nat /\
      (allF a bl1 (spw_start a f0) n i1 = true \/ allF a bl2 (spw_start a f0) n i2 = true -> x = 0 /\ forall sc ti ns i, row_noise sc ti ns (row_temp (TempAll x) i) = Fin 0) /\
      x = sqrt (meanT a bl1 (spw_start a f0) n w i1 * meanT a bl2 (spw_start a f0) n w i2).
Proof.
  intros a bl1 bl2 f0 n w rows x H. unfold temperature, bind, require in H. set (s := spw_start a f0) in *.
  destruct (map_res _ (map r_t1 rows)) as [l1 |] eqn:M1; [| discriminate H]. destruct (map_res _ (map r_t2 rows)) as [l2 |] eqn:M2; [| discriminate H].
  destruct (Nat.leb _ _); [| discriminate H]. destruct (forallb _ (combine l1 l2)); [discriminate H |]. destruct (Nat.ltb 1 _ && Nat.ltb 1 _)%bool eqn:Cg.
  { destruct (interp_side a bl1 _ _ _ _ _); [| discriminate H]. destruct (interp_side a bl2 _ _ _ _ _); discriminate H. }
  destruct l1 as [| i1 r1]; [discriminate H |]. destruct l2 as [| i2 r2]; [discriminate H |].
  exists i1, i2, r1, r2. split; [reflexivity |]. split; [reflexivity |]. split.
  - apply andb_false_iff in Cg. rewrite !Nat.ltb_ge in Cg. exact Cg.
  - pose proof (f_equal (fun r => match r with Ok (TempAll y) => y | _ => 0 end) H) as H'. cbn beta iota in H'. split; [| symmetry; exact H']. intros F.
    assert (X : x = 0). { rewrite <- H'. destruct F as [F | F]; rewrite (meanT_flagged _ _ _ _ _ _ F); rewrite ?Rmult_0_l, ?Rmult_0_r; apply sqrt_0. }
    split; [exact X |]. intros sc ti ns i. cbn [row_temp]. rewrite row_noise_value, X. f_equal. replace (1000 * 0) with 0 by ring. unfold Rdiv. ring.
Qed.
Print Assumptions single_integration_refuted.

Ltac nod := repeat (match goal with |- context [in_dec Req_EM_T ?x ?l] => let H := fresh in destruct (in_dec Req_EM_T x l) as [H | H]; [cbn [In] in H; try (exfalso; intuition lra) | try (exfalso; apply H; cbn [In]; tauto)] end).
Ltac rdec := repeat (match goal with |- context [Rle_dec (Rabs ?x) ?y] => let L := fresh in destruct (Rle_dec (Rabs x) y) as [L | L]; [try (exfalso; revert L; unfold Rabs; destruct (Rcase_abs _); lra) | try (exfalso; apply L; unfold Rabs; destruct (Rcase_abs _); lra)] end; cbn [bind]).
(** ** concrete autocorrelations: two antennas, three integrations, two channels; temperatures 100 K, flags as given *)
Definition ex_autos (fl : Z -> nat -> nat -> bool) : autos := mkautos [1; 2] [1; 2; 3; 1; 2; 3] (fun _ => [10; 11; 12]) (fun _ _ _ => 100) fl.
Definition ex_rows : list prow := [mkprow 10 10 1 1; mkprow 11 11 2 2; mkprow 12 12 3 3].
Lemma first_seen_ex fl : first_seen (at_lst_array (ex_autos fl)) = [1; 2; 3].
Proof. unfold first_seen. cbn [at_lst_array ex_autos rev app nodup]. nod; reflexivity. Qed.
Lemma times_ex fl z : map_res (match_time (at_times (ex_autos fl) z)) [10; 11; 12] = Ok [0; 1; 2]%nat.
Proof.
  cbn [map_res at_times ex_autos match_time]. unfold match_time, match_from, same_time.
  assert (P : 0 < / 10 ^ 5 < 1). { split. apply Rinv_0_lt_compat, pow_lt; lra. rewrite <- Rinv_1. apply Rinv_lt_contravar; lra. }
  rdec; reflexivity.
Qed.
Lemma start_ex fl : spw_start (ex_autos fl) 1 = 0%nat.
Proof. unfold spw_start, argmin. cbn [at_freqs ex_autos map argmin_from]. destruct (Rlt_dec _ _) as [L |]; [| reflexivity]. exfalso. revert L. unfold Rabs. repeat destruct (Rcase_abs _); lra. Qed.
(** without flags: a temperature for each row *)
Example temperature_rows_ex : exists l, temperature (ex_autos (fun _ _ _ => false)) (1, 2)%Z (2, 1)%Z 1 2 (fun _ => 1) ex_rows = Ok (TempRows l).
Proof.
  unfold temperature. change (map r_t1 ex_rows) with [10; 11; 12]. change (map r_t2 ex_rows) with [10; 11; 12]. rewrite !times_ex, start_ex.
  unfold bind, require. cbn -[interp_side sqrt]. unfold interp_side. rewrite first_seen_ex. cbn -[sqrt nearest meanT]. eexists. reflexivity.
Qed.
(** the first two integrations flagged: the temperature is 0 although the third one is unflagged, at 100 K *)
Example single_integration_ex :
  let a := ex_autos (fun _ t _ => Nat.ltb t 2) in
  temperature a (1, 2)%Z (2, 1)%Z 1 2 (fun _ => 1) ex_rows = Ok (TempAll (sqrt (meanT a (1, 2)%Z 0 2 (fun _ => 1) 0 * meanT a (2, 1)%Z 0 2 (fun _ => 1) 0))) /\ allF a (1, 2)%Z 0 2 0 = true /\ allF a (1, 2)%Z 0 2 2 = false.
Proof.
  intros a. split; [| split; reflexivity]. unfold temperature. change (map r_t1 ex_rows) with [10; 11; 12]. change (map r_t2 ex_rows) with [10; 11; 12]. unfold a. rewrite !times_ex, start_ex. reflexivity.
Qed.
(** ** LSTs *)
(** If LSTs repeat (several days), the LSTs of later integrations are not found *)
Theorem repeated_lsts_refuted :
  exists a, at_lst_array a = [1; 2; 1; 2] /\ at_times a 1%Z = [10; 11; 110; 111] /\ (forall t f, at_flag a 1%Z t f = false) /\
    temperature a (1, 1)%Z (1, 1)%Z 1 2 (fun _ => 1) [mkprow 110 110 1 1; mkprow 111 111 2 2] = Err IndexError.
Proof.
  exists (mkautos [1; 2] [1; 2; 1; 2] (fun _ => [10; 11; 110; 111]) (fun _ _ _ => 100) (fun _ _ _ => false)). split; [reflexivity |]. split; [reflexivity |]. split; [reflexivity |].
  set (a := mkautos _ _ _ _ _).
  assert (F : first_seen (at_lst_array a) = [1; 2]). { unfold first_seen. cbn [at_lst_array a rev app nodup]. nod; reflexivity. }
  assert (T : map_res (match_time (at_times a 1%Z)) [110; 111] = Ok [2; 3]%nat).
  { cbn [map_res at_times a match_time]. unfold match_time, match_from, same_time.
    assert (P : 0 < / 10 ^ 5 < 1). { split. apply Rinv_0_lt_compat, pow_lt; lra. rewrite <- Rinv_1. apply Rinv_lt_contravar; lra. }
    rdec; reflexivity. }
  assert (S0 : spw_start a 1 = 0%nat). { unfold spw_start, argmin. cbn [at_freqs a map argmin_from]. destruct (Rlt_dec _ _) as [L |]; [| reflexivity]. exfalso. revert L. unfold Rabs. repeat destruct (Rcase_abs _); lra. }
  unfold temperature. cbn [map r_t1 r_t2 r_l1 r_l2 fst]. rewrite !T, S0. unfold bind, require. cbn -[interp_side]. unfold interp_side. rewrite F. reflexivity.
Qed.
(** If all antennas have the same integrations with distinct LSTs, the LST of each integration is its own *)
Lemma nodup_rev_app (l m : list R) : (forall x, In x m -> In x l) -> nodup Req_EM_T (m ++ l) = nodup Req_EM_T l.
Proof. induction m as [| x m IH]; intros H; [reflexivity |]. cbn [app nodup]. destruct (in_dec Req_EM_T x (m ++ l)) as [I | I]; [apply IH; intros y Hy; apply H; right; exact Hy | exfalso; apply I; apply in_or_app; right; apply H; left; reflexivity]. Qed.
Theorem common_lsts_partial : forall (ls : list R) (k : nat), NoDup ls -> first_seen (concat (repeat ls (S k))) = ls.
Proof.
  intros ls k ND. unfold first_seen. assert (E : nodup Req_EM_T (rev (concat (repeat ls (S k)))) = rev ls).
  { induction k as [| k IH]. - cbn [repeat concat]. rewrite app_nil_r. apply nodup_fixed_point, NoDup_rev, ND.
    - replace (repeat ls (S (S k))) with (repeat ls (S k) ++ [ls]). 2:{ change [ls] with (repeat ls 1). rewrite <- repeat_app. f_equal. lia. }
      rewrite concat_app, rev_app_distr. cbn [concat]. rewrite app_nil_r. rewrite nodup_rev_app; [exact IH |]. intros x Hx. rewrite <- in_rev in Hx |- *. cbn [repeat concat]. apply in_or_app. left. exact Hx. }
  rewrite E. apply rev_involutive.
Qed.
Print Assumptions repeated_lsts_refuted.
Print Assumptions common_lsts_partial.

(** ** the object *)
Section Obj.
Local Open Scope string_scope.
Local Open Scope R_scope.
Context {Key : Type} (keys : list Key) (keq : forall a b : Key, {a = b} + {a <> b}) (data : Key -> nat -> nat -> R) (fromT : Key -> result (nat -> nat -> ext)).
Notation noise_error := (noise_error keys keq data fromT).
Notation est := (@est Key).
(** what is stored under a name, at a key *)
Definition stored (s : est) (name : string) (k : Key) : option (nat -> nat -> ext) := option_map (fun a => a k) (dget string_dec s name).
Lemma stored_set s name k v name' k' : stored (set_st keq s name k v) name' k' =
  if string_dec name' name then Some (if keq k' k then v else match stored s name k' with Some x => x | None => fun _ _ => NaN end) else stored s name' k'.
Proof.
  unfold stored, set_st. rewrite dget_dset. destruct (string_dec name name') as [-> | N]; destruct (string_dec name' name') as [_ | X]; try congruence.
  - cbn. f_equal. destruct (keq k' k); [reflexivity |]. destruct (dget string_dec s name'); reflexivity.
  - destruct (string_dec name' name); [congruence | reflexivity].
Qed.
Lemma key_loop_spec errs pre ks s s' : (forall nm, pre = Some nm -> (In "P_N"%string errs -> nm = "P_N"%string) /\ nm <> "P_SN"%string) -> key_loop keq data fromT errs pre ks s = (s', None) ->
  (forall name k, ~ (In name errs /\ (name = "P_N" \/ name = "P_SN"))%string -> stored s' name k = stored s name k) /\ (forall k, ~ In k ks -> forall name v, stored s name k = Some v -> stored s' name k = Some v) /\ (forall k, In k ks -> exists pn, (match pre with None => fromT k | Some nm => match stored s nm k with Some x => Ok x | None => Err AssertionError end end) = Ok pn /\
    (In "P_N"%string errs -> stored s' "P_N" k = Some pn) /\ (In "P_SN"%string errs -> stored s' "P_SN" k = Some (fun i d => P_SN (data k i d) (pn i d)))).
Proof.
  intros Hpre. revert s. induction ks as [| k ks IH]; intros s H; cbn [key_loop] in H.
  { injection H as <-. split; [auto |]. split; [auto |]. intros k []. }
  destruct (key_step keq data fromT errs pre k s) as [s1 [e |]] eqn:E; [discriminate |].
  unfold key_step in E. destruct (match pre with Some nm => get_st s nm k | None => fromT k end) as [pn |] eqn:P; [| discriminate].
  destruct (IH s1 H) as (A & B & D). clear IH.
  assert (E1 : s1 = (if has "P_SN" errs then set_st keq (if has "P_N" errs then set_st keq s "P_N" k pn else s) "P_SN" k (psn_of data k pn) else if has "P_N" errs then set_st keq s "P_N" k pn else s)) by congruence.
  assert (St : forall name k', stored s1 name k' =
     if string_dec name "P_SN" then (if has "P_SN" errs then Some (if keq k' k then psn_of data k pn else match stored s "P_SN" k' with Some x => x | None => fun _ _ => NaN end) else stored s name k')
     else if string_dec name "P_N" then (if has "P_N" errs then Some (if keq k' k then pn else match stored s "P_N" k' with Some x => x | None => fun _ _ => NaN end) else stored s name k')
     else stored s name k').
  { intros name k'. rewrite E1. destruct (has "P_SN" errs), (has "P_N" errs); rewrite ?stored_set; destruct (string_dec name "P_SN") as [-> | N1]; rewrite ?stored_set; try reflexivity; destruct (string_dec name "P_N") as [-> | N2]; try reflexivity. }
  assert (HN : forall nm, has nm errs = true <-> In nm errs) by (intros nm; unfold has; destruct (in_dec string_dec nm errs); split; intros; auto; discriminate).
  split; [| split].
  - intros name k' Hn. rewrite (A name k' Hn), St. destruct (string_dec name "P_SN") as [-> | N1]; [| destruct (string_dec name "P_N") as [-> | N2]; [| reflexivity]].
    + destruct (has "P_SN" errs) eqn:Q; [| reflexivity]. apply HN in Q. exfalso. apply Hn. auto.
    + destruct (has "P_N" errs) eqn:Q; [| reflexivity]. apply HN in Q. exfalso. apply Hn. auto.
  - intros k' Hk name v Hv. apply B; [intros X; apply Hk; right; exact X |]. rewrite St. destruct (keq k' k) as [-> | Nk]; [exfalso; apply Hk; left; reflexivity |].
    destruct (string_dec name "P_SN") as [-> | N1]; [destruct (has "P_SN" errs); [rewrite Hv; reflexivity | exact Hv] |]. destruct (string_dec name "P_N") as [-> | N2]; [destruct (has "P_N" errs); [rewrite Hv; reflexivity | exact Hv] | exact Hv].
  - assert (Src : forall k' pn', (match pre with None => fromT k' | Some nm => match stored s1 nm k' with Some x => Ok x | None => Err AssertionError end end) = Ok pn' -> (k' = k -> pn' = pn) /\
    (match pre with None => fromT k' | Some nm => match stored s nm k' with Some x => Ok x | None => Err AssertionError end end) = Ok pn').
    { intros k' pn' X. destruct pre as [nm |]; [| split; [intros ->; congruence | exact X]]. destruct (Hpre nm eq_refl) as [Q1 Q2].
      assert (PP : stored s nm k = Some pn). { unfold get_st in P. unfold stored. destruct (dget string_dec s nm); [cbn; congruence | discriminate]. }
      rewrite St in X. destruct (string_dec nm "P_SN") as [-> | _]; [congruence |].
      destruct (string_dec nm "P_N") as [-> | N]; [| split; [intros ->; rewrite PP in X; congruence | exact X]].
      destruct (has "P_N" errs) eqn:Hh; [| split; [intros ->; rewrite PP in X; congruence | exact X]].
      destruct (keq k' k) as [-> | Nk]; [split; [congruence |]; rewrite PP; congruence | split; [congruence |]].
      destruct (stored s "P_N" k') as [y |] eqn:Y; [exact X |]. exfalso. unfold stored in Y, PP. destruct (dget string_dec s "P_N"); discriminate. }
    intros k' [<- | Hk].
    + assert (Pk : (match pre with None => fromT k | Some nm => match stored s nm k with Some x => Ok x | None => Err AssertionError end end) = Ok pn).
      { destruct pre as [nm |]; [| exact P]. unfold get_st in P. unfold stored. destruct (dget string_dec s nm); [exact P | discriminate]. }
      destruct (in_dec keq k ks) as [I | I].
      * destruct (D k I) as (pn' & D1 & D2 & D3). destruct (Src k pn' D1) as [S1 S2]. rewrite (S1 eq_refl) in *. exists pn. auto.
      * exists pn. split; [exact Pk |]. split; intros Hi; apply (B k I); rewrite St.
        -- destruct (string_dec "P_N" "P_SN") as [X | _]; [discriminate |]. destruct (string_dec "P_N" "P_N") as [_ | X]; [| congruence]. apply HN in Hi. rewrite Hi. destruct (keq k k); congruence.
        -- destruct (string_dec "P_SN" "P_SN") as [_ | X]; [| congruence]. apply HN in Hi. rewrite Hi. destruct (keq k k); [reflexivity | congruence].
    + destruct (D k' Hk) as (pn' & D1 & D2 & D3). destruct (Src k' pn' D1) as [_ S2]. exists pn'. auto.
Qed.

(** Both errors from the temperatures: P_N is stored as computed, P_SN from the data and P_N, corrected or not; no other statistic changes *)
Theorem noise_error_both :
  forall corr s s', noise_error true (EList ["P_N"; "P_SN"]%string) None corr s = (s', None) ->
    (forall name k, name <> "P_N"%string -> name <> "P_SN"%string -> stored s' name k = stored s name k) /\
    forall k, In k keys -> exists pn, fromT k = Ok pn /\ stored s' "P_N" k = Some pn /\ stored s' "P_SN" k = Some (fun i d => let e := P_SN (data k i d) (pn i d) in if corr then corrected (pn i d) e else e).
Proof.
  intros corr s s' H. unfold NerrModel.noise_error in H. cbn [negb err_list] in H. destruct (key_loop _ _ _ _ _ _ _) as [s1 [e |]] eqn:L; [discriminate |].
  destruct (key_loop_spec _ None _ _ _ ltac:(intros nm X; discriminate X) L) as (A & B & D). change (has "P_SN" ["P_N"; "P_SN"]) with true in H. rewrite andb_true_r in H. destruct corr.
  - unfold apply_correction in H. destruct (dget string_dec s1 "P_SN") as [a |] eqn:Ga; [| discriminate]. destruct (dget string_dec s1 "P_N") as [b |] eqn:Gb; [| discriminate]. injection H as <-.
    assert (St : forall name k, stored (dset string_dec s1 "P_SN"%string (fun k i d => corrected (b k i d) (a k i d))) name k = if string_dec name "P_SN" then Some (fun i d => corrected (b k i d) (a k i d)) else stored s1 name k).
    { intros name k. unfold stored. rewrite dget_dset. destruct (string_dec "P_SN" name) as [<- | N]; [destruct (string_dec "P_SN" "P_SN"); [reflexivity | congruence] |]. destruct (string_dec name "P_SN"); [congruence | reflexivity]. }
    split.
    + intros name k N1 N2. rewrite St. destruct (string_dec name "P_SN"); [congruence |]. apply A. intros (_ & [X | X]); congruence.
    + intros k Hk. destruct (D k Hk) as (pn & D1 & D2 & D3). exists pn. split; [exact D1 |]. rewrite !St. destruct (string_dec "P_N" "P_SN") as [X | _]; [discriminate |]. destruct (string_dec "P_SN" "P_SN") as [_ | X]; [| congruence].
      split; [apply D2; left; reflexivity |]. specialize (D2 (or_introl eq_refl)). specialize (D3 (or_intror (or_introl eq_refl))). unfold stored in D2, D3. rewrite Ga in D3. rewrite Gb in D2. cbn in D2, D3.
      assert (E2 : b k = pn) by congruence. assert (E3 : a k = fun i d => P_SN (data k i d) (pn i d)) by congruence. rewrite E2, E3. reflexivity.
  - injection H as <-. split.
    + intros name k N1 N2. apply A. intros (_ & [X | X]); congruence.
    + intros k Hk. destruct (D k Hk) as (pn & D1 & D2 & D3). exists pn. split; [exact D1 |]. split; [apply D2; left; reflexivity | apply D3; right; left; reflexivity].
Qed.
(** "auto_Tsys ... not needed if feeding precomp_P_N": it is *)
Theorem precomp_needs_autos_refuted : forall e pre corr s, noise_error false e pre corr s = (s, Some AttributeError).
Proof. reflexivity. Qed.
(** with it, P_SN comes from the statistic named *)
Theorem precomp_partial :
  forall nm corr s s', nm <> "P_SN"%string -> noise_error true (EStr "P_SN") (Some nm) corr s = (s', None) ->
    (forall name k, name <> "P_SN"%string -> stored s' name k = stored s name k) /\
    forall k, In k keys -> exists pn, stored s nm k = Some pn /\ stored s' "P_SN" k = Some (fun i d => let e := P_SN (data k i d) (pn i d) in if corr then corrected (pn i d) e else e).
Proof.
  intros nm corr s s' Nn H. unfold NerrModel.noise_error in H. cbn [negb err_list] in H. destruct (key_loop _ _ _ _ _ _ _) as [s1 [e |]] eqn:L; [discriminate |].
  destruct (key_loop_spec ["P_SN"] (Some nm) _ _ _ ltac:(intros nm' X; injection X as <-; split; [intros [Y | []]; discriminate Y | exact Nn]) L) as (A & B & D).
  assert (A' : forall name k, name <> "P_SN"%string -> stored s1 name k = stored s name k) by (intros name k N; apply A; intros ([X | []] & _); congruence).
  assert (D' : forall k, In k keys -> exists pn, stored s nm k = Some pn /\ stored s1 "P_SN" k = Some (fun i d => P_SN (data k i d) (pn i d))).
  { intros k Hk. destruct (D k Hk) as (pn & D1 & _ & D3). destruct (stored s nm k) as [x |]; [| discriminate]. injection D1 as ->. exists pn. split; [reflexivity |]. apply D3. left. reflexivity. }
  change (has "P_SN" ["P_SN"]) with true in H. rewrite andb_true_r in H. destruct corr.
  - unfold apply_correction in H. destruct (dget string_dec s1 "P_SN") as [a |] eqn:Ga; [| discriminate]. destruct (dget string_dec s1 nm) as [b |] eqn:Gb; [| discriminate]. injection H as <-.
    assert (St : forall name k, stored (dset string_dec s1 "P_SN"%string (fun k i d => corrected (b k i d) (a k i d))) name k = if string_dec name "P_SN" then Some (fun i d => corrected (b k i d) (a k i d)) else stored s1 name k).
    { intros name k. unfold stored. rewrite dget_dset. destruct (string_dec "P_SN" name) as [<- | N]; [destruct (string_dec "P_SN" "P_SN"); [reflexivity | congruence] |]. destruct (string_dec name "P_SN"); [congruence | reflexivity]. }
    split.
    + intros name k N. rewrite St. destruct (string_dec name "P_SN"); [congruence |]. apply A', N.
    + intros k Hk. destruct (D' k Hk) as (pn & D1 & D3). exists pn. split; [exact D1 |]. rewrite St. destruct (string_dec "P_SN" "P_SN") as [_ | X]; [| congruence].
      rewrite <- (A' nm k Nn) in D1. unfold stored in D1, D3. rewrite Ga in D3. rewrite Gb in D1. cbn in D1, D3.
      assert (E2 : b k = pn) by congruence. assert (E3 : a k = fun i d => P_SN (data k i d) (pn i d)) by congruence. rewrite E2, E3. reflexivity.
  - injection H as <-. split; [exact A' | exact D'].
Qed.
(** "P_SN" alone, corrected: without a P_N stored before, an AssertionError after the uncorrected P_SN has been stored; with one, the correction uses it,
    whatever it is, and not the noise just computed *)
Theorem psn_alone_refuted :
  (forall s s' e, keys <> [] -> dget string_dec s "P_N" = None -> noise_error true (EStr "P_SN") None true s = (s', e) -> e <> None /\ (e = Some AssertionError \/ exists k, In k keys /\ exists e', fromT k = Err e' /\ e = Some e')) /\ (forall s s' old, dget string_dec s "P_N" = Some old -> noise_error true (EStr "P_SN") None true s = (s', None) ->
     forall k, In k keys -> exists pn, fromT k = Ok pn /\ stored s' "P_SN" k = Some (fun i d => corrected (old k i d) (P_SN (data k i d) (pn i d)))).
Proof.
  split.
  - intros s s' e Hk Hn H. unfold NerrModel.noise_error in H. cbn [negb err_list] in H. destruct (key_loop _ _ _ _ _ _ _) as [s1 [e1 |]] eqn:L.
    + injection H as <- <-. split; [discriminate |]. right. revert s L Hn. clear Hk. induction keys as [| k ks IH]; intros s L Hn; cbn [key_loop] in L; [discriminate |].
      destruct (key_step keq data fromT ["P_SN"%string] None k s) as [s2 [e2 |]] eqn:E.
      * injection L as <- <-. exists k. split; [left; reflexivity |]. unfold key_step in E. destruct (fromT k) as [pn | e3] eqn:F; [discriminate |]. exists e3. split; [first [exact F | reflexivity] | congruence].
      * destruct (IH s2 L) as (k' & K1 & K2).
        { unfold key_step in E. destruct (fromT k); [| discriminate]. change (has "P_N" ["P_SN"]) with false in E. change (has "P_SN" ["P_SN"]) with true in E. cbn iota in E. injection E as <-. unfold set_st. rewrite dget_dset.
          destruct (string_dec "P_SN" "P_N") as [X | _]; [discriminate | exact Hn]. }
        exists k'. split; [right; exact K1 | exact K2].
    + change (has "P_SN" ["P_SN"]) with true in H. cbn [andb] in H. unfold apply_correction in H.
      destruct (key_loop_spec _ None _ _ _ ltac:(intros nm X; discriminate X) L) as (A & _ & _).
      assert (N1 : dget string_dec s1 "P_N" = None). { destruct keys as [| k0 ks]; [congruence |]. specialize (A "P_N"%string k0 ltac:(intros ([X | []] & _); discriminate X)). unfold stored in A. rewrite Hn in A. destruct (dget string_dec s1 "P_N"); [discriminate | reflexivity]. }
      rewrite N1 in H. destruct (dget string_dec s1 "P_SN"); injection H as <- <-; split; try discriminate; left; reflexivity.
  - intros s s' old Ho H k Hk. unfold NerrModel.noise_error in H. cbn [negb err_list] in H. destruct (key_loop _ _ _ _ _ _ _) as [s1 [e |]] eqn:L; [discriminate |].
    destruct (key_loop_spec _ None _ _ _ ltac:(intros nm X; discriminate X) L) as (A & B & D). change (has "P_SN" ["P_SN"]) with true in H. cbn [andb] in H. unfold apply_correction in H.
    destruct (dget string_dec s1 "P_SN") as [a |] eqn:Ga; [| discriminate]. destruct (dget string_dec s1 "P_N") as [b |] eqn:Gb; [| discriminate]. injection H as <-.
    destruct (D k Hk) as (pn & D1 & _ & D3). exists pn. split; [exact D1 |]. specialize (D3 (or_introl eq_refl)). specialize (A "P_N"%string k ltac:(intros ([X | []] & _); discriminate X)).
    unfold stored in *. rewrite dget_dset. destruct (string_dec "P_SN" "P_SN") as [_ | X]; [| congruence]. rewrite Ga in D3. rewrite Gb, Ho in A. cbn in D3, A |- *.
    assert (E2 : b k = old k) by congruence. assert (E3 : a k = fun i d => P_SN (data k i d) (pn i d)) by congruence. rewrite E2, E3. reflexivity.
Qed.
End Obj.
Print Assumptions noise_error_both.
Print Assumptions precomp_needs_autos_refuted.
Print Assumptions precomp_partial.
Print Assumptions psn_alone_refuted.
Example noise_error_ex : exists s', noise_error [0; 1]%nat Nat.eq_dec (fun _ _ _ => 3) (fun _ => Ok (fun _ _ => Fin 1)) true (EList ["P_N"; "P_SN"]%string) None true [] = (s', None) /\ dget string_dec s' "P_N"%string <> None.
Proof. eexists. split; [reflexivity |]. cbn. discriminate. Qed.
Example precomp_ex : exists s', noise_error [0; 1]%nat Nat.eq_dec (fun _ _ _ => 3) (fun _ => Err IndexError) true (EStr "P_SN") (Some "mine"%string) false [("mine"%string, fun _ _ _ => Fin 1)] = (s', None).
Proof. eexists. reflexivity. Qed.
