(** What averaging does to covariances, frequency weights, error bars and baselines. *)
From Coq Require Import Reals Lra Lia QArith Sorted Permutation.
From Verif Require Import PyDict.
From Verif Require Import Prelude ListLemmas UvpModel AvgModel AvgProofs AvgMain AvgTotal CommonProofs GetProps AvgCovModel.
Open Scope R_scope.

(** ** Matrices *)
Lemma mget_mkmat n f i j : (i < n)%nat -> (j < n)%nat -> mget (mkmat n f) i j = f i j.
Proof.
  intros Hi Hj. unfold mget, mkmat. rewrite (nth_indep _ [] (map (f 0%nat) (seq 0 n))) by (rewrite map_length, seq_length; exact Hi).
  rewrite (map_nth (fun i => map (f i) (seq 0 n))), seq_nth by exact Hi. rewrite (nth_indep _ 0 (f i 0%nat)) by (rewrite map_length, seq_length; exact Hj).
  rewrite (map_nth (f i)), seq_nth by exact Hj. reflexivity.
Qed.

(** rows of weights of one form: one per bin, or one for all bins *)
Definition uniform_rows (n : nat) (l : list cterm) : Prop := exists L, (L = 1%nat \/ L = n) /\ Forall (fun cw => length (snd cw) = L) l.
(** the total weight in bin i *)
Definition W (l : list cterm) (i : nat) : R := Rsum (map (fun cw => bc (snd cw) i) l).

Lemma bc_wsum n l i : l <> [] -> uniform_rows n l -> (i < n)%nat -> bc (map clip (colsum (map snd l))) i = clip (W l i).
Proof.
  intros Ne (L & HL & F) Hi. assert (F' : Forall (fun r => length r = L) (map snd l)) by (apply Forall_map; exact F).
  assert (Ne' : map snd l <> []) by (destruct l; [congruence | discriminate]).
  rewrite (bc_map n) by (try exact Hi; apply (colsum_fits n L); assumption). f_equal. rewrite (bc_colsum n L) by assumption. unfold W. rewrite map_map. reflexivity.
Qed.
Lemma cov_mean_entry n l i j : l <> [] -> uniform_rows n l -> (i < n)%nat -> (j < n)%nat ->
  mget (cov_mean n l) i j = Rsum (map (fun cw => mget (fst cw) i j * bc (snd cw) i * bc (snd cw) j) l) / clip (W l i) / clip (W l j).
Proof. intros Ne U Hi Hj. unfold cov_mean. rewrite mget_mkmat by assumption. unfold cov_sum. rewrite mget_mkmat by assumption. rewrite !(bc_wsum n) by assumption. reflexivity. Qed.
Lemma clip_big x : tiny <= x -> clip x = x.
Proof. intros H. apply clip_id. exact H. Qed.

(** ** Propagation
    Members k with multiplicities m_k (the whole weights), each with covariance C_k and weights w_k: the average
    sum_k m_k w_k x_k / sum_k m_k w_k is stored with the covariance sum_k m_k a_k a_k C_k, where a_k = w_k / sum m w. *)
Definition total (l : list (cterm * nat)) (i : nat) : R := Rsum (map (fun cm => INR (snd cm) * bc (snd (fst cm)) i) l).
Definition share (l : list (cterm * nat)) (c : cterm) (i : nat) : R := bc (snd c) i / total l i.

Definition row_terms (r : nat) (group : list (cblock * nat)) : list (cterm * nat) := map (fun bm => (nth r (fst bm) ([], []), snd bm)) group.
Definition weights_of (group : list (cblock * nat)) : list (cblock * R) := map (fun bm => (fst bm, INR (snd bm))) group.

Lemma expand_weights (group : list (cblock * nat)) : expand (weights_of group) = flat_map (fun bm => repeat (fst bm) (snd bm)) group.
Proof. unfold expand, weights_of. rewrite flat_map_concat_map, map_map, <- flat_map_concat_map. apply flat_map_ext. intros [b m]. cbn [fst snd]. rewrite copies_of_INR. reflexivity. Qed.
Lemma Rsum_copies {A} (f : A -> R) (l : list (A * nat)) : Rsum (map f (flat_map (fun bm => repeat (fst bm) (snd bm)) l)) = Rsum (map (fun bm => INR (snd bm) * f (fst bm)) l).
Proof.
  induction l as [| [b m] l IH]; [reflexivity |]. cbn [flat_map map Rsum fst snd]. rewrite map_app, Rsum_app, IH. f_equal.
  rewrite map_repeat', Rsum_repeat. reflexivity.
Qed.
Lemma map_flat_repeat {A B} (g : A -> B) (l : list (A * nat)) : map g (flat_map (fun bm => repeat (fst bm) (snd bm)) l) = flat_map (fun bm => repeat (fst bm) (snd bm)) (map (fun bm => (g (fst bm), snd bm)) l).
Proof. induction l as [| [b m] l IH]; [reflexivity |]. cbn [flat_map map fst snd]. rewrite map_app, IH, map_repeat'. reflexivity. Qed.
Lemma In_copies {A} (x : A) (l : list (A * nat)) : In x (flat_map (fun bm => repeat (fst bm) (snd bm)) l) -> exists m, In (x, m) l /\ (0 < m)%nat.
Proof. intros H. apply in_flat_map in H as ([b m] & I & J). cbn [fst snd] in J. pose proof (repeat_spec _ _ _ J) as ->. exists m. split; [exact I | destruct m; [destruct J | lia]]. Qed.

Definition cov_of (l : list (cterm * nat)) (i j : nat) : R := Rsum (map (fun cm => INR (snd cm) * (share l (fst cm) i * share l (fst cm) j * mget (fst (fst cm)) i j)) l).

Lemma cov_mean_copies n (l : list (cterm * nat)) i j :
  flat_map (fun bm => repeat (fst bm) (snd bm)) l <> [] -> uniform_rows n (flat_map (fun bm => repeat (fst bm) (snd bm)) l) -> (i < n)%nat -> (j < n)%nat ->
  tiny <= total l i -> tiny <= total l j -> mget (cov_mean n (flat_map (fun bm => repeat (fst bm) (snd bm)) l)) i j = cov_of l i j.
Proof.
  intros Ne U Hi Hj Ti Tj. rewrite cov_mean_entry by assumption.
  assert (WT : forall k, W (flat_map (fun bm => repeat (fst bm) (snd bm)) l) k = total l k) by (intros k; unfold W; rewrite Rsum_copies; reflexivity).
  rewrite !WT, !clip_big by assumption. rewrite Rsum_copies. unfold cov_of, share. set (ti := total l i) in *. set (tj := total l j) in *.
  assert (tiny > 0) by (unfold tiny; apply Rinv_0_lt_compat, IZR_lt; reflexivity). clearbody ti tj. clear Ne U WT. unfold Rdiv at 1 2. rewrite Rmult_assoc. rewrite <- Rsum_scale_r, map_map.
  f_equal. apply map_ext. intros [[c w] m]. cbn [fst snd]. field. lra.
Qed.

Lemma nth_error_map_seq {A} (f : nat -> A) k r m : nth_error (map f (seq 0 k)) r = Some m -> (r < k)%nat /\ m = f r.
Proof.
  intros E. assert (Hr : (r < length (map f (seq 0 k)))%nat) by (apply nth_error_Some; rewrite E; discriminate). rewrite map_length, seq_length in Hr. split; [exact Hr |].
  rewrite nth_error_map, (nth_error_nth' _ 0%nat) in E by (rewrite seq_length; exact Hr). rewrite seq_nth in E by exact Hr. injection E as <-. reflexivity.
Qed.
Lemma cov_group_row n cs ms r m : cov_group n cs = Ok ms -> nth_error ms r = Some m ->
  cs <> [] /\ m = cov_mean n (map (fun b => nth r b ([], [])) cs) /\ (forall b, In b cs -> (r < length b)%nat).
Proof.
  intros H E. unfold cov_group in H. destruct cs as [| c cs]; [discriminate |]. apply require_ok in H as [Same H]. injection H as <-.
  apply nth_error_map_seq in E as [Hr ->]. split; [discriminate |]. split; [reflexivity |]. intros b I. rewrite forallb_forall in Same. specialize (Same b I). apply Nat.eqb_eq in Same. lia.
Qed.
Lemma uniform_incl n l l' : uniform_rows n l -> (forall x, In x l' -> In x l) -> uniform_rows n l'.
Proof. intros (L & HL & F) I. exists L. split; [exact HL |]. rewrite Forall_forall in *. intros x Hx. apply F, I, Hx. Qed.

Theorem covariance_propagates :
  forall n group ms, avg_cov n false (weights_of group) = Ok ms -> uniform_rows n (concat (map fst group)) ->
  forall r m i j, nth_error ms r = Some m -> (i < n)%nat -> (j < n)%nat -> tiny <= total (row_terms r group) i -> tiny <= total (row_terms r group) j ->
    mget m i j = cov_of (row_terms r group) i j.
Proof.
  intros n group ms H U r m i j E Hi Hj Ti Tj. unfold avg_cov in H. rewrite expand_weights in H. destruct (cov_group_row _ _ _ _ _ H E) as (Ne & -> & Len).
  rewrite map_flat_repeat. change (map (fun bm : list cterm * nat => (nth r (fst bm) ([], []), snd bm)) group) with (row_terms r group). apply cov_mean_copies; try assumption.
  - intros X. apply Ne. apply (map_eq_nil (fun b : cblock => nth r b ([], []))). etransitivity; [apply (map_flat_repeat (fun b : cblock => nth r b ([], [])) group) | exact X].
  - apply (uniform_incl n _ _ U). intros x I. assert (I' : In x (map (fun b : cblock => nth r b ([], [])) (flat_map (fun bm : cblock * nat => repeat (fst bm) (snd bm)) group))) by (rewrite (map_flat_repeat (fun b : cblock => nth r b ([], [])) group); exact I). clear I. rename I' into I. apply in_map_iff in I as (b & <- & I). pose proof (Len b I) as Lb.
    apply in_concat. exists b. split; [| apply nth_In; exact Lb]. apply In_copies in I as (k & I & _). apply in_map_iff. exists (b, k). split; [reflexivity | exact I].
Qed.

(** With time averaging, the terms are all integrations of all members. *)
Definition all_terms (group : list (cblock * nat)) : list (cterm * nat) := flat_map (fun bm => map (fun c => (c, snd bm)) (fst bm)) group.
Lemma total_all group i : total (all_terms group) i = Rsum (map (fun bm => INR (snd bm) * W (fst bm) i) group).
Proof.
  induction group as [| [b m] g IH]; [reflexivity |]. cbn [map Rsum fst snd]. rewrite <- IH. unfold total, all_terms. cbn [flat_map fst snd]. rewrite map_app, Rsum_app. f_equal.
  rewrite map_map. cbn [fst snd]. unfold W. rewrite <- Rsum_scale, map_map. reflexivity.
Qed.
Theorem covariance_propagates_in_time :
  forall n group ms, avg_cov n true (weights_of group) = Ok ms -> uniform_rows n (concat (map fst group)) -> (forall b m, In (b, m) group -> b <> []) ->
  (forall b m i, In (b, m) group -> (0 < m)%nat -> (i < n)%nat -> tiny <= W b i) -> (forall i, (i < n)%nat -> tiny <= total (all_terms group) i) ->
  exists m, ms = [m] /\ forall i j, (i < n)%nat -> (j < n)%nat -> mget m i j = cov_of (all_terms group) i j.
Proof.
  intros n group ms H U Ne HW HT. unfold avg_cov in H.
  set (tg := map (fun bm : cblock * nat => (cov_time_average n (fst bm), snd bm)) group).
  assert (ET : map (fun bw : cblock * R => (cov_time_average n (fst bw), snd bw)) (weights_of group) = weights_of tg) by (unfold weights_of, tg; rewrite !map_map; reflexivity).
  rewrite ET, expand_weights in H.
  assert (R1 : exists m, ms = [m] /\ nth_error ms 0 = Some m).
  { unfold cov_group in H. destruct (flat_map (fun bm => repeat (fst bm) (snd bm)) tg) as [| c cs] eqn:X; [discriminate |]. apply require_ok in H as [_ H].
    assert (Lc : length c = 1%nat). { assert (I : In c (flat_map (fun bm => repeat (fst bm) (snd bm)) tg)) by (rewrite X; left; reflexivity). apply In_copies in I as (k & I & _). unfold tg in I. apply in_map_iff in I as ([b k'] & E & _). injection E as <- _. reflexivity. }
    rewrite Lc in H. cbn [seq map] in H. injection H as <-. eexists. split; reflexivity. }
  destruct R1 as (m & -> & E). exists m. split; [reflexivity |]. intros i j Hi Hj. destruct (cov_group_row _ _ _ _ _ H E) as (NeC & -> & Len).
  rewrite map_flat_repeat. set (rt := map (fun bm : list cterm * nat => (nth 0 (fst bm) ([], []), snd bm)) tg). match goal with |- context [flat_map _ ?x] => change x with rt end.
  assert (RT : rt = map (fun bm : cblock * nat => ((cov_mean n (fst bm), colsum (map snd (fst bm))), snd bm)) group) by (unfold rt, tg; rewrite map_map; reflexivity).
  destruct U as (L & HL & F).
  assert (FB : forall b k, In (b, k) group -> Forall (fun cw => length (snd cw) = L) b).
  { intros b k I. rewrite Forall_forall in F |- *. intros x Hx. apply F, in_concat. exists b. split; [apply in_map_iff; exists (b, k); split; [reflexivity | exact I] | exact Hx]. }
  assert (CB : forall b k d, In (b, k) group -> (d < n)%nat -> bc (colsum (map snd b)) d = W b d).
  { intros b k d I Hd. rewrite (bc_colsum n L); [unfold W; rewrite map_map; reflexivity | intros X; apply (Ne b k I); destruct b; [reflexivity | discriminate] | apply Forall_map, (FB b k I) | exact HL | exact Hd]. }
  assert (TT : forall d, (d < n)%nat -> total rt d = total (all_terms group) d).
  { intros d Hd. rewrite total_all, RT. unfold total. rewrite map_map. cbn [fst snd]. f_equal. apply map_ext_in. intros [b k] I. cbn [fst snd]. rewrite (CB b k) by assumption. reflexivity. }
  rewrite cov_mean_copies; try assumption; try (rewrite TT by assumption; apply HT; assumption).
  - (* the two-step sum *)
    unfold cov_of. replace (map (fun cm => INR (snd cm) * (share rt (fst cm) i * share rt (fst cm) j * mget (fst (fst cm)) i j)) rt) with (map (fun cm => INR (snd cm) * (share rt (fst cm) i * share rt (fst cm) j * mget (fst (fst cm)) i j)) (map (fun bm : cblock * nat => ((cov_mean n (fst bm), colsum (map snd (fst bm))), snd bm)) group)) by (rewrite <- RT; reflexivity). rewrite map_map. cbn [fst snd].
    assert (Flat : forall (f : cterm * nat -> R), Rsum (map f (all_terms group)) = Rsum (map (fun bm : cblock * nat => Rsum (map (fun c => f (c, snd bm)) (fst bm))) group)).
    { intros f. clear. induction group as [| [b k] g IH]; [reflexivity |]. cbn [map Rsum fst snd]. rewrite <- IH. unfold all_terms. cbn [flat_map fst snd]. rewrite map_app, Rsum_app, map_map. reflexivity. }
    rewrite Flat. f_equal. apply map_ext_in. intros [b k] I. cbn [fst snd]. destruct (Nat.eq_dec k 0) as [-> | Nk].
    + cbn [INR]. rewrite Rmult_0_l. symmetry. apply Rsum_zero, Forall_map, Forall_forall. intros; ring.
    + assert (Ub : uniform_rows n b) by (exists L; split; [exact HL | apply (FB b k I)]). rewrite (cov_mean_entry n b i j (Ne b k I) Ub Hi Hj).
      unfold share. cbn [fst snd]. rewrite (CB b k i), (CB b k j), !TT by assumption. assert (Wi := HW b k i I ltac:(lia) Hi). assert (Wj := HW b k j I ltac:(lia) Hj). rewrite !clip_big by assumption.
      assert (T0 : tiny > 0) by (unfold tiny; apply Rinv_0_lt_compat, IZR_lt; reflexivity). pose proof (HT i Hi) as Ti. pose proof (HT j Hj) as Tj.
      set (ti := total (all_terms group) i) in *. set (tj := total (all_terms group) j) in *. set (wi := W b i) in *. set (wj := W b j) in *. clearbody ti tj wi wj.
      transitivity (INR k / ti / tj * Rsum (map (fun cw => mget (fst cw) i j * bc (snd cw) i * bc (snd cw) j) b)); [field; repeat split; lra |].
      rewrite <- Rsum_scale, map_map. f_equal. apply map_ext. intros [c w]. cbn [fst snd]. field. split; lra.
  - intros X. assert (Z : map (fun b : list cterm => nth 0 b ([], [])) (flat_map (fun bm : cblock * nat => repeat (fst bm) (snd bm)) tg) = []) by (rewrite map_flat_repeat; exact X).
    apply map_eq_nil in Z. apply NeC. exact Z.
  - exists L. split; [exact HL |]. apply Forall_forall. intros x I. apply In_copies in I as (k & I & _). rewrite RT in I. apply in_map_iff in I as ([b k'] & E' & I). injection E' as <- <-. cbn [snd].
    apply colsum_length; [intros Y; apply (Ne b k' I); destruct b; [reflexivity | discriminate] | apply Forall_map, (FB b k' I)].
Qed.

(** ** Symmetric and positive covariances stay so *)
Definition qform (n : nat) (f : nat -> nat -> R) (x : nat -> R) : R := Rsum (map (fun i => Rsum (map (fun j => x i * f i j * x j) (seq 0 n))) (seq 0 n)).
Definition positive (n : nat) (f : nat -> nat -> R) : Prop := forall x, 0 <= qform n f x.
Definition symmetric (n : nat) (f : nat -> nat -> R) : Prop := forall i j, (i < n)%nat -> (j < n)%nat -> f i j = f j i.
Lemma Rsum_plus {A} (f g : A -> R) l : Rsum (map (fun x => f x + g x) l) = Rsum (map f l) + Rsum (map g l).
Proof. induction l as [| a l IH]; cbn [map Rsum]; [ring | rewrite IH; ring]. Qed.
Lemma qform_ext n f g x y : (forall i j, (i < n)%nat -> (j < n)%nat -> x i * f i j * x j = y i * g i j * y j) -> qform n f x = qform n g y.
Proof. intros H. unfold qform. f_equal. apply map_ext_in. intros i I. apply in_seq in I. f_equal. apply map_ext_in. intros j J. apply in_seq in J. apply H; lia. Qed.
Lemma qform_plus n f g x : qform n (fun i j => f i j + g i j) x = qform n f x + qform n g x.
Proof. unfold qform. rewrite <- Rsum_plus. f_equal. apply map_ext. intros i. rewrite <- Rsum_plus. f_equal. apply map_ext. intros j. ring. Qed.
Lemma qform_zero n x : qform n (fun _ _ => 0) x = 0.
Proof. unfold qform. apply Rsum_zero, Forall_map, Forall_forall. intros i _. apply Rsum_zero, Forall_map, Forall_forall. intros; ring. Qed.
Lemma qform_scale n c f x : qform n (fun i j => c * f i j) x = c * qform n f x.
Proof. unfold qform. rewrite <- Rsum_scale, map_map. f_equal. apply map_ext. intros i. rewrite <- Rsum_scale, map_map. f_equal. apply map_ext. intros j. ring. Qed.
Lemma qform_sum n (s : cterm -> nat -> R) (l : list (cterm * nat)) x :
  qform n (fun i j => Rsum (map (fun cm => INR (snd cm) * (s (fst cm) i * s (fst cm) j * mget (fst (fst cm)) i j)) l)) x =
  Rsum (map (fun cm => INR (snd cm) * qform n (mget (fst (fst cm))) (fun i => s (fst cm) i * x i)) l).
Proof.
  induction l as [| [c m] l IH]; cbn [map Rsum fst snd]; [apply qform_zero |]. rewrite qform_plus, IH. f_equal. rewrite qform_scale. f_equal. apply qform_ext. intros; ring.
Qed.
Theorem covariance_symmetric_positive :
  forall n group ms, avg_cov n false (weights_of group) = Ok ms -> uniform_rows n (concat (map fst group)) ->
  forall r m, nth_error ms r = Some m -> (forall i, (i < n)%nat -> tiny <= total (row_terms r group) i) ->
    ((forall c k, In (c, k) (row_terms r group) -> symmetric n (mget (fst c))) -> symmetric n (mget m)) /\
    ((forall c k, In (c, k) (row_terms r group) -> positive n (mget (fst c))) -> positive n (mget m)).
Proof.
  intros n group ms H U r m E T. pose proof (covariance_propagates n group ms H U r m) as P. split.
  - intros S i j Hi Hj. rewrite (P i j), (P j i) by auto. unfold cov_of. f_equal. apply map_ext_in. intros [c k] I. cbn [fst snd]. rewrite (S c k I i j Hi Hj). ring.
  - intros S x. rewrite (qform_ext n _ (cov_of (row_terms r group)) x x) by (intros i j Hi Hj; rewrite (P i j) by auto; reflexivity).
    unfold cov_of. rewrite (qform_sum n (share (row_terms r group))). apply Rsum_nonneg, Forall_map, Forall_forall. intros [c k] I. cbn [fst snd]. apply Rmult_le_pos; [apply pos_INR | apply (S c k I)].
Qed.

(** ** The diagonal is the square of the averaged error bar *)
Definition errors_of (e : cterm -> R) (i : nat) (l : list (cterm * nat)) : list (R * R) := flat_map (fun cm => repeat (e (fst cm), bc (snd (fst cm)) i) (snd cm)) l.
Lemma Rsum_flat_repeat {A B} (f : B -> R) (g : A -> B) (l : list (A * nat)) : Rsum (map f (flat_map (fun cm => repeat (g (fst cm)) (snd cm)) l)) = Rsum (map (fun cm => INR (snd cm) * f (g (fst cm))) l).
Proof. induction l as [| [a m] l IH]; [reflexivity |]. cbn [flat_map map Rsum fst snd]. rewrite map_app, Rsum_app, map_repeat', Rsum_repeat, IH. reflexivity. Qed.
Theorem covariance_diagonal :
  forall n group ms e, avg_cov n false (weights_of group) = Ok ms -> uniform_rows n (concat (map fst group)) ->
  forall r m i s, nth_error ms r = Some m -> (i < n)%nat -> tiny <= total (row_terms r group) i ->
    (forall c k, In (c, k) (row_terms r group) -> mget (fst c) i i = e c ^ 2 /\ e c ^ 2 <= IZR (10 ^ 40)) ->
    avg_stat (errors_of e i (row_terms r group)) = Some s -> mget m i i = s ^ 2.
Proof.
  intros n group ms e H U r m i s E Hi T D S. rewrite (covariance_propagates n group ms H U r m i i E Hi Hi T T). set (l := row_terms r group) in *. clearbody l.
  unfold avg_stat, errors_of in S.
  rewrite (Rsum_flat_repeat (fun ew : R * R => Rmin (fst ew ^ 2) (IZR (10 ^ 40)) * snd ew ^ 2) (fun c => (e c, bc (snd c) i)) l) in S.
  rewrite (Rsum_flat_repeat (@snd R R) (fun c => (e c, bc (snd c) i)) l) in S. cbn [fst snd] in S.
  change (Rsum (map (fun cm : cterm * nat => INR (snd cm) * bc (snd (fst cm)) i) l)) with (total l i) in S. rewrite clip_big in S by exact T.
  set (v := Rsum _ / _) in S. destruct (Rle_dec (Rabs v) (/ IZR (10 ^ 8))) as [C | C]; [discriminate |]. injection S as <-.
  assert (T0 : tiny > 0) by (unfold tiny; apply Rinv_0_lt_compat, IZR_lt; reflexivity).
  assert (V : cov_of l i i = v).
  { unfold v, cov_of, share. unfold Rdiv at 3. rewrite <- Rsum_scale_r, map_map. f_equal. apply map_ext_in. intros [[c w] k] I. cbn [fst snd]. destruct (D (c, w) k I) as [D1 D2]. cbn [fst] in D1. rewrite Rmin_left by exact D2. rewrite D1. field. lra. }
  rewrite V. symmetry. replace (sqrt v ^ 2) with (sqrt v * sqrt v) by ring. apply sqrt_sqrt. rewrite <- V. unfold cov_of. apply Rsum_nonneg, Forall_map, Forall_forall. intros [c k] I. cbn [fst snd]. destruct (D c k I) as [D1 _]. rewrite D1.
  apply Rmult_le_pos; [apply pos_INR |]. replace (share l c i * share l c i * e c ^ 2) with ((share l c i * e c) ^ 2) by ring. apply pow2_ge_0.
Qed.

(** ** Copies of one baseline-pair count as independent *)
Theorem covariance_of_copies :
  forall n b k ms, (0 < k)%nat -> avg_cov n false (weights_of [(b, k)]) = Ok ms -> uniform_rows n b ->
  forall r m i j c, nth_error ms r = Some m -> nth_error b r = Some c -> (i < n)%nat -> (j < n)%nat -> tiny <= bc (snd c) i -> tiny <= bc (snd c) j -> mget m i j = mget (fst c) i j / INR k.
Proof.
  intros n b k ms Hk H U r m i j c E Ec Hi Hj Wi Wj. assert (T0 : tiny > 0) by (unfold tiny; apply Rinv_0_lt_compat, IZR_lt; reflexivity).
  assert (RT : row_terms r [(b, k)] = [(c, k)]) by (unfold row_terms; cbn [map fst snd]; rewrite (nth_error_nth _ _ _ Ec); reflexivity).
  assert (K1 : 1 <= INR k) by (apply (le_INR 1); lia).
  rewrite (covariance_propagates n [(b, k)] ms H) with (r := r); try assumption.
  - rewrite RT. unfold cov_of, share, total. cbn [map Rsum fst snd]. field. lra.
  - cbn [map fst concat]. rewrite app_nil_r. exact U.
  - rewrite RT. unfold total. cbn [map Rsum fst snd]. nra.
  - rewrite RT. unfold total. cbn [map Rsum fst snd]. nra.
Qed.
(** Drawing the only baseline-pair twice leaves the spectrum as it is and halves its variance. *)
Lemma tiny_1 : tiny <= 1.
Proof. unfold tiny. rewrite <- Rinv_1. apply Rinv_le_contravar; [lra |]. apply IZR_le. lia. Qed.
Theorem covariance_repeated_refuted :
  exists (blk : block) (c1 c2 : list mat) (g1 g2 : block), let b : cblock := [([[1]], [1])] in
    avg_cov 1 false (weights_of [(b, 1%nat)]) = Ok c1 /\ avg_cov 1 false (weights_of [(b, 2%nat)]) = Ok c2 /\
    group_mean (expand [(blk, INR 1)]) = Ok g1 /\ group_mean (expand [(blk, INR 2)]) = Ok g2 /\ b_data g1 = [[5]] /\ b_data g2 = [[5]] /\
    mget (nth 0 c1 []) 0 0 = 1 /\ mget (nth 0 c2 []) 0 0 = 1 / 2.
Proof.
  exists (mkblock [[5]] [[1]] [[1]] [[1]]). eexists. eexists. eexists. eexists. cbn zeta.
  assert (X1 : avg_cov 1 false (weights_of [([([[1]], [1])], 1%nat)]) = Ok [cov_mean 1 [([[1]], [1])]]).
  { unfold avg_cov. rewrite expand_weights. reflexivity. }
  assert (X2 : avg_cov 1 false (weights_of [([([[1]], [1])], 2%nat)]) = Ok [cov_mean 1 [([[1]], [1]); ([[1]], [1])]]).
  { unfold avg_cov. rewrite expand_weights. reflexivity. }
  split; [exact X1 |]. split; [exact X2 |].
  unfold expand. cbn [flat_map fst snd]. rewrite !copies_of_INR. cbn [repeat app]. split; [reflexivity |]. split; [reflexivity |].
  pose proof tiny_1 as T1. cbn [group_mean length Nat.eqb forallb andb require b_data b_w b_ints b_nsmp seq map nth bdiv bop bwidth sum_row colsum hd Rsum bmul bc].
  split; [cbn; unfold bdiv, bop, bwidth; cbn; rewrite clip_big by lra; f_equal; f_equal; field |]. split; [cbn; unfold bdiv, bop, bwidth; cbn; rewrite clip_big by lra; f_equal; f_equal; field |].
  split; cbn [nth]; rewrite cov_mean_entry; try lia; try discriminate; try (exists 1%nat; split; [left; reflexivity | repeat (apply Forall_cons; [reflexivity |]); apply Forall_nil]); unfold W, mget; cbn [map Rsum fst snd bc nth]; rewrite !clip_big by lra; field.
Qed.
Example covariance_example :
  let b1 : cblock := [([[2; 1]; [1; 2]], [1])] in let b2 : cblock := [([[4; 0]; [0; 4]], [3])] in
  exists m, avg_cov 2 false (weights_of [(b1, 1%nat); (b2, 1%nat)]) = Ok [m] /\ mget m 0 1 = 1 / 16 /\ mget m 1 1 = 38 / 16.
Proof.
  cbn zeta. eexists. split; [unfold avg_cov; rewrite expand_weights; reflexivity |]. cbn [seq map nth]. pose proof tiny_1 as T1.
  split; rewrite cov_mean_entry; try lia; try discriminate; try (exists 1%nat; split; [left; reflexivity | repeat (apply Forall_cons; [reflexivity |]); apply Forall_nil]); unfold W, mget; cbn [map Rsum fst snd bc nth flat_map repeat app]; rewrite !clip_big by lra; field.
Qed.

(** ** Frequency weights: a weighted mean, with the weights of the first delay bin *)
Definition w1sum (l : list (R * list R)) : R := Rsum (map (fun vw => hd 0 (snd vw)) l).
Lemma mean_between (l : list (R * list R)) lo hi : (forall v w, In (v, w) l -> lo <= v <= hi /\ 0 <= hd 0 w) ->
  lo * w1sum l <= Rsum (map (fun vw => fst vw * hd 0 (snd vw)) l) <= hi * w1sum l.
Proof.
  unfold w1sum. induction l as [| [v w] l IH]; intros H; cbn [map Rsum fst snd]; [lra |]. destruct (H v w (or_introl eq_refl)) as [[A B] C].
  destruct (IH (fun v w I => H v w (or_intror I))) as [D E]. nra.
Qed.
Theorem weights_averaged :
  forall l, tiny <= w1sum l ->
    wgt_mean l * w1sum l = Rsum (map (fun vw => fst vw * hd 0 (snd vw)) l) /\
    (forall lo hi, (forall v w, In (v, w) l -> lo <= v <= hi /\ 0 <= hd 0 w) -> lo <= wgt_mean l <= hi).
Proof.
  intros l T. assert (T0 : tiny > 0) by (unfold tiny; apply Rinv_0_lt_compat, IZR_lt; reflexivity). unfold wgt_mean, first_w. fold (w1sum l). rewrite clip_big by exact T. split; [field; lra |].
  intros lo hi H. destruct (mean_between l lo hi H) as [A B]. set (s := Rsum _) in *. assert (P : 0 < w1sum l) by lra. split.
  - apply (Rmult_le_reg_r (w1sum l)); [exact P |]. replace (s / w1sum l * w1sum l) with s by (field; lra). exact A.
  - apply (Rmult_le_reg_r (w1sum l)); [exact P |]. replace (s / w1sum l * w1sum l) with s by (field; lra). exact B.
Qed.
Lemma hd_colsum L rows : rows <> [] -> (0 < L)%nat -> Forall (fun r => length r = L) rows -> hd 0 (colsum rows) = Rsum (map (hd 0) rows).
Proof.
  intros Ne HL F. unfold colsum. destruct rows as [| r rows]; [congruence |]. inversion F as [| ? ? Lr F']; subst. cbn [hd]. destruct r as [| x r]; [cbn in HL; lia |]. cbn [length seq map hd Rsum nth].
  f_equal. f_equal. apply map_ext. intros [| y a]; reflexivity.
Qed.
(** Averaging in time first and then over the members is averaging all at once. *)
Theorem weights_averaged_in_two_steps :
  forall L (ls : list (list (R * list R))), (0 < L)%nat -> (forall l, In l ls -> l <> [] /\ tiny <= w1sum l /\ Forall (fun vw => length (snd vw) = L) l) -> tiny <= w1sum (concat ls) ->
    wgt_mean (concat (map wgt_time_average ls)) = wgt_mean (concat ls).
Proof.
  intros L ls HL H T. assert (T0 : tiny > 0) by (unfold tiny; apply Rinv_0_lt_compat, IZR_lt; reflexivity).
  assert (S : forall l, In l ls -> hd 0 (colsum (map snd l)) = w1sum l).
  { intros l I. destruct (H l I) as (Ne & _ & F). rewrite (hd_colsum L); [unfold w1sum; rewrite map_map; reflexivity | intros X; apply Ne; destruct l; [reflexivity | discriminate] | exact HL | apply Forall_map; exact F]. }
  assert (A : w1sum (concat (map wgt_time_average ls)) = w1sum (concat ls) /\
              Rsum (map (fun vw => fst vw * hd 0 (snd vw)) (concat (map wgt_time_average ls))) = Rsum (map (fun vw => fst vw * hd 0 (snd vw)) (concat ls))).
  { clear T. induction ls as [| l ls IH]; [split; reflexivity |]. assert (H' : forall l, In l ls -> l <> [] /\ tiny <= w1sum l /\ Forall (fun vw => length (snd vw) = L) l) by (intros; apply H; right; assumption).
    destruct (IH H' (fun l I => S l (or_intror I))) as [IH1 IH2]. destruct (H l (or_introl eq_refl)) as (Ne & Tl & F). pose proof (S l (or_introl eq_refl)) as Sl.
    unfold w1sum in *. cbn [map concat]. rewrite !map_app, !Rsum_app. rewrite IH1, IH2. unfold wgt_time_average. cbn [map Rsum fst snd]. rewrite Sl. split; [ring |]. f_equal. rewrite Rplus_0_r. exact (proj1 (weights_averaged l Tl)). }
  destruct A as [A1 A2]. unfold wgt_mean, first_w. fold (w1sum (concat (map wgt_time_average ls))). fold (w1sum (concat ls)). rewrite A1, A2. reflexivity.
Qed.

(** ** Error bars with time averaging *)
Definition finite (l : list (R * R)) : list (option R * R) := map (fun ew => (Some (fst ew), snd ew)) l.
Definition evar (l : list (R * R)) : R := Rsum (map (fun ew => (fst ew * snd ew) ^ 2) l) / Rsum (map snd l) ^ 2.
Lemma err_mean_finite l : (forall e w, In (e, w) l -> e ^ 2 <= big) -> tiny <= Rsum (map snd l) ->
  err_mean (map (fun ew => (square (fst ew), snd ew)) (finite l)) = zero_is_inf (evar l).
Proof.
  intros H T. unfold err_mean, evar, finite. rewrite !map_map. cbn [fst snd square]. replace (map (fun x : R * R => snd x) l) with (map snd l) by reflexivity. rewrite clip_big by exact T. f_equal. f_equal. f_equal. apply map_ext_in. intros [e w] I. cbn [fst snd clip40].
  rewrite Rmax_left by apply pow2_ge_0. rewrite Rmin_left by (apply (H e w I)). ring.
Qed.
Lemma zero_is_inf_some v : / IZR (10 ^ 8) < v -> zero_is_inf v = Some v.
Proof. intros H. unfold zero_is_inf. destruct (Rle_dec _ _) as [C | C]; [| reflexivity]. exfalso. assert (0 < / IZR (10 ^ 8)) by (apply Rinv_0_lt_compat, IZR_lt; reflexivity). rewrite Rabs_pos_eq in C by lra. lra. Qed.
(** If every time-averaged variance is above 1e-8, the errors of all integrations of all members add in quadrature. *)
Theorem time_averaged_errors :
  forall ls, (forall l, In l ls -> (forall e w, In (e, w) l -> e ^ 2 <= big) /\ tiny <= Rsum (map snd l) /\ / IZR (10 ^ 8) < evar l <= big) ->
    tiny <= Rsum (map snd (concat ls)) -> / IZR (10 ^ 8) < evar (concat ls) ->
    err_time_averaged (map finite ls) = Some (sqrt (evar (concat ls))).
Proof.
  intros ls H T V. assert (T0 : tiny > 0) by (unfold tiny; apply Rinv_0_lt_compat, IZR_lt; reflexivity). unfold err_time_averaged.
  assert (P : map err_of_pair (map finite ls) = map (fun l => (Some (evar l), Rsum (map snd l))) ls).
  { rewrite map_map. apply map_ext_in. intros l I. destruct (H l I) as (H1 & H2 & H3 & H4). unfold err_of_pair. rewrite err_mean_finite, zero_is_inf_some by assumption. f_equal. unfold finite. rewrite map_map. reflexivity. }
  rewrite P. unfold err_mean. rewrite !map_map. cbn [fst snd].
  assert (S : Rsum (map (fun l : list (R * R) => Rsum (map snd l)) ls) = Rsum (map snd (concat ls))) by (rewrite concat_map, Rsum_concat, map_map; reflexivity).
  assert (N : Rsum (map (fun l => clip40 (Some (evar l)) * Rsum (map snd l) ^ 2) ls) = Rsum (map (fun ew => (fst ew * snd ew) ^ 2) (concat ls))).
  { rewrite concat_map, Rsum_concat, map_map. f_equal. apply map_ext_in. intros l I. destruct (H l I) as (H1 & H2 & H3 & H4). cbn [clip40].
    assert (0 < / IZR (10 ^ 8)) by (apply Rinv_0_lt_compat, IZR_lt; reflexivity). rewrite Rmax_left by lra. rewrite Rmin_left by exact H4. unfold evar. field. lra. }
  rewrite S, N, clip_big by exact T. fold (evar (concat ls)). rewrite zero_is_inf_some by exact V. reflexivity.
Qed.
(** A baseline-pair whose time-averaged variance is at most 1e-8 comes out with the error 1e20. *)
Theorem time_averaged_small_errors :
  forall l, (forall e w, In (e, w) l -> e ^ 2 <= big) -> tiny <= Rsum (map snd l) -> evar l <= / IZR (10 ^ 8) ->
    err_time_averaged [finite l] = Some (10 ^ 20).
Proof.
  intros l H T V. assert (T0 : tiny > 0) by (unfold tiny; apply Rinv_0_lt_compat, IZR_lt; reflexivity). unfold err_time_averaged. cbn [map]. unfold err_of_pair. rewrite err_mean_finite by assumption.
  assert (Z : zero_is_inf (evar l) = None).
  { unfold zero_is_inf. destruct (Rle_dec _ _) as [_ | C]; [reflexivity |]. exfalso. apply C. rewrite Rabs_pos_eq; [exact V |]. unfold evar. apply Rmult_le_pos; [apply Rsum_nonneg, Forall_map, Forall_forall; intros; apply pow2_ge_0 |]. apply Rlt_le, Rinv_0_lt_compat, pow_lt. lra. }
  rewrite Z. unfold finite. rewrite map_map. cbn [snd]. replace (map (fun x : R * R => snd x) l) with (map snd l) by reflexivity. unfold err_mean. cbn [map Rsum fst snd clip40]. rewrite !Rplus_0_r, clip_big by exact T.
  replace (big * Rsum (map snd l) ^ 2 / Rsum (map snd l) ^ 2) with big by (field; lra). assert (B : big = 10 ^ 20 * 10 ^ 20) by (unfold big; rewrite <- pow_add; rewrite pow_IZR; reflexivity).
  rewrite zero_is_inf_some. 2:{ rewrite B. apply Rlt_trans with 1; [rewrite <- Rinv_1; apply Rinv_lt_contravar; [rewrite Rmult_1_l; apply IZR_lt; reflexivity | apply IZR_lt; reflexivity] |]. assert (1 < 10 ^ 20) by (apply Rlt_pow_R1; [lra | lia]). nra. }
  cbn [option_map]. rewrite B, sqrt_square; [reflexivity | apply pow_le; lra].
Qed.
(** so small errors are not propagated: an error of 1e-5 becomes 1e20 *)
Theorem time_averaged_errors_refuted :
  exists l, l = [(/ 10 ^ 5, 1); (/ 10 ^ 5, 1)] /\ err_time_averaged [finite l] = Some (10 ^ 20) /\ sqrt (evar l) < / 10 ^ 5.
Proof.
  exists [(/ 10 ^ 5, 1); (/ 10 ^ 5, 1)]. split; [reflexivity |]. pose proof tiny_1 as T1. assert (P5 : 0 < / 10 ^ 5) by (apply Rinv_0_lt_compat, pow_lt; lra).
  assert (EV : evar [(/ 10 ^ 5, 1); (/ 10 ^ 5, 1)] = (/ 10 ^ 5) ^ 2 / 2) by (unfold evar; cbn [map Rsum fst snd]; field).
  assert (Q1 : / 10 ^ 5 <= 1) by (rewrite <- Rinv_1; apply Rinv_le_contravar; [lra |]; apply pow_R1_Rle; lra).
  split.
  - apply time_averaged_small_errors.
    + intros e w [I | [I | []]]; injection I as <- <-; apply Rle_trans with 1; [nra | unfold big; apply IZR_le; lia | nra | unfold big; apply IZR_le; lia].
    + cbn [map Rsum snd]. lra.
    + rewrite EV. assert (X : (/ 10 ^ 5) ^ 2 = / 10 ^ 10) by (field). rewrite X. apply Rle_trans with (/ 10 ^ 10); [assert (0 < / 10 ^ 10) by (apply Rinv_0_lt_compat, pow_lt; lra); lra |]. apply Rinv_le_contravar; [apply IZR_lt; reflexivity |]. rewrite pow_IZR. apply IZR_le. reflexivity || (cbn; lia).
  - rewrite EV. rewrite <- (sqrt_pow2 (/ 10 ^ 5)) at 2 by lra. apply sqrt_lt_1; [nra | apply pow2_ge_0 | nra].
Qed.

(** ** Baselines of the averaged object *)
Theorem averaged_baselines :
  forall firsts, StronglySorted Z.lt (avg_bls firsts) /\
    (forall b, In b (avg_bls firsts) <-> exists p, In p firsts /\ (b = (p / 1000000)%Z \/ b = (p mod 1000000)%Z)).
Proof.
  intros firsts. split; [apply uniqueZ_sorted |]. intros b. unfold avg_bls. rewrite uniqueZ_In, in_flat_map. split; intros (p & I & H); exists p; (split; [exact I |]); cbn [split_bls fst snd In] in *; intuition.
Qed.
Lemma index_of_nth_error {A} dec (x : A) l i : index_of dec x l = Some i -> nth_error l i = Some x.
Proof. revert i. induction l as [| y l IH]; intros i H; cbn [index_of] in H; [discriminate |]. destruct (dec x y) as [-> | _]; [injection H as <-; reflexivity |]. destruct (index_of dec x l) as [j |]; [| discriminate]. injection H as <-. cbn [nth_error]. apply IH; reflexivity. Qed.
Theorem averaged_baseline_vectors :
  forall V (bls : list Z) (vecs : list V) new out, avg_bl_vecs bls vecs new = Ok out -> NoDup bls ->
    length out = length new /\
    forall k b i, nth_error new k = Some b -> nth_error bls i = Some b -> exists v, nth_error vecs i = Some v /\ nth_error out k = Some v.
Proof.
  intros V bls vecs new. induction new as [| b0 new IH]; intros out H ND; cbn [avg_bl_vecs map_res] in H.
  - injection H as <-. split; [reflexivity |]. intros [| k] b i E; discriminate.
  - apply bind_ok in H as (v & Hv & H). apply bind_ok in H as (out' & Ho & H). injection H as <-. destruct (IH out' Ho ND) as [IHl IHk]. split; [cbn; lia |].
    intros [| k] b i E Ei; cbn [nth_error] in *; [| exact (IHk k b i E Ei)]. injection E as ->.
    destruct (index_of Z.eq_dec b bls) as [i' |] eqn:X; [| discriminate]. destruct (nth_error vecs i') as [v' |] eqn:Y; [| discriminate]. injection Hv as ->.
    pose proof (index_of_nth_error _ _ _ _ X) as X'. assert (i' = i). { apply (proj1 (NoDup_nth_error bls) ND); [apply nth_error_Some; rewrite X'; discriminate | congruence]. } subst i'. exists v. split; [exact Y | reflexivity].
Qed.

(** ** The number of time pairs *)
Lemma rint_close x : Rabs (IZR (rint x) - x) <= / 2.
Proof.
  unfold rint. destruct (base_Int_part (x + / 2)) as [A B]. set (f := Int_part (x + / 2)) in *. destruct (Req_EM_T (IZR f) (x + / 2)) as [E | E].
  - destruct (Z.even f); [| rewrite minus_IZR]; apply Rabs_le; lra.
  - apply Rabs_le; lra.
Qed.
Lemma rint_far x y : 1 < Rabs (x - y) -> rint x <> rint y.
Proof.
  intros H E. pose proof (rint_close x) as A. pose proof (rint_close y) as B. rewrite E in A. assert (Rabs (x - y) <= Rabs (IZR (rint y) - y) + Rabs (IZR (rint y) - x)).
  { replace (x - y) with ((IZR (rint y) - y) + - (IZR (rint y) - x)) by ring. eapply Rle_trans; [apply Rabs_triang |]. rewrite Rabs_Ropp. lra. }
  lra.
Qed.
Definition far (tol : R) (p q : R * R) : Prop := tol < Rabs (fst p - fst q) \/ tol < Rabs (snd p - snd q).
(** Pairs of times further apart than the tolerance are counted separately; equal ones are counted once. *)
Theorem time_pairs_counted :
  forall tol t1 t2, 0 < tol ->
    (ForallOrdPairs (far tol) (combine t1 t2) -> Ntpairs tol t1 t2 = length (combine t1 t2)) /\
    (forall ps, NoDup ps -> (forall p, In p (combine t1 t2) -> In p ps) -> (Ntpairs tol t1 t2 <= length ps)%nat).
Proof.
  intros tol t1 t2 Ht. unfold Ntpairs. set (cl := fun ab : R * R => (rint (fst ab / tol), rint (snd ab / tol))). set (l := combine t1 t2). clearbody l. split.
  - intros F. rewrite nodup_fixed_point; [apply map_length |]. induction F as [| p l Hp F IH]; cbn [map]; constructor; [| exact IH].
    intros I. apply in_map_iff in I as (q & E & I). rewrite Forall_forall in Hp. unfold cl in E. injection E as E1 E2.
    assert (S : forall a b, tol < Rabs (a - b) -> 1 < Rabs (a / tol - b / tol)).
    { intros a b H. replace (a / tol - b / tol) with ((a - b) / tol) by (field; lra). unfold Rdiv. rewrite Rabs_mult, (Rabs_pos_eq (/ tol)) by (apply Rlt_le, Rinv_0_lt_compat; exact Ht).
      apply (Rmult_lt_reg_r tol); [exact Ht |]. rewrite Rmult_assoc, Rinv_l, Rmult_1_r, Rmult_1_l by lra. exact H. }
    destruct (Hp q I) as [D | D]; [apply (rint_far _ _ (S _ _ D)) | apply (rint_far _ _ (S _ _ D))]; congruence.
  - intros ps ND Inc. rewrite <- (map_length cl ps). apply NoDup_incl_length; [apply NoDup_nodup |]. intros x I. apply nodup_In in I. apply in_map_iff in I as (p & <- & I). apply in_map. apply Inc, I.
Qed.
(** Times closer than the tolerance may be counted twice. *)
Theorem time_pairs_tolerance_refuted :
  exists t, length t = 2%nat /\ (forall a b, In a t -> In b t -> Rabs (a - b) < / 10 ^ 6 / 4) /\ Ntpairs (/ 10 ^ 6) t t = 2%nat.
Proof.
  set (tol := / 10 ^ 6). assert (P : 0 < tol) by (unfold tol; apply Rinv_0_lt_compat, pow_lt; lra). clearbody tol. exists [4 / 10 * tol; 6 / 10 * tol]. split; [reflexivity |]. split.
  - intros a b [<- | [<- | []]] [<- | [<- | []]]; apply Rabs_def1; lra.
  - unfold Ntpairs. cbn [combine map fst snd].
    assert (E1 : rint (4 / 10 * tol / tol) = 0%Z).
    { replace (4 / 10 * tol / tol) with (4 / 10) by (field; lra). pose proof (rint_close (4 / 10)) as C. assert (H : -1 < IZR (rint (4/10)) < 1) by (unfold Rabs in C; destruct (Rcase_abs _) in C; lra). destruct H as [A B]. apply lt_IZR in A. apply lt_IZR in B. lia. }
    assert (E2 : rint (6 / 10 * tol / tol) = 1%Z).
    { replace (6 / 10 * tol / tol) with (6 / 10) by (field; lra). pose proof (rint_close (6 / 10)) as C. assert (H : 0 < IZR (rint (6/10)) < 2) by (unfold Rabs in C; destruct (Rcase_abs _) in C; lra). destruct H as [A B]. apply lt_IZR in A. apply lt_IZR in B. lia. }
    rewrite E1, E2. reflexivity.
Qed.
