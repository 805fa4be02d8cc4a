(** C199-C207: queries of UVPSpec objects. *)
From Coq Require Import QArith Qabs Sorted.
From Coq Require Import Reals Lra.
From Verif Require Import Prelude UvpModel ListLemmas UvpProofs KeyProofs CommonProofs CombineSound CovqModel CovqProps StatModel GeomModel GeomProps GetModel.
Open Scope R_scope.

(** ** ranges of spectral windows *)
(** equally spaced channels *)
Definition uniform (f0 df : R) (n : nat) : list R := map (fun k => f0 + INR k * df) (seq 0 n).
Lemma uniform_S f0 df n : uniform f0 df (S n) = f0 :: uniform (f0 + df) df n.
Proof.
  unfold uniform. cbn [seq map]. f_equal; [cbn; ring |]. rewrite <- seq_shift, map_map. apply map_ext. intros k. rewrite S_INR. ring.
Qed.
Lemma diffs_uniform f0 df n x : In x (diffsR (uniform f0 df n)) -> x = df.
Proof.
  revert f0. induction n as [| n IH]; intros f0; [intros [] |]. rewrite uniform_S. destruct n as [| n]; [intros [] |]. specialize (IH (f0 + df)). rewrite uniform_S in *.
  change (diffsR (f0 :: (f0 + df) :: uniform (f0 + df + df) df n)) with ((f0 + df - f0) :: diffsR ((f0 + df) :: uniform (f0 + df + df) df n)). intros [<- | I]; [ring | exact (IH I)].
Qed.
Lemma diffs_ne f0 df n : (2 <= n)%nat -> diffsR (uniform f0 df n) <> [].
Proof. intros H. destruct n as [| [| n]]; try lia. rewrite !uniform_S. discriminate. Qed.
Lemma median_const l c : l <> [] -> (forall x, In x l -> x = c) -> medianR l = c.
Proof. intros N H. assert (c <= medianR l <= c) by (apply median_range; [exact N | intros x I; rewrite (H x I); lra]). lra. Qed.
Lemma uniform_min f0 df n : (1 <= n)%nat -> 0 < df -> minR (uniform f0 df n) = f0.
Proof.
  intros N D. destruct n as [| n]; [lia |]. unfold minR. assert (I0 : In f0 (uniform f0 df (S n))) by (rewrite uniform_S; left; reflexivity). assert (H0 : hd 0 (uniform f0 df (S n)) = f0) by (rewrite uniform_S; reflexivity). rewrite H0.
  assert (G : forall x, In x (uniform f0 df (S n)) -> f0 <= x). { intros x I. unfold uniform in I. apply in_map_iff in I as (k & <- & _). pose proof (pos_INR k). nra. }
  pose proof (fold_min_le f0 _ _ I0). destruct (fold_min_in f0 (uniform f0 df (S n))) as [E | I]; [exact E |]. pose proof (G _ I). lra.
Qed.
Lemma uniform_length f0 df n : length (uniform f0 df n) = n.
Proof. unfold uniform. rewrite map_length, seq_length. reflexivity. Qed.
(** For equally spaced ascending channels (at least two) the range is first frequency, end, number of channels and delays; the recipe of the documentation gives
    the frequencies back *)
Theorem spw_range_uniform :
  forall f0 df n nd, (2 <= n)%nat -> 0 < df ->
    spw_range_of (uniform f0 df n) nd = (f0, Some (f0 + INR n * df), n, nd) /\ range_freqs (spw_range_of (uniform f0 df n) nd) = Some (uniform f0 df n).
Proof.
  intros f0 df n nd N D. assert (E : spw_range_of (uniform f0 df n) nd = (f0, Some (f0 + INR n * df), n, nd)).
  { unfold spw_range_of. rewrite uniform_min, uniform_length by (try lia; lra). pose proof (diffs_ne f0 df n N) as NE. pose proof (median_const _ df NE (diffs_uniform f0 df n)) as M. destruct (diffsR (uniform f0 df n)); [congruence |]. rewrite M. reflexivity. }
  split; [exact E |]. rewrite E. cbn. f_equal. unfold linspace, uniform. apply map_ext. intros k. assert (INR n <> 0) by (apply not_0_INR; lia). field. assumption.
Qed.
(** the middle of the range is half a channel above the mean frequency *)
Lemma sum_uniform f0 df n : fold_right Rplus 0 (uniform f0 df n) = INR n * f0 + df * (INR n * (INR n - 1) / 2).
Proof. revert f0. induction n as [| n IH]; intros f0; [cbn; lra |]. rewrite uniform_S. cbn [fold_right]. rewrite IH, S_INR. field. Qed.
Theorem spw_centre :
  forall f0 df n nd, (2 <= n)%nat -> 0 < df -> range_centre (spw_range_of (uniform f0 df n) nd) = Some (mean (uniform f0 df n) + df / 2).
Proof.
  intros f0 df n nd N D. destruct (spw_range_uniform f0 df n nd N D) as [-> _]. cbn. f_equal. unfold mean. rewrite sum_uniform, uniform_length. assert (INR n <> 0) by (apply not_0_INR; lia). field. assumption.
Qed.
Theorem spw_centre_refuted : ~ (forall f0 df n nd, (2 <= n)%nat -> 0 < df -> range_centre (spw_range_of (uniform f0 df n) nd) = Some (mean (uniform f0 df n))).
Proof. intros H. specialize (H 100 1 2%nat 2%nat ltac:(lia) ltac:(lra)). rewrite spw_centre in H by (lia || lra). injection H as H. lra. Qed.
(** channels with a gap are not recovered, and a single channel has no range *)
Theorem spw_range_freqs_refuted :
  ~ (forall fs nd, rising fs -> fs <> [] -> range_freqs (spw_range_of fs nd) = Some fs) /\
  (forall f nd, range_freqs (spw_range_of [f] nd) = None /\ forall ws, find_range (spw_range_of [f] nd) ws = Err ValueError).
Proof.
  split.
  - intros H. specialize (H [100; 101; 110] 3%nat). assert (Rs : rising [100; 101; 110]).
    { intros a b x y Ha Hb L. destruct a as [| [| [| a]]], b as [| [| [| b]]]; cbn in Ha, Hb; try lia; try (injection Ha as <-; injection Hb as <-; lra); try (destruct a; discriminate); destruct b; discriminate. }
    specialize (H Rs ltac:(discriminate)). unfold spw_range_of, range_freqs in H. cbn [diffsR] in H. injection H as H1 H2 H3. cbn in H1, H2, H3. lra.
  - intros f nd. split; [reflexivity |]. induction ws as [| [[[a [b |]] n] d] ws IH]; cbn in *; [reflexivity | |]; rewrite IH; reflexivity.
Qed.
(** Look-up of a window by its tuple finds that window, if no other has the same tuple and it has more than one channel *)
Lemma range_eqb_refl a b n d : range_eqb (a, Some b, n, d) (a, Some b, n, d) = true.
Proof. cbn. destruct (Req_EM_T a a); [| congruence]. destruct (Req_EM_T b b); [| congruence]. rewrite !Nat.eqb_refl. reflexivity. Qed.
Lemma range_eqb_eq r s : range_eqb r s = true -> r = s.
Proof.
  destruct r as [[[a [b |]] n] d], s as [[[a' [b' |]] n'] d']; cbn; try discriminate. destruct (Req_EM_T a a'); [| discriminate]. destruct (Req_EM_T b b'); [| discriminate]. cbn. intros H. apply andb_true_iff in H as [H1 H2]. apply Nat.eqb_eq in H1, H2. congruence.
Qed.
Theorem spw_lookup :
  forall ws i w, nth_error ws i = Some w -> (2 <= length (fst w))%nat -> (forall j w', nth_error ws j = Some w' -> j <> i -> spw_range_of (fst w') (snd w') <> spw_range_of (fst w) (snd w)) ->
    find_range (spw_range_of (fst w) (snd w)) (get_ranges ws) = Ok i.
Proof.
  intros ws i [fs nd] H L U. cbn [fst snd] in *. assert (E : exists b, spw_range_of fs nd = (minR fs, Some b, length fs, nd)). { unfold spw_range_of. destruct fs as [| a [| c fs]]; cbn in L; try lia. eexists. reflexivity. }
  destruct E as [b E]. rewrite E in *. revert i H U. induction ws as [| w ws IH]; intros i H U; [destruct i; discriminate |]. cbn [get_ranges map find_range]. destruct i as [| i].
  - injection H as ->. cbn [fst snd]. rewrite E, range_eqb_refl. reflexivity.
  - destruct (range_eqb (spw_range_of (fst w) (snd w)) (minR fs, Some b, length fs, nd)) eqn:Q; [exfalso; apply range_eqb_eq in Q; exact (U 0%nat w eq_refl ltac:(lia) Q) |].
    fold (get_ranges ws). rewrite (IH i H); [reflexivity |]. intros j w' Hj N. apply (U (S j) w' Hj). lia.
Qed.
Example ranges_nonvacuous : (2 <= 4)%nat /\ 0 < 1/10 /\ spw_range_of (uniform 100 (1/10) 4) 4 <> spw_range_of (uniform 120 (1/10) 4) 4.
Proof.
  split; [lia |]. split; [lra |]. destruct (spw_range_uniform 100 (1/10) 4 4) as [-> _]; [lia | lra |]. destruct (spw_range_uniform 120 (1/10) 4 4) as [-> _]; [lia | lra |]. intros H. injection H as H _. lra.
Qed.

(** ** time_to_indices *)
Definition near (t time : Q) : Prop := (Qabs (t - time) <= (1 # 100000000) + (1 # 10000000000) * Qabs time)%Q.
Lemma close_near t time : isclose rtol10 t time = true <-> near t time.
Proof. unfold isclose, near, rtol10. apply Qle_bool_iff. Qed.
(** The rows whose time is within 1e-8 + 1e-10 |time| of the given time and whose baseline-pair is one of the given ones, ascending; a baseline-pair that the object does not
    have is an error *)
Theorem time_indices_spec :
  forall ba times time blps, length times = length ba ->
    match time_to_indices ba times time blps with
    | Ok idx => StronglySorted lt idx /\ forall i, In i idx <-> exists t b, nth_error times i = Some t /\ nth_error ba i = Some b /\ near t time /\ match blps with None => True | Some l => In b l end
    | Err e => e = AssertionError /\ exists l b, blps = Some l /\ In b l /\ ~ In b ba
    end.
Proof.
  intros ba times time blps L. unfold time_to_indices. destruct blps as [l |].
  - unfold require. destruct (forallb (fun b => memZ b ba) l) eqn:F.
    + split; [apply where_sorted |]. intros i. rewrite where_spec. unfold or_maskZ. clear F. revert times L i. induction ba as [| b ba IH]; intros [| t times] L i; cbn in L; try discriminate.
      * split; [destruct i; discriminate | intros (? & ? & H & _); destruct i; discriminate].
      * destruct i as [| i]; [| apply (IH times ltac:(lia) i)]. cbn. split.
        -- intros H. injection H as H. apply andb_true_iff in H as [H1 H2]. exists t, b. apply close_near in H1. apply memZ_In in H2. auto.
        -- intros (t' & b' & H1 & H2 & N & M). injection H1 as ->. injection H2 as ->. apply close_near in N. apply memZ_In in M. rewrite N, M. reflexivity.
    + split; [reflexivity |]. assert (X : exists b, In b l /\ memZ b ba = false). { clear -F. induction l as [| b l IH]; cbn in F; [discriminate |]. destruct (memZ b ba) eqn:M; [destruct (IH F) as (c & I & C); exists c; split; [right; exact I | exact C] | exists b; split; [left; reflexivity | exact M]]. }
      destruct X as (b & I & M). exists l, b. split; [reflexivity |]. split; [exact I |]. intros C. apply memZ_In in C. congruence.
  - split; [apply where_sorted |]. intros i. rewrite where_spec, nth_error_map. split.
    + destruct (nth_error times i) as [t |] eqn:T; [| discriminate]. cbn. intros H. injection H as H. apply close_near in H. destruct (nth_error ba i) as [b |] eqn:B; [eauto 10 |]. exfalso. apply nth_error_None in B. assert (i < length times)%nat by (apply nth_error_Some; congruence). lia.
    + intros (t & b & T & _ & N & _). rewrite T. cbn. apply close_near in N. rewrite N. reflexivity.
Qed.
(** at the Julian dates of the instrument this is more than 20 seconds: neighbouring integrations are not told apart *)
Theorem time_indices_refuted :
  ~ (forall ba times time idx, length times = length ba -> In time times -> time_to_indices ba times time None = Ok idx -> forall i t, In i idx -> nth_error times i = Some t -> (t == time)%Q) /\
  (forall time t, (2400000 <= time)%Q -> (Qabs (t - time) <= 20 # 86400)%Q -> near t time).
Proof.
  split.
  - intros H. specialize (H [1; 1; 1]%Z [2458042 # 1; 2458042 + (10 # 86400); 2458042 + (20 # 86400)]%Q (2458042 # 1)%Q [0; 1; 2]%nat eq_refl ltac:(left; reflexivity) eq_refl 1%nat _ ltac:(right; left; reflexivity) eq_refl). vm_compute in H. discriminate.
  - intros time t T D. unfold near. eapply Qle_trans; [exact D |]. rewrite (Qabs_pos time) by (eapply Qle_trans; [| exact T]; discriminate).
    eapply Qle_trans with ((1 # 100000000) + (1 # 10000000000) * 2400000)%Q; [vm_compute; discriminate |]. apply Qplus_le_r. apply Qmult_le_l; [reflexivity | exact T].
Qed.
Example times_nonvacuous : time_to_indices [1; 1; 2; 2]%Z [2458042 # 1; 2458043 # 1; 2458042 # 1; 2458043 # 1]%Q (2458043 # 1)%Q (Some [2]%Z) = Ok [3%nat].
Proof. vm_compute. reflexivity. Qed.

(** ** baseline-pairs of baseline groups *)
Lemma insertZ_sorted x l : StronglySorted Z.lt l -> StronglySorted Z.lt (insertZ x l).
Proof.
  induction 1 as [| y l S IH F]; cbn; [repeat constructor |]. destruct (Z.ltb_spec x y).
  - constructor; [constructor; assumption |]. constructor; [assumption |]. eapply Forall_impl; [| exact F]. intros; lia.
  - destruct (Z.eqb_spec x y); [constructor; assumption |]. constructor; [exact IH |]. apply Forall_forall. intros z I. apply insertZ_In in I as [-> | I]; [lia |]. rewrite Forall_forall in F. auto.
Qed.
Lemma uniqueZ_sorted l : StronglySorted Z.lt (uniqueZ l).
Proof. induction l as [| x l IH]; cbn; [constructor |]. apply insertZ_sorted, IH. Qed.
(** the baselines of a pair as in C01 *)
Definition has_bl (only : bool) (g : list Z) (b : Z) : Prop := let x := (b / 1000000)%Z in let y := (b mod 1000000)%Z in if only then In x g /\ In y g else In x g \/ In y g.
Lemma in_group_iff only g b : in_group only g b = true <-> has_bl only g b.
Proof. unfold in_group, has_bl, split_bls. destruct only; rewrite ?andb_true_iff, ?orb_true_iff, !memZ_In; tauto. Qed.
(** Groups without baseline-pairs are left out; of each other group one gets, in order and ascending, once each, the baseline-pairs with a (or with both) baseline(s) in it *)
Theorem blpair_groups_spec :
  forall ba only groups out, blpair_groups ba only groups = Ok out ->
    (forall g, In g groups -> g <> []) /\
    (exists kept, kept = filter (fun g => existsb (in_group only g) ba) groups /\
       Forall2 (fun g o => StronglySorted Z.lt o /\ (forall b, In b o <-> In b ba /\ has_bl only g b) /\ o <> []) kept out) /\
    (forall g, In g groups -> (existsb (in_group only g) ba = true <-> exists b, In b ba /\ has_bl only g b)).
Proof.
  intros ba only groups out H. unfold blpair_groups in H. apply require_Ok in H as [F H]. injection H as <-. split; [| split].
  - intros g I ->. rewrite forallb_forall in F. specialize (F _ I). discriminate.
  - exists (filter (fun g => existsb (in_group only g) ba) groups). split; [reflexivity |]. clear F. induction groups as [| g gs IH]; cbn [map filter]; [constructor |].
    assert (S : forall b, In b (uniqueZ (filter (in_group only g) ba)) <-> In b ba /\ has_bl only g b) by (intros b; rewrite uniqueZ_In, filter_In, in_group_iff; tauto).
    destruct (existsb (in_group only g) ba) eqn:E.
    + apply existsb_exists in E as (b & Ib & Gb). assert (I : In b (uniqueZ (filter (in_group only g) ba))) by (apply S; split; [exact Ib | apply in_group_iff, Gb]). destruct (uniqueZ (filter (in_group only g) ba)) as [| c l] eqn:U; [destruct I |]. cbn [nonempty]. constructor; [| exact IH]. rewrite <- U in *. split; [apply uniqueZ_sorted |]. split; [exact S | rewrite U; discriminate].
    + destruct (uniqueZ (filter (in_group only g) ba)) as [| c l] eqn:U; cbn [nonempty]; [exact IH |]. exfalso. assert (I : In c (c :: l)) by (left; reflexivity). rewrite <- U in I. apply uniqueZ_In, filter_In in I as [I1 I2]. assert (X : existsb (in_group only g) ba = true) by (apply existsb_exists; eauto). congruence.
  - intros g _. rewrite existsb_exists. split; intros (b & I & G); exists b; (split; [exact I | apply in_group_iff, G]).
Qed.
(** the i-th result need not belong to the i-th group, and a pair can be in several *)
Theorem blpair_groups_refuted :
  ~ (forall ba only groups out, blpair_groups ba only groups = Ok out -> length out = length groups) /\
  ~ (forall ba groups out i j o o' b, blpair_groups ba false groups = Ok out -> (forall x, ~ (exists g g' m n, nth_error groups m = Some g /\ nth_error groups n = Some g' /\ m <> n /\ In x g /\ In x g')) ->
       nth_error out i = Some o -> nth_error out j = Some o' -> i <> j -> In b o -> ~ In b o').
Proof.
  split.
  - intros H. specialize (H [101102101102]%Z false [[103104]; [101102]]%Z [[101102101102]]%Z eq_refl). discriminate.
  - intros H. refine (H [101102102103]%Z [[101102]; [102103]]%Z [[101102102103]; [101102102103]]%Z 0%nat 1%nat [101102102103]%Z [101102102103]%Z 101102102103%Z eq_refl _ eq_refl eq_refl ltac:(discriminate) (or_introl eq_refl) (or_introl eq_refl)).
    intros x (g & g' & m & n & Hm & Hn & D & I & I'). destruct m as [| [| m]], n as [| [| n]]; cbn in Hm, Hn; try congruence; try (destruct m; discriminate); try (destruct n; discriminate); injection Hm as <-; injection Hn as <-; destruct I as [<- | []], I' as [E | []]; discriminate.
Qed.
Example groups_nonvacuous : blpair_groups [101102102103; 101102101102; 101102102103; 105106105106]%Z true [[101102; 102103]; [110111]; [105106]]%Z = Ok [[101102101102; 101102102103]; [105106105106]]%Z.
Proof. vm_compute. reflexivity. Qed.

(** ** separations of baseline-pairs *)
Section Seps.
Variable enu : vec -> vec.
Lemma set_rows_length b x ba out : length (set_rows b x ba out) = length out.
Proof. revert out. induction ba as [| c ba IH]; intros [| o out]; cbn; auto. Qed.
Lemma set_rows_spec b x ba out i c o : nth_error ba i = Some c -> nth_error out i = Some o -> nth_error (set_rows b x ba out) i = Some (if Z.eqb c b then Some x else o).
Proof. revert out i. induction ba as [| d ba IH]; intros [| o' out] [| i] H1 H2; cbn in *; try discriminate; [injection H1 as ->; injection H2 as ->; reflexivity | eauto]. Qed.
Lemma seps_loop_spec bls vecs ba l : forall out out', NoDup l -> length out = length ba -> seps_loop enu bls vecs ba l out = Ok out' ->
  length out' = length ba /\ (forall b, In b l -> exists s1 s2, bl_sep enu bls vecs (b / 1000000) = Ok s1 /\ bl_sep enu bls vecs (b mod 1000000) = Ok s2 /\ (forall i, nth_error ba i = Some b -> nth_error out' i = Some (Some (mean [s1; s2])))) /\
  (forall i b, nth_error ba i = Some b -> ~ In b l -> nth_error out' i = nth_error out i).
Proof.
  induction l as [| b l IH]; intros out out' N L H; cbn [seps_loop] in H; [injection H as <-; split; [exact L |]; split; [intros ? [] | auto] |].
  cbn [split_bls] in H. unfold split_bls in H. destruct (bl_sep enu bls vecs (b / 1000000)) as [s1 |] eqn:E1; [| discriminate]. cbn [bind] in H. destruct (bl_sep enu bls vecs (b mod 1000000)) as [s2 |] eqn:E2; [| discriminate]. cbn [bind] in H.
  inversion N as [| ? ? N1 N2]; subst. destruct (IH _ _ N2 ltac:(rewrite set_rows_length; exact L) H) as (L' & A & B). split; [exact L' |]. split.
  - intros c [<- | I]; [| auto]. exists s1, s2. split; [exact E1 |]. split; [exact E2 |]. intros i Hi. rewrite (B i b Hi N1). destruct (nth_error out i) as [o |] eqn:O; [| apply nth_error_None in O; assert (i < length ba)%nat by (apply nth_error_Some; congruence); lia]. rewrite (set_rows_spec _ _ _ _ _ _ _ Hi O), Z.eqb_refl. reflexivity.
  - intros i c Hi Nc. rewrite (B i c Hi) by (intros X; apply Nc; right; exact X). destruct (nth_error out i) as [o |] eqn:O; [| apply nth_error_None; rewrite set_rows_length; apply nth_error_None; exact O]. rewrite (set_rows_spec _ _ _ _ _ _ _ Hi O).
    destruct (Z.eqb_spec c b) as [-> |]; [exfalso; apply Nc; left; reflexivity | reflexivity].
Qed.
Lemma bl_vector_inv bls vecs bl v : bl_vector enu bls vecs bl = Ok v -> exists i w, nth_error bls i = Some bl /\ nth_error vecs i = Some w /\ v = enu w.
Proof. unfold bl_vector. destruct (index_of Z.eq_dec bl bls) as [i |] eqn:I; [| discriminate]. destruct (nth_error vecs i) as [w |] eqn:V; [| discriminate]. intros H. injection H as <-. apply index_of_nth in I. eauto. Qed.
(** Every row has the mean of the lengths of its two baselines *)
Theorem blpair_seps_spec :
  forall bls vecs ba out, NoDup bls -> (forall v, norm (enu v) = norm v) -> blpair_seps enu bls vecs ba = Ok out ->
    length out = length ba /\ forall r b, nth_error ba r = Some b ->
      exists i j v w, nth_error bls i = Some (b / 1000000)%Z /\ nth_error bls j = Some (b mod 1000000)%Z /\ nth_error vecs i = Some v /\ nth_error vecs j = Some w /\
        nth_error out r = Some (Some ((norm v + norm w) / 2)).
Proof.
  intros bls vecs ba out _ E H. unfold blpair_seps in H. destruct (ordered_unique_spec [] ba) as [U N]. destruct (seps_loop_spec bls vecs ba _ _ _ N ltac:(rewrite map_length; reflexivity) H) as (L & A & _). split; [exact L |].
  intros r b Hr. destruct (A b) as (s1 & s2 & S1 & S2 & V); [apply U; split; [eapply nth_error_In; exact Hr | intros []] |]. unfold bl_sep in S1, S2. destruct (bl_vector enu bls vecs (b / 1000000)) as [v |] eqn:V1; [| discriminate]. destruct (bl_vector enu bls vecs (b mod 1000000)) as [w |] eqn:V2; [| discriminate]. cbn in S1, S2. injection S1 as <-. injection S2 as <-.
  apply bl_vector_inv in V1 as (i & v0 & I1 & I2 & ->). apply bl_vector_inv in V2 as (j & w0 & J1 & J2 & ->). exists i, j, v0, w0. repeat (split; [assumption |]). rewrite (V r Hr), !E. unfold mean. cbn. do 2 f_equal. field.
Qed.
(** a baseline that is not in the list of baselines is an error *)
Theorem blpair_seps_missing :
  forall bls vecs ba b, In b ba -> (~ In (b / 1000000)%Z bls \/ ~ In (b mod 1000000)%Z bls) -> exists e, blpair_seps enu bls vecs ba = Err e.
Proof.
  intros bls vecs ba b I M. destruct (blpair_seps enu bls vecs ba) as [out |] eqn:H; [| eauto]. exfalso. unfold blpair_seps in H. destruct (ordered_unique_spec [] ba) as [U N]. destruct (seps_loop_spec bls vecs ba _ _ _ N ltac:(rewrite map_length; reflexivity) H) as (_ & A & _).
  destruct (A b) as (s1 & s2 & S1 & S2 & _); [apply U; split; [exact I | intros []] |]. unfold bl_sep in S1, S2. destruct (bl_vector enu bls vecs (b / 1000000)) as [v |] eqn:V1; [| discriminate]. destruct (bl_vector enu bls vecs (b mod 1000000)) as [w |] eqn:V2; [| discriminate].
  apply bl_vector_inv in V1 as (i & ? & I1 & _). apply bl_vector_inv in V2 as (j & ? & J1 & _). apply nth_error_In in I1, J1. tauto.
Qed.
(** the vectors, in the order of the baseline-pairs *)
Theorem blpair_blvecs_spec :
  forall second bls vecs ba out, NoDup bls -> blpair_blvecs enu second bls vecs ba = Ok out ->
    NoDup (ordered_unique [] ba) /\ (forall b, In b (ordered_unique [] ba) <-> In b ba) /\
    Forall2 (fun b o => exists i v, nth_error bls i = Some (if second then b mod 1000000 else b / 1000000)%Z /\ nth_error vecs i = Some v /\ o = enu v) (ordered_unique [] ba) out.
Proof.
  intros second bls vecs ba out _ H. destruct (ordered_unique_spec [] ba) as [U N]. split; [exact N |]. split; [intros b; rewrite U; cbn; tauto |]. unfold blpair_blvecs in H. clear U N. revert out H. induction (ordered_unique [] ba) as [| b l IH]; intros out H; cbn [mapM] in H; [injection H as <-; constructor |].
  unfold split_bls in H at 1. destruct (bl_vector enu bls vecs (if second then b mod 1000000 else b / 1000000)%Z) as [v |] eqn:V; [| discriminate]. cbn [bind] in H. destruct (mapM _ l) as [vs |]; [| discriminate]. cbn [bind] in H. injection H as <-. constructor; [| apply IH; reflexivity]. apply bl_vector_inv in V as (i & w & A & B & ->). eauto.
Qed.
End Seps.
Example seps_nonvacuous : blpair_seps (fun v => v) [101102; 102103]%Z [px 14; px 28] [101102102103; 101102101102; 101102102103]%Z = Ok [Some (mean [norm (px 14); norm (px 28)]); Some (mean [norm (px 14); norm (px 14)]); Some (mean [norm (px 14); norm (px 28)])].
Proof. reflexivity. Qed.
Print Assumptions spw_range_uniform. Print Assumptions spw_centre. Print Assumptions spw_range_freqs_refuted. Print Assumptions spw_lookup. Print Assumptions time_indices_spec. Print Assumptions time_indices_refuted.
Print Assumptions blpair_groups_spec. Print Assumptions blpair_groups_refuted. Print Assumptions blpair_seps_spec. Print Assumptions blpair_seps_missing. Print Assumptions blpair_blvecs_spec.
