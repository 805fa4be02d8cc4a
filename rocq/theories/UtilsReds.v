(** Redundant groups, retried jobs, time differences, pairs within groups. *)
From Coq Require Import Permutation Sorted.
From Verif Require Import Prelude ListLemmas UvpModel UvpProofs CombineModel CombineProofs CombineSound CombineMerge UtilsModel UtilsProofs.

(** * get_blvec_reds *)
Section Reds.
Context {K V T : Type}.
Variable close : V -> V -> bool.
Variable info : V -> T.
Notation put_group := (@put_group K V close).
Notation greedy_reds := (@greedy_reds K V close).

(** group [(r, ks)] built from the baselines [l]: [r] is the vector of the first member, the
    other members are within tolerance of it *)
Definition group_ok (l : list (K * V)) (g : V * list K) : Prop :=
  exists k0 rest, snd g = k0 :: rest /\ In (k0, fst g) l /\
    forall k, In k rest -> exists v, In (k, v) l /\ close (fst g) v = true.
(** no reference is within tolerance of an earlier one *)
Definition refs_apart (gs : list (V * list K)) : Prop := ForallOrdPairs (fun g h => close (fst g) (fst h) = false) gs.

Lemma put_group_some k v gs gs' : put_group k v gs = Some gs' ->
  exists a r ks b, gs = a ++ (r, ks) :: b /\ gs' = a ++ (r, ks ++ [k]) :: b /\ close r v = true /\ forall g, In g a -> close (fst g) v = false.
Proof.
  revert gs'; induction gs as [|[r ks] gs IH]; intros gs' H; [discriminate|]. cbn in H. destruct (close r v) eqn:E.
  - injection H as <-. exists [], r, ks, gs. repeat split; [exact E | intros g []].
  - destruct (put_group k v gs) as [g|]; [|discriminate]. injection H as <-. destruct (IH g eq_refl) as (a & r' & ks' & b & -> & -> & C & F).
    exists ((r, ks) :: a), r', ks', b. repeat split; [exact C|]. intros g' [<-|Hg]; [exact E | apply F, Hg].
Qed.
Lemma put_group_none k v gs : put_group k v gs = None -> forall g, In g gs -> close (fst g) v = false.
Proof.
  induction gs as [|[r ks] gs IH]; intros H g Hg; [destruct Hg|]. cbn in H. destruct (close r v) eqn:E; [discriminate|].
  destruct (put_group k v gs); [discriminate|]. destruct Hg as [<-|Hg]; [exact E | apply IH; [reflexivity | exact Hg]].
Qed.
Lemma group_ok_more l l' g : group_ok l g -> (forall x, In x l -> In x l') -> group_ok l' g.
Proof. intros (k0 & rest & E & H0 & H) I. exists k0, rest. split; [exact E|]. split; [apply I, H0|]. intros k Hk. destruct (H k Hk) as [v [Hv C]]. eauto. Qed.

Lemma fop_app {X} (R : X -> X -> Prop) a b : ForallOrdPairs R (a ++ b) <->
  ForallOrdPairs R a /\ ForallOrdPairs R b /\ forall x y, In x a -> In y b -> R x y.
Proof.
  induction a as [|x a IH]; cbn [app].
  - split; [intro H; split; [constructor|]; split; [exact H | intros x y []] | tauto].
  - split.
    + intro H. inversion H as [|? ? F G]; subst. apply IH in G. destruct G as [G1 [G2 G3]]. rewrite Forall_forall in F.
      split; [constructor; [apply Forall_forall; intros; apply F, in_or_app; tauto | exact G1]|]. split; [exact G2|].
      intros z y [<-|Hz] Hy; [apply F, in_or_app; tauto | apply G3; assumption].
    + intros [H1 [H2 H3]]. inversion H1 as [|? ? F G]; subst. rewrite Forall_forall in F. constructor.
      * apply Forall_forall. intros y Hy. apply in_app_or in Hy. destruct Hy; [apply F; assumption | apply H3; [left; reflexivity | assumption]].
      * apply IH. split; [exact G|]. split; [exact H2|]. intros u y Hu Hy. apply H3; [right; exact Hu | exact Hy].
Qed.

Lemma greedy_inv l : let gs := greedy_reds l in
  Permutation (concat (map snd gs)) (map fst l) /\ (forall g, In g gs -> group_ok l g) /\ refs_apart gs /\
  (forall k v, In (k, v) l -> exists g, In g gs /\ In k (snd g) /\ (close (fst g) v = true \/ fst g = v)).
Proof.
  unfold greedy_reds, UtilsModel.greedy_reds. induction l as [|[k v] l IH] using rev_ind.
  - cbn. split; [constructor|]. split; [intros g []|]. split; [constructor | intros k v []].
  - rewrite fold_left_app. cbn [fold_left]. set (gs := fold_left (add_bl close) l []) in *. destruct IH as [P [G [R C]]].
    unfold add_bl. cbn [fst snd]. destruct (UtilsModel.put_group close k v gs) as [gs'|] eqn:E.
    + destruct (put_group_some k v gs gs' E) as (a & r & ks & b & Eg & -> & Cl & F). rewrite Eg in *.
      split; [|split; [|split]].
      * rewrite map_app, concat_app in *. cbn [map concat snd] in *. rewrite map_app. cbn [map].
        transitivity (k :: concat (map snd a) ++ ks ++ concat (map snd b)).
        -- rewrite <- app_assoc. cbn [app]. rewrite !app_assoc. apply Permutation_sym, Permutation_middle.
        -- rewrite <- Permutation_cons_append. constructor. exact P.
      * intros g Hg. apply in_app_or in Hg. destruct Hg as [Hg|[<-|Hg]].
        -- eapply group_ok_more; [apply G, in_or_app; left; exact Hg | intros; apply in_or_app; tauto].
        -- destruct (G (r, ks)) as (k0 & rest & E0 & H0 & H1); [apply in_or_app; right; left; reflexivity|]. cbn [fst snd] in *. subst ks.
           exists k0, (rest ++ [k]). split; [reflexivity|]. split; [apply in_or_app; left; exact H0|].
           intros k' Hk. apply in_app_or in Hk. destruct Hk as [Hk|[<-|[]]].
           ++ destruct (H1 k' Hk) as [v' [Hv' Cv]]. exists v'. split; [apply in_or_app; left; exact Hv' | exact Cv].
           ++ exists v. split; [apply in_or_app; right; left; reflexivity | exact Cl].
        -- eapply group_ok_more; [apply G, in_or_app; right; right; exact Hg | intros; apply in_or_app; tauto].
      * unfold refs_apart in *. rewrite fop_app in *. destruct R as [R1 [R2 R3]]. inversion R2 as [|? ? F1 G1]; subst.
        split; [exact R1|]. split; [constructor; [exact F1 | exact G1]|]. intros x y Hx Hy. destruct Hy as [<-|Hy]; cbn [fst].
        -- apply (R3 x (r, ks) Hx). left; reflexivity.
        -- apply R3; [exact Hx | right; exact Hy].
      * intros k' v' Hkv. apply in_app_or in Hkv. destruct Hkv as [Hkv|[Ekv|[]]].
        -- destruct (C k' v' Hkv) as [g [Hg [Hk Hc]]]. apply in_app_or in Hg. destruct Hg as [Hg|[<-|Hg]].
           ++ exists g. split; [apply in_or_app; left; exact Hg | auto].
           ++ exists (r, ks ++ [k]). split; [apply in_or_app; right; left; reflexivity|]. cbn [fst snd] in *. split; [apply in_or_app; left; exact Hk | exact Hc].
           ++ exists g. split; [apply in_or_app; right; right; exact Hg | auto].
        -- injection Ekv as <- <-. exists (r, ks ++ [k]). split; [apply in_or_app; right; left; reflexivity|]. cbn [fst snd].
           split; [apply in_or_app; right; left; reflexivity | left; exact Cl].
    + pose proof (put_group_none k v gs E) as F. split; [|split; [|split]].
      * rewrite map_app, concat_app, map_app. cbn. apply Permutation_app_tail, P.
      * intros g Hg. apply in_app_or in Hg. destruct Hg as [Hg|[<-|[]]].
        -- eapply group_ok_more; [apply G, Hg | intros; apply in_or_app; tauto].
        -- exists k, []. cbn. split; [reflexivity|]. split; [apply in_or_app; right; left; reflexivity | intros ? []].
      * unfold refs_apart in *. rewrite fop_app. split; [exact R|]. split; [repeat constructor|]. intros x y Hx [<-|[]]. apply F, Hx.
      * intros k' v' Hkv. apply in_app_or in Hkv. destruct Hkv as [Hkv|[Ekv|[]]].
        -- destruct (C k' v' Hkv) as [g [Hg H]]. exists g. split; [apply in_or_app; left; exact Hg | exact H].
        -- injection Ekv as <- <-. exists (v, [k]). split; [apply in_or_app; right; left; reflexivity|]. cbn. tauto.
Qed.

(** reordering by any permutation keeps lengths, angles and tags with their groups *)
Lemma picks_perm2 {X} (l : list X) a b : Permutation a b -> forall r1 r2, picks a l r1 -> picks b l r2 -> Permutation r1 r2.
Proof.
  induction 1 as [|i a b P IH|i j a|a b c P1 IH1 P2 IH2]; intros r1 r2 H1 H2.
  - inversion H1; inversion H2; subst; constructor.
  - inversion H1; inversion H2; subst. assert (y = y0) by congruence. subst. constructor. apply IH; assumption.
  - inversion H1 as [|? y1 ? k1 A1 A2]; inversion H2 as [|? y2 ? k2 B1 B2]; subst. inversion A2 as [|? y3 ? k3 A3 A4]; inversion B2 as [|? y4 ? k4 B3 B4]; subst.
    assert (y1 = y4) by congruence. assert (y2 = y3) by congruence. subst. assert (k3 = k4) by (eapply picks_fun; [exact A4 | exact B4]). subst. constructor.
  - assert (E : exists r3, picks b l r3).
    { assert (F : Forall (fun i => i < length l) b).
      { apply picks_range in H2. rewrite Forall_forall in *. intros x Hx. apply H2. apply (Permutation_in _ P2 Hx). }
      destruct (gather_total l b) as [r3 Hr]; [exact F|]. apply gather_spec in Hr. eauto. }
    destruct E as [r3 H3]. rewrite (IH1 r1 r3 H1 H3). apply IH2; assumption.
Qed.

Theorem blvec_reds_spec order l : Permutation order (seq 0 (length (greedy_reds l))) ->
  exists gs, blvec_reds close info order l = Ok (map snd gs, map (fun g => info (fst g)) gs) /\ Permutation gs (greedy_reds l).
Proof.
  intro P. set (g0 := greedy_reds l) in *.
  assert (F : Forall (fun i => i < length g0) order).
  { apply Forall_forall. intros i Hi. apply (Permutation_in _ P) in Hi. apply in_seq in Hi. lia. }
  destruct (gather_total g0 order F) as [gs Hg]. apply gather_spec in Hg.
  exists gs. split.
  - unfold blvec_reds. fold (@UtilsModel.greedy_reds K V close). fold g0.
    rewrite (proj2 (gather_spec (map snd g0) order (map snd gs)) (picks_map snd _ _ _ Hg)). cbn [bind].
    rewrite (proj2 (gather_spec _ order _) (picks_map (fun g => info (fst g)) _ _ _ Hg)). reflexivity.
  - exact (picks_perm2 g0 order (seq 0 (length g0)) P gs g0 Hg (picks_seq g0)).
Qed.

(** * _get_red_bls *)
Lemma filter_partition {X} (f : X -> bool) l : Permutation (filter f l ++ filter (fun x => negb (f x)) l) l.
Proof.
  induction l as [|x l IH]; [constructor|]. cbn. destruct (f x); cbn [negb app]; [constructor; exact IH|].
  rewrite <- Permutation_middle. constructor. exact IH.
Qed.
Lemma red_loop_spec n : (forall v, close v v = true) -> forall l : list (K * V), length l <= n ->
  Permutation (concat (red_loop close n l)) l /\
  forall g, In g (red_loop close n l) -> exists kv0, hd_error g = Some kv0 /\ forall kv, In kv g -> In kv l /\ close (snd kv0) (snd kv) = true.
Proof.
  intro Rf. induction n as [|n IH]; intros l Hl.
  - destruct l; [|cbn in Hl; lia]. split; [constructor | intros g []].
  - destruct l as [|kv0 l]; [split; [constructor | intros g []]|].
    set (L := kv0 :: l) in *. set (m := fun kv : K * V => close (snd kv0) (snd kv)).
    change (red_loop close (S n) L) with (filter m L :: red_loop close n (filter (fun kv => negb (m kv)) L)).
    assert (Em : m kv0 = true) by apply Rf.
    assert (Len : length (filter (fun kv => negb (m kv)) L) <= n).
    { unfold L. cbn. rewrite Em. cbn. assert (length (filter (fun kv => negb (m kv)) l) <= length l) by (clear; induction l as [|x l IH]; cbn; [lia | destruct (negb (m x)); cbn; lia]). cbn in Hl. unfold L in Hl. cbn in Hl. lia. }
    destruct (IH _ Len) as [P G]. split.
    + cbn [concat]. rewrite P. apply filter_partition.
    + intros g [<-|Hg].
      * exists kv0. split; [unfold L; cbn; rewrite Em; reflexivity|]. intros kv Hkv. apply filter_In in Hkv. exact Hkv.
      * destruct (G g Hg) as [k1 [H1 H2]]. exists k1. split; [exact H1|]. intros kv Hkv. destruct (H2 kv Hkv) as [H3 H4]. apply filter_In in H3. tauto.
Qed.
End Reds.

(** * _get_red_blpairs *)
Lemma combine_seq_nth {X} (l : list X) i x : In (i, x) (combine (seq 0 (length l)) l) <-> nth_error l i = Some x.
Proof. split; [apply indexed_In | intro H; eapply nth_error_In; exact (indexed_nth l i x H)]. Qed.
Lemma memZ_In x l : memZ x l = true <-> In x l.
Proof. unfold memZ. rewrite existsb_exists. split; [intros [y [H E]]; apply Z.eqb_eq in E; congruence | intro H; exists x; rewrite Z.eqb_refl; auto]. Qed.
Lemma group_of_spec groups b i : (forall i j g h, nth_error groups i = Some g -> nth_error groups j = Some h -> In b g -> In b h -> i = j) ->
  (group_of groups b = Ok i <-> exists g, nth_error groups i = Some g /\ In b g).
Proof.
  intro U. unfold group_of. destruct (find _ _) as [[j g]|] eqn:E.
  - apply find_some in E. destruct E as [H1 H2]. apply in_rev, combine_seq_nth in H1. cbn in H2. apply memZ_In in H2. cbn [fst].
    split; [intro F; injection F as <-; eauto|]. intros [h [H3 H4]]. f_equal. exact (U j i g h H1 H3 H2 H4).
  - split; [discriminate|]. intros [g [H1 H2]]. exfalso. pose proof (find_none _ _ E (i, g)) as F. cbv beta in F. cbn [snd] in F.
    rewrite <- in_rev, combine_seq_nth in F. specialize (F H1). apply memZ_In in H2. congruence.
Qed.
Lemma map2_map {A B C D E} (f : C -> D -> E) (g : A -> C) (h : B -> D) l : forall m : list B,
  map2 f (map g l) (map h m) = map2 (fun x y => f (g x) (h y)) l m.
Proof. induction l as [|x l IH]; intros [|y m]; cbn; try reflexivity. f_equal. apply IH. Qed.
Theorem red_blpairs_spec groups blps rg :
  (forall b i j g h, nth_error groups i = Some g -> nth_error groups j = Some h -> In b g -> In b h -> i = j) ->
  red_blpairs groups blps = Ok rg ->
  length rg = length groups /\
  forall i g, nth_error groups i = Some g -> exists ps, nth_error rg i = Some ps /\
    ps = filter (fun p => memZ (fst p) g && memZ (snd p) g) blps.
Proof.
  intros U H. unfold red_blpairs in H.
  destruct (map_res (fun p => group_of groups (fst p)) blps) as [g1|] eqn:E1; [|discriminate]. cbn [bind] in H.
  destruct (map_res (fun p => group_of groups (snd p)) blps) as [g2|] eqn:E2; [|discriminate]. cbn [bind] in H. injection H as <-.
  split; [rewrite map_length, seq_length; reflexivity|].
  intros i g Hg. assert (Hi : i < length groups) by (apply nth_error_Some_lt in Hg; exact Hg).
  eexists. split; [rewrite nth_error_map; replace (nth_error (seq 0 (length groups)) i) with (Some i); [reflexivity|]|].
  { symmetry. rewrite (nth_error_nth' _ 0) by (rewrite seq_length; exact Hi). rewrite seq_nth by exact Hi. reflexivity. }
  clear Hi. revert g1 g2 E1 E2. induction blps as [|[a b] blps IH]; intros g1 g2 E1 E2.
  - cbn in E1, E2. injection E1 as <-. injection E2 as <-. reflexivity.
  - cbn [map_res fst snd] in E1, E2.
    destruct (group_of groups a) as [ia|] eqn:Ga; [|discriminate]. cbn [bind] in E1. destruct (map_res _ blps) as [r1|] eqn:R1; [|discriminate]. injection E1 as <-.
    destruct (group_of groups b) as [ib|] eqn:Gb; [|discriminate]. cbn [bind] in E2. destruct (map_res (fun p => group_of groups (snd p)) blps) as [r2|] eqn:R2; [|discriminate]. injection E2 as <-.
    assert (T : forall c ic, group_of groups c = Ok ic -> Nat.eqb ic i = memZ c g).
    { intros c ic Hc. apply (group_of_spec groups c ic) in Hc; [|intros; eapply (U c); eassumption]. destruct Hc as [gc [N1 I1]].
      destruct (memZ c g) eqn:M.
      - apply memZ_In in M. apply Nat.eqb_eq. exact (U c ic i gc g N1 Hg I1 M).
      - apply Nat.eqb_neq. intro. subst ic. assert (gc = g) by congruence. subst gc. apply memZ_In in I1. congruence. }
    cbn [map2 mask filter fst snd]. rewrite (T a ia Ga), (T b ib Gb), (IH r1 r2 eq_refl eq_refl).
    destruct (memZ a g && memZ b g); reflexivity.
Qed.

(** * job_monitor on the jobs 0 .. n-1 *)
Section Jobs.
Variable run : nat -> Z -> Z.
Variable maxiter : nat.
(** [x] failed in every round before [r] *)
Definition failing (r : nat) (x : Z) : bool := forallb (fun q => negb (Z.eqb 0 (run q x))) (seq 0 r).
Definition rounds : nat := Nat.max 1 maxiter.
Definition still (r : nat) (jobs : list Z) : list Z := filter (failing r) jobs.

Lemma failing_S r x : failing (S r) x = failing r x && negb (Z.eqb 0 (run r x)).
Proof. unfold failing. rewrite seq_S, forallb_app. cbn. rewrite andb_true_r. reflexivity. Qed.
Lemma still_S r jobs : filter (fun x => negb (Z.eqb 0 (run r x))) (still r jobs) = still (S r) jobs.
Proof.
  unfold still. induction jobs as [|x l IH]; [reflexivity|]. cbn [filter]. rewrite failing_S. destruct (failing r x); cbn [andb filter]; [|exact IH].
  destruct (negb (Z.eqb 0 (run r x))); [f_equal|]; exact IH.
Qed.
Lemma still_nil r q jobs : r <= q -> still r jobs = [] -> still q jobs = [].
Proof.
  intros H E. induction H as [|q H IH]; [exact E|]. rewrite <- still_S, IH. reflexivity.
Qed.
Definition calls_of (r : nat) (jobs : list Z) : list (nat * Z) := map (pair r) (still r jobs).

Lemma all_zero_nil r jobs : forallb (Z.eqb 0) (map (run r) (still r jobs)) = true <-> still (S r) jobs = [].
Proof.
  rewrite <- still_S. induction (still r jobs) as [|x l IH]; cbn [map forallb filter]; [tauto|]. destruct (Z.eqb 0 (run r x)); cbn [negb andb]; [exact IH | split; discriminate].
Qed.
Lemma job_loop_spec fuel : forall r jobs, 1 <= r -> rounds - r < fuel -> r <= rounds ->
  job_loop run maxiter fuel r (still r jobs) (map (run (r - 1)) (still (r - 1) jobs)) (concat (map (fun q => calls_of q jobs) (seq 0 r))) =
  (still rounds jobs, concat (map (fun q => calls_of q jobs) (seq 0 rounds))).
Proof.
  induction fuel as [|fuel IH]; intros r jobs Hr Hf Hle; [lia|]. cbn [job_loop].
  destruct (forallb (Z.eqb 0) (map (run (r - 1)) (still (r - 1) jobs))) eqn:E.
  - apply all_zero_nil in E. replace (S (r - 1)) with r in E by lia.
    rewrite E, (still_nil r rounds jobs Hle E). f_equal.
    replace rounds with (r + (rounds - r)) by lia. rewrite seq_app, map_app, concat_app.
    replace (concat (map (fun q => calls_of q jobs) (seq (0 + r) (rounds - r)))) with (@nil (nat * Z)); [rewrite app_nil_r; reflexivity|].
    symmetry. assert (G : forall m s, r <= s -> concat (map (fun q => calls_of q jobs) (seq s m)) = []); [|apply G; lia].
    induction m as [|m IHm]; intros s Hs; [reflexivity|]. cbn [seq map concat]. rewrite IHm by lia. unfold calls_of. rewrite (still_nil r s jobs Hs E). reflexivity.
  - destruct (Nat.leb_spec maxiter r) as [L|L].
    + replace rounds with r by (unfold rounds in *; lia). reflexivity.
    + rewrite map_map, mask_map_filter, still_S.
      replace (concat (map (fun q => calls_of q jobs) (seq 0 r)) ++ map (pair r) (still r jobs))
        with (concat (map (fun q => calls_of q jobs) (seq 0 (S r)))).
      * assert (R2 : r < rounds) by (unfold rounds; lia).
        pose proof (IH (S r) jobs ltac:(lia) ltac:(lia) ltac:(lia)) as G. replace (S r - 1) with r in G by lia. exact G.
      * rewrite seq_S, map_app, concat_app. cbn [map concat plus]. rewrite app_nil_r. reflexivity.
Qed.
Lemma where_seq (f : Z -> bool) n : map Z.of_nat (where_ (map f (map Z.of_nat (seq 0 n)))) = filter f (map Z.of_nat (seq 0 n)).
Proof.
  unfold where_. generalize 0 as k. induction n as [|n IH]; intro k; [reflexivity|]. cbn [seq map filter where_from].
  destruct (f (Z.of_nat k)); cbn [map]; [f_equal|]; apply IH.
Qed.
Theorem job_monitor_spec n : let jobs := map Z.of_nat (seq 0 n) in
  let out := if Nat.eqb n 0 || forallb (fun x => negb (Z.eqb 0 (run 0 x))) jobs then Err ValueError else Ok (still rounds jobs) in
  fst (job_monitor run maxiter jobs) = out /\
  snd (job_monitor run maxiter jobs) = match out with Err _ => map (pair 0) jobs | Ok _ => concat (map (fun r => calls_of r jobs) (seq 0 rounds)) end.
Proof.
  intros jobs out. destruct n as [|n]; [split; reflexivity|].
  assert (Hj : exists x l, jobs = x :: l) by (unfold jobs; cbn; eauto). destruct Hj as (x & l & Hj).
  assert (EJ : job_monitor run maxiter jobs =
    (if forallb (fun c => negb (Z.eqb 0 c)) (map (run 0) jobs) then (Err ValueError, map (pair 0) jobs)
     else let '(f, tr) := job_loop run maxiter (S maxiter) 1 (map Z.of_nat (where_ (map (fun c => negb (Z.eqb 0 c)) (map (run 0) jobs))))
                            (map (run 0) jobs) (map (pair 0) jobs) in (Ok f, tr))) by (unfold job_monitor; rewrite Hj; reflexivity).
  assert (Fm : forallb (fun c => negb (Z.eqb 0 c)) (map (run 0) jobs) = forallb (fun x => negb (Z.eqb 0 (run 0 x))) jobs).
  { clear. induction jobs as [|y k IH]; [reflexivity|]. cbn [map forallb]. rewrite IH. reflexivity. }
  unfold out. cbn [Nat.eqb orb]. rewrite EJ, Fm. clear EJ Hj.
  destruct (forallb (fun x => negb (Z.eqb 0 (run 0 x))) jobs); [split; reflexivity|].
  assert (EW : map Z.of_nat (where_ (map (fun c => negb (Z.eqb 0 c)) (map (run 0) jobs))) = filter (fun x => negb (Z.eqb 0 (run 0 x))) jobs).
  { rewrite map_map. unfold jobs. apply where_seq. }
  rewrite EW.
  pose proof (job_loop_spec (S maxiter) 1 jobs ltac:(lia)) as G. unfold rounds in G at 1 2. specialize (G ltac:(lia) ltac:(unfold rounds; lia)).
  assert (S0 : still 0 jobs = jobs) by (unfold still; clear; induction jobs as [|y k IH]; [reflexivity|]; cbn in *; rewrite IH; reflexivity).
  change (1 - 1) with 0 in G. cbn [seq map concat] in G. unfold calls_of in G at 1. rewrite S0, app_nil_r in G.
  assert (S1 : still 1 jobs = filter (fun x => negb (Z.eqb 0 (run 0 x))) jobs) by (rewrite <- still_S, S0; reflexivity).
  rewrite S1 in G. rewrite G. split; reflexivity.
Qed.
End Jobs.

(** * calc_blpair_reds *)
Lemma bl_eqb_eq a b : bl_eqb a b = true <-> a = b.
Proof.
  destruct a, b. unfold bl_eqb. cbn. rewrite andb_true_iff, !Z.eqb_eq. split; [intros [-> ->]; reflexivity | intro E; injection E; auto].
Qed.
Lemma mem_bl_In b l : mem_bl b l = true <-> In b l.
Proof. unfold mem_bl. rewrite existsb_exists. split; [intros [y [H E]]; apply bl_eqb_eq in E; congruence | intro H; exists b; split; [exact H | apply bl_eqb_eq; reflexivity]]. Qed.
Lemma xants_of_spec ants bls good autos crosses a :
  In a (xants_of ants bls good autos crosses) <->
  In a ants /\ forall b, In b bls -> (fst b = a \/ snd b = a) -> good b = true ->
     (fst b = snd b -> autos = false) /\ (fst b <> snd b -> crosses = false).
Proof.
  unfold xants_of. revert ants. induction bls as [|b bls IH]; intro ants; cbn [fold_left].
  - split; [intro H; split; [exact H | intros b []] | tauto].
  - rewrite IH. clear IH.
    set (skip := (negb autos && Z.eqb (fst b) (snd b)) || (negb crosses && negb (Z.eqb (fst b) (snd b)))).
    assert (Sk : skip = true <-> (fst b = snd b -> autos = false) /\ (fst b <> snd b -> crosses = false)).
    { unfold skip. destruct (Z.eqb_spec (fst b) (snd b)) as [E|E]; destruct autos, crosses; cbn; intuition congruence. }
    destruct skip eqn:Es.
    + split.
      * intros [H1 H2]. split; [exact H1|]. intros b' [<-|Hb]; [intros _ _; apply Sk; reflexivity | apply H2, Hb].
      * intros [H1 H2]. split; [exact H1|]. intros b' Hb. apply H2. right; exact Hb.
    + destruct (good b) eqn:Eg.
      * rewrite filter_In, andb_true_iff, !negb_true_iff, !Z.eqb_neq. split.
        -- intros [[H1 [N1 N2]] H2]. split; [exact H1|]. intros b' [<-|Hb]; [intros [E|E]; congruence | apply H2, Hb].
        -- intros [H1 H2]. split; [split; [exact H1|]|intros b' Hb; apply H2; right; exact Hb].
           assert (G : ~ (fst b = a \/ snd b = a)); [|split; intro; apply G; auto].
           intro C. pose proof (H2 b (or_introl eq_refl) C Eg) as D. apply Sk in D. discriminate.
      * split.
        -- intros [H1 H2]. split; [exact H1|]. intros b' [<-|Hb]; [intros _ C; congruence | apply H2, Hb].
        -- intros [H1 H2]. split; [exact H1|]. intros b' Hb. apply H2. right; exact Hb.
Qed.
Lemma drop_ants_spec {T} xants (reds : list (list bl * T)) r t :
  In (r, t) (drop_ants xants reds) <-> r <> [] /\ exists r0, In (r0, t) reds /\
    r = filter (fun b => negb (memZ (fst b) xants) && negb (memZ (snd b) xants)) r0.
Proof.
  unfold drop_ants. rewrite filter_In, in_map_iff. split.
  - intros [[[r0 t0] [E H]] N]. cbn in E. injection E as <- <-. split; [destruct (filter _ r0); [discriminate | discriminate]|]. eauto.
  - intros [N [r0 [H ->]]]. split; [exists (r0, t); split; [reflexivity | exact H]|]. cbn [fst]. match goal with |- context [filter ?f r0] => destruct (filter f r0) eqn:Ef end; [exfalso; apply N; reflexivity | reflexivity].
Qed.
Definition has_data (data : option (list bl * list bl)) (p : bl * bl) : Prop :=
  match data with None => True | Some (d1, d2) =>
    (In (fst p) d1 \/ In (flip (fst p)) d1) /\ (In (snd p) d2 \/ In (flip (snd p)) d2) end.
Lemma group_pairs_spec data ea ec ep r : r <> [] -> ea && ec = false -> NoDup r ->
  exists ps, group_pairs data ea ec ep r = Ok ps /\ NoDup ps /\
    forall a b, In (a, b) ps <-> In a r /\ In b r /\ (ea = true -> a <> b) /\ (ec = true -> a = b) /\
                                 (ep = true -> a = b \/ before a b r) /\ has_data data (a, b).
Proof.
  intros Hne Hx N. unfold group_pairs. destruct (blpairs_flat_spec bl_eqb bl_eqb_eq r ea ec ep Hne Hx N) as [ps [E [Nd H]]].
  rewrite E. cbn [bind]. eexists. split; [reflexivity|]. split.
  - destruct data as [[d1 d2]|]; [apply nodup_filter|]; exact Nd.
  - intros a b. destruct data as [[d1 d2]|]; cbn [has_data fst snd]; [|rewrite H; tauto].
    rewrite filter_In, H. cbn [fst snd]. unfold has_bl. rewrite andb_true_iff, !orb_true_iff, !mem_bl_In. tauto.
Qed.

(** pairs with the number of their redundant group *)
Theorem calc_pairs_spec data ea ec ep reds : ea && ec = false -> (forall r, In r reds -> r <> [] /\ NoDup r) ->
  exists pjs, calc_pairs data ea ec ep reds = Ok (map fst pjs, map snd pjs) /\ NoDup pjs /\
    forall a b j, In ((a, b), j) pjs <-> exists r, nth_error reds j = Some r /\
      In a r /\ In b r /\ (ea = true -> a <> b) /\ (ec = true -> a = b) /\ (ep = true -> a = b \/ before a b r) /\ has_data data (a, b).
Proof.
  intros Hx HR. unfold calc_pairs. set (ir := combine (seq 0 (length reds)) reds).
  assert (Nir : NoDup ir).
  { apply (NoDup_map_inv fst). unfold ir. replace (map fst (combine (seq 0 (length reds)) reds)) with (seq 0 (length reds)); [apply seq_NoDup|].
    generalize 0 as k. clear. induction reds as [|x l IH]; intro k; [reflexivity|]. cbn. f_equal. apply IH. }
  assert (Hir : forall j r, In (j, r) ir <-> nth_error reds j = Some r) by (intros; apply combine_seq_nth).
  assert (HI : forall jr, In jr ir -> snd jr <> [] /\ NoDup (snd jr)).
  { intros [j r] H. apply Hir in H. apply HR. eapply nth_error_In; exact H. }
  clearbody ir.
  assert (G : exists pjs, bind (map_res (fun jr => bind (group_pairs data ea ec ep (snd jr)) (fun ps => Ok (ps, repeat (fst jr) (length ps)))) ir)
                (fun gs => Ok (concat (map fst gs), concat (map snd gs))) = Ok (map fst pjs, map snd pjs) /\ NoDup pjs /\
              forall a b j, In ((a, b), j) pjs <-> exists r, In (j, r) ir /\
                In a r /\ In b r /\ (ea = true -> a <> b) /\ (ec = true -> a = b) /\ (ep = true -> a = b \/ before a b r) /\ has_data data (a, b)).
  { assert (U : forall j r r', In (j, r) ir -> In (j, r') ir -> r = r').
    { intros j r r' H1 H2. apply Hir in H1. apply Hir in H2. congruence. }
    clear Hir HR reds. induction ir as [|[j r] ir IH].
    - exists []. split; [reflexivity|]. split; [constructor|]. intros a b j. split; [intros [] | intros [r [[] _]]].
    - apply NoDup_cons_iff in Nir. destruct Nir as [Nj Nir].
      destruct IH as [pjs [E [Nd H]]]; [exact Nir | intros; apply HI; right; assumption | intros ? ? ? A B; eapply U; right; eassumption |].
      destruct (HI (j, r) (or_introl eq_refl)) as [Hr Nr]. cbn [snd] in Hr, Nr.
      destruct (group_pairs_spec data ea ec ep r Hr Hx Nr) as [ps [Ep [Np Hp]]].
      exists (map (fun p => (p, j)) ps ++ pjs). split.
      + cbn [map_res fst snd]. rewrite Ep. cbn [bind]. destruct (map_res _ ir) as [gs|e]; [|discriminate]. cbn [bind] in *. injection E as E1 E2.
        f_equal. cbn [map concat fst snd]. rewrite !map_app, !map_map, E1, E2. cbn [fst snd]. f_equal; [f_equal; symmetry; apply map_id|].
        f_equal. clear. induction ps as [|p ps IH]; [reflexivity|]. cbn. rewrite IH. reflexivity.
      + split.
        * assert (N1 : NoDup (map (fun p : bl * bl => (p, j)) ps)) by (apply FinFun.Injective_map_NoDup; [intros ? ? Eq; congruence | exact Np]).
          assert (D : forall q, In q (map (fun p : bl * bl => (p, j)) ps) -> ~ In q pjs).
          { intros q Hq Hc. apply in_map_iff in Hq. destruct Hq as [[a b] [<- _]]. apply H in Hc. destruct Hc as [r' [Hr' _]].
            assert (r' = r) by (apply (U j); [right; exact Hr' | left; reflexivity]). subst r'. contradiction. }
          revert N1 D. generalize (map (fun p : bl * bl => (p, j)) ps) as k. induction k as [|q k IHk]; intros N1 D; [exact Nd|].
          cbn. apply NoDup_cons_iff in N1. destruct N1 as [Hq N1]. constructor.
          -- intro C. apply in_app_or in C. destruct C; [contradiction|]. exact (D q (or_introl eq_refl) H0).
          -- apply IHk; [exact N1 | intros w Hw; apply D; right; exact Hw].
        * intros a b i. rewrite in_app_iff, H, in_map_iff. split.
          -- intros [[q [Eq Hq]]|[r' [Hr' Q]]].
             ++ injection Eq as -> ->. apply Hp in Hq. exists r. split; [left; reflexivity | exact Hq].
             ++ exists r'. split; [right; exact Hr' | exact Q].
          -- intros [r' [[Eq|Hr'] Q]].
             ++ injection Eq as -> ->. left. exists (a, b). split; [reflexivity | apply Hp; exact Q].
             ++ right. exists r'. split; [exact Hr' | exact Q]. }
  destruct G as [pjs [E [Nd H]]]. exists pjs. split; [exact E|]. split; [exact Nd|].
  intros a b j. rewrite H. split; intros [r [H1 H2]]; exists r; (split; [apply Hir, H1 | exact H2]).
Qed.
(** grouping into sub-lists of [n] only cuts the flat list *)
Theorem calc_pairs_grouped_spec data ea ec ep n reds ps js : (0 < n)%Z -> calc_pairs data ea ec ep reds = Ok (ps, js) ->
  exists gps gjs, calc_pairs_grouped data ea ec ep n reds = Ok (gps, gjs) /\ concat gps = ps /\ concat gjs = js /\
    map (@length _) gps = map (@length _) gjs /\ (forall g, In g gps -> 1 <= length g <= Z.to_nat n).
Proof.
  intro Hn. unfold calc_pairs, calc_pairs_grouped. generalize (combine (seq 0 (length reds)) reds) as ir. intro ir.
  assert (Hk : 1 <= Z.to_nat n) by lia. revert ps js. induction ir as [|[j r] ir IH]; intros ps js H.
  - cbn in H. injection H as <- <-. exists [], []. repeat (split; [reflexivity|]). intros g [].
  - cbn [map_res fst snd] in *. destruct (group_pairs data ea ec ep r) as [p|] eqn:Ep; [|discriminate]. cbn [bind] in *.
    rewrite !chunks_pos by exact Hn. cbn [bind].
    destruct (map_res (fun jr : nat * list bl => bind (group_pairs data ea ec ep (snd jr)) (fun ps0 => Ok (ps0, repeat (fst jr) (length ps0)))) ir) as [gs|] eqn:Eg; [|discriminate].
    cbn [bind] in *. destruct (IH _ _ eq_refl) as (gps & gjs & E & C1 & C2 & L & S). clear IH.
    destruct (map_res _ ir) as [hs|] eqn:Eh in E |- *; [|discriminate]. cbn [bind] in *. injection E as <- <-. injection H as <- <-.
    eexists _, _. split; [reflexivity|]. cbn [map concat fst snd]. rewrite !concat_app, C1, C2, !nchunks_concat by exact Hk.
    split; [reflexivity|]. split; [reflexivity|]. split.
    + rewrite !map_app, L. f_equal.
      assert (Er : repeat j (length p) = map (fun _ => j) p) by (clear; induction p as [|x p IH]; cbn; congruence).
      rewrite Er, nchunks_map, map_map. apply map_ext. intro. symmetry. apply map_length.
    + intros g Hg. apply in_app_or in Hg. destruct Hg as [Hg|Hg]; [exact (nchunks_sizes _ p Hk g Hg) | exact (S g Hg)].
Qed.

(** * uvd_time_difference *)
Lemma every_nth {A} k (l : list A) n : 1 <= k -> nth_error (every k 0 l) n = nth_error l (n * k).
Proof.
  intro Hk. revert l; induction n as [|n IH]; intros [|x l]; [reflexivity | reflexivity | |].
  - cbn [every]. destruct (S n * k); reflexivity.
  - cbn [every nth_error]. rewrite every_skip, IH. replace (S n * k) with (S (k - 1 + n * k)) by lia. cbn [nth_error].
    generalize (n * k) as m. generalize (k - 1) as c. clear. intros c. revert l. induction c as [|c IH]; intros l m; [reflexivity|].
    destruct l as [|x l]; [cbn; destruct m; reflexivity|]. cbn. apply IH.
Qed.
Theorem diff_times_spec times ratio ps : diff_times times ratio = Ok ps ->
  exists k, 1 <= k /\ forall i a b, nth_error ps i = Some (a, b) <-> nth_error times (i * k) = Some a /\ nth_error times (i * k + 1) = Some b.
Proof.
  unfold diff_times. set (n := length times). set (k := if n - 2 <? ratio + 1 then n - 2 else ratio + 1).
  destruct (n <? 2) eqn:E2; [discriminate|]. apply Nat.ltb_ge in E2. destruct (Nat.eqb_spec k 0) as [|Hk]; [discriminate|].
  intro H. injection H as <-. exists k. split; [lia|]. intros i a b.
  assert (Hk1 : 1 <= k) by lia.
  assert (X : forall j, nth_error (every k 0 (firstn (n - 1) times)) j = if j * k <? n - 1 then nth_error times (j * k) else None).
  { intro j. destruct (Nat.ltb_spec (j * k) (n - 1)) as [L|L].
    - rewrite every_nth by exact Hk1. rewrite <- (firstn_skipn (n - 1) times) at 2. rewrite nth_error_app1; [reflexivity | rewrite firstn_length; fold n; lia].
    - rewrite every_nth by exact Hk1. apply nth_error_None. rewrite firstn_length; fold n; lia. }
  assert (Y : forall j, nth_error (every k 0 (skipn 1 times)) j = if j * k <? n - 1 then nth_error times (j * k + 1) else None).
  { intro j. assert (Ls : length (skipn 1 times) = n - 1) by (rewrite skipn_length; reflexivity). destruct (Nat.ltb_spec (j * k) (n - 1)) as [L|L].
    - rewrite every_nth by exact Hk1. destruct times as [|t ts]; [cbn in *; lia|]. rewrite Nat.add_1_r. reflexivity.
    - rewrite every_nth by exact Hk1. apply nth_error_None. rewrite Ls; lia. }
  assert (Z : forall (l m : list Z) i, nth_error (combine l m) i = match nth_error l i, nth_error m i with Some x, Some y => Some (x, y) | _, _ => None end).
  { clear. induction l as [|x l IH]; intros [|y m] [|i]; cbn; try reflexivity; [destruct (nth_error l i); reflexivity | apply IH]. }
  rewrite Z, X, Y. destruct (Nat.ltb_spec (i * k) (n - 1)) as [L|L].
  - destruct (nth_error times (i * k)), (nth_error times (i * k + 1)); split; try (intros [? ?]; congruence); intro G; [injection G as -> ->; auto | discriminate | discriminate | discriminate].
  - split; [discriminate|]. intros [_ G]. apply nth_error_Some_lt in G. fold n in G. lia.
Qed.
