(** Properties C24-C27 and C47-C49: baseline pairs, redundant groups, retries, channel ranges. *)
From Coq Require Import Permutation Sorted.
From Verif Require Import PyStr.
From Verif Require Import Prelude ListLemmas UvpModel CombineModel CombineProofs CombineSound UtilsModel UtilsProofs UtilsReds.
Open Scope nat_scope.

(** * C24 *)
(** distinct baselines: the pairs are exactly the requested ones, each once; the two baseline
    lists are the components; without permutations, [(a, b)] is listed iff [a] precedes [b] *)
Theorem C24_pairs : forall (A : Type) (eqb : A -> A -> bool), (forall a b, eqb a b = true <-> a = b) ->
  forall bls ea ec ep, bls <> [] -> ea && ec = false -> NoDup bls ->
  exists ps, construct_blpairs eqb bls ea ec ep = Ok (map fst ps, map snd ps, ps) /\ NoDup ps /\
    forall a b, In (a, b) ps <-> In a bls /\ In b bls /\ (ea = true -> a <> b) /\ (ec = true -> a = b) /\
                                 (ep = true -> a = b \/ before a b bls).
Proof.
  intros A eqb He bls ea ec ep Hne Hx N. destruct (blpairs_flat_spec eqb He bls ea ec ep Hne Hx N) as [ps [E [Nd H]]].
  exists ps. unfold construct_blpairs. rewrite E. split; [reflexivity | split; [exact Nd | exact H]].
Qed.
Print Assumptions C24_pairs.
(** without permutations every two different baselines form exactly one pair *)
Theorem C24_one_order : forall (A : Type) (eqb : A -> A -> bool), (forall a b, eqb a b = true <-> a = b) ->
  forall bls ea ps a b, bls <> [] -> NoDup bls -> blpairs_flat eqb bls ea false true = Ok ps ->
  In a bls -> In b bls -> a <> b ->
  (In (a, b) ps \/ In (b, a) ps) /\ ~ (In (a, b) ps /\ In (b, a) ps).
Proof.
  intros A eqb He bls ea ps a b Hne N E Ha Hb Hab.
  destruct (blpairs_flat_spec eqb He bls ea false true Hne ltac:(destruct ea; reflexivity) N) as [ps' [E' [_ H]]].
  rewrite E in E'. injection E' as <-. split.
  - destruct (before_total a b bls Ha Hb Hab) as [B|B]; [left | right]; apply H; repeat split; try assumption; try congruence; right; exact B.
  - intros [H1 H2]. apply H in H1. apply H in H2. destruct H1 as (_ & _ & _ & _ & H1). destruct H2 as (_ & _ & _ & _ & H2).
    destruct (H1 eq_refl) as [|B1]; [congruence|]. destruct (H2 eq_refl) as [|B2]; [congruence|]. exact (before_anti a b bls N B1 B2).
Qed.
Print Assumptions C24_one_order.
(** grouping cuts the same list into runs of [n], the last one possibly shorter *)
Theorem C24_groups : forall (A : Type) (eqb : A -> A -> bool) bls ea ec ep n ps, (0 < n)%Z ->
  blpairs_flat eqb bls ea ec ep = Ok ps ->
  exists gs, construct_blpairs_grouped eqb bls ea ec ep n = Ok (map (map fst) gs, map (map snd) gs, gs) /\
    concat gs = ps /\ (forall g, In g gs -> 1 <= length g <= Z.to_nat n) /\
    (forall a g b, gs = a ++ g :: b -> b <> [] -> length g = Z.to_nat n).
Proof.
  intros A eqb bls ea ec ep n ps Hn E. exists (nchunks (Z.to_nat n) ps). unfold construct_blpairs_grouped. rewrite E. cbn [bind].
  rewrite !chunks_pos by exact Hn. cbn [bind]. rewrite !nchunks_map. split; [reflexivity|].
  assert (Hk : 1 <= Z.to_nat n) by lia.
  split; [apply nchunks_concat, Hk|]. split; [apply nchunks_sizes, Hk | apply nchunks_full, Hk].
Qed.
Print Assumptions C24_groups.
Theorem C24_errors : forall (A : Type) (eqb : A -> A -> bool) bls ep n,
  construct_blpairs eqb [] false false ep = Err IndexError /\
  (bls <> [] -> construct_blpairs eqb bls true true ep = Err AssertionError) /\
  (* a group size of zero fails; a negative one silently returns no pairs at all *)
  ((n < 0)%Z -> forall ea ec ps, blpairs_flat eqb bls ea ec ep = Ok ps -> construct_blpairs_grouped eqb bls ea ec ep n = Ok ([], [], [])).
Proof.
  intros A eqb bls ep n. split; [reflexivity|]. split; [intro H; destruct bls; [congruence | reflexivity]|].
  intros Hn ea ec ps E. unfold construct_blpairs_grouped. rewrite E. cbn [bind]. unfold chunks. destruct (Z.eqb_spec n 0); [lia|]. destruct (Z.ltb_spec n 0); [reflexivity | lia].
Qed.
Example C24_applies : construct_blpairs Z.eqb [1; 2; 3]%Z false false true = Ok ([1; 1; 2; 1; 2; 3], [2; 3; 3; 1; 2; 3], [(1, 2); (1, 3); (2, 3); (1, 1); (2, 2); (3, 3)])%Z
  /\ construct_blpairs Z.eqb [1; 2]%Z true false false = Ok ([1; 2], [2; 1], [(1, 2); (2, 1)])%Z
  /\ construct_blpairs_grouped Z.eqb [1; 2; 3]%Z true false true 2 = Ok ([[1; 1]; [2]], [[2; 3]; [3]], [[(1, 2); (1, 3)]; [(2, 3)]])%Z.
Proof. repeat split. Qed.

(** * C25 *)
Lemma fop_sym_perm {X} (R : X -> X -> Prop) l l' : (forall x y, R x y -> R y x) -> Permutation l l' -> ForallOrdPairs R l -> ForallOrdPairs R l'.
Proof.
  intros Sy P. induction P as [|x a b P IH|x y a|a b c P1 IH1 P2 IH2]; intro H; [constructor | | | auto].
  - inversion H as [|? ? F G]; subst. constructor; [|apply IH, G]. rewrite Forall_forall in *. intros z Hz. apply F. apply (Permutation_in _ (Permutation_sym P) Hz).
  - inversion H as [|? ? F G]; subst. inversion G as [|? ? F' G']; subst. inversion F as [|? ? F1 F2]; subst. constructor; [constructor; [apply Sy, F1 | exact F'] | constructor; [exact F2 | exact G']].
Qed.
(** every baseline is in exactly one group; the members of a group are within tolerance of its
    first member; the first members of two groups are not within tolerance of each other;
    the information returned for a group is that of its first member *)
Theorem C25_partition : forall (K V T : Type) (close : V -> V -> bool) (info : V -> T) order (blvecs : list (K * V)),
  (forall a b, close a b = close b a) ->
  Permutation order (seq 0 (length (greedy_reds close blvecs))) ->
  exists gs : list (V * list K), blvec_reds close info order blvecs = Ok (map snd gs, map (fun g => info (fst g)) gs) /\
    Permutation (concat (map snd gs)) (map fst blvecs) /\
    (forall r ks, In (r, ks) gs -> exists k0 rest, ks = k0 :: rest /\ In (k0, r) blvecs /\
       forall k, In k rest -> exists v, In (k, v) blvecs /\ close r v = true) /\
    ForallOrdPairs (fun g h => close (fst g) (fst h) = false) gs.
Proof.
  intros K V T close info order blvecs Sy P. destruct (blvec_reds_spec close info order blvecs P) as [gs [E Pg]].
  destruct (greedy_inv close info blvecs) as [I1 [I2 [I3 _]]]. exists gs. split; [exact E|]. split; [|split].
  - rewrite <- I1. clear -Pg. induction Pg as [|x a b P IH|x y a|a b c P1 IH1 P2 IH2]; cbn; [constructor | apply Permutation_app_head, IH | rewrite !app_assoc; apply Permutation_app_tail, Permutation_app_comm | congruence || (etransitivity; eassumption)].
  - intros r ks H. apply (Permutation_in _ Pg), I2 in H. exact H.
  - apply (fop_sym_perm _ (greedy_reds close blvecs)); [intros x y H; rewrite Sy; exact H | apply Permutation_sym, Pg | exact I3].
Qed.
Print Assumptions C25_partition.
(** the same for [get_red_bls] with a positive tolerance: a partition, each group within tolerance of its first member *)
Theorem C25_red_bls : forall (K V : Type) (close : V -> V -> bool) (l : list (K * V)), (forall v, close v v = true) ->
  Permutation (concat (red_bls close l)) l /\
  forall g, In g (red_bls close l) -> exists kv0, hd_error g = Some kv0 /\ forall kv, In kv g -> In kv l /\ close (snd kv0) (snd kv) = true.
Proof. intros K V close l R. apply (red_loop_spec close (length l) R l). lia. Qed.
Print Assumptions C25_red_bls.
(** pairs are listed, in order, under the group both of whose baselines it contains; pairs across groups are left out *)
Theorem C25_red_blpairs : forall groups blps rg,
  (forall b i j g h, nth_error groups i = Some g -> nth_error groups j = Some h -> In b g -> In b h -> i = j) ->
  red_blpairs groups blps = Ok rg ->
  length rg = length groups /\
  forall i g, nth_error groups i = Some g -> exists ps, nth_error rg i = Some ps /\
    ps = filter (fun p => memZ (fst p) g && memZ (snd p) g) blps.
Proof. exact red_blpairs_spec. Qed.
Print Assumptions C25_red_blpairs.
Definition near (a b : Z) : bool := (Z.abs (a - b) <=? 1)%Z.
Example C25_applies : greedy_reds near [(1, 10); (2, 20); (3, 11); (4, 12); (5, 21)]%Z = [(10, [1; 3]); (20, [2; 5]); (12, [4])]%Z
  /\ blvec_reds near (fun v => v) [1; 2; 0] [(1, 10); (2, 20); (3, 11); (4, 12); (5, 21)]%Z = Ok ([[2; 5]; [4]; [1; 3]], [20; 12; 10])%Z
  /\ red_bls near [(1, 10); (2, 20); (3, 11); (4, 12)]%Z = [[(1, 10); (3, 11)]; [(2, 20)]; [(4, 12)]]%Z
  /\ red_blpairs [[1; 3]; [2]]%Z [(1, 3); (1, 2); (3, 3); (2, 2)]%Z = Ok [[(1, 3); (3, 3)]; [(2, 2)]]%Z.
Proof. repeat split. Qed.

(** * C26 *)
(** Jobs 0 .. n-1 (the elements are their own indices): round [r] runs exactly the jobs that
    failed in all earlier rounds, in order; there are max(1, maxiter) rounds, fewer when nothing is
    left to run; the result is the list of the jobs that failed every time. If there are no jobs
    or all fail in the first round, an error, after one round. *)
Theorem C26_range_jobs : forall run maxiter n, let jobs := map Z.of_nat (seq 0 n) in
  let failed_before r x := forallb (fun q => negb (Z.eqb 0 (run q x))) (seq 0 r) in
  let R := Nat.max 1 maxiter in
  let out := if Nat.eqb n 0 || forallb (fun x => negb (Z.eqb 0 (run 0 x))) jobs then Err ValueError
             else Ok (filter (failed_before R) jobs) in
  fst (job_monitor run maxiter jobs) = out /\
  snd (job_monitor run maxiter jobs) =
    match out with
    | Err _ => map (pair 0) jobs
    | Ok _ => concat (map (fun r => map (pair r) (filter (failed_before r) jobs)) (seq 0 R))
    end.
Proof. exact job_monitor_spec. Qed.
Print Assumptions C26_range_jobs.
(** the first round runs every element once, for any iterator *)
Theorem C26_first_round : forall run maxiter iter, exists more, snd (job_monitor run maxiter iter) = map (pair 0) iter ++ more.
Proof.
  intros run maxiter iter. unfold job_monitor. destruct iter as [|x l]; [exists []; reflexivity|].
  destruct (forallb _ _); [exists []; rewrite app_nil_r; reflexivity|].
  assert (G : forall fuel c f cs tr, exists more, snd (job_loop run maxiter fuel c f cs tr) = tr ++ more).
  { induction fuel as [|fuel IH]; intros c f cs tr; cbn [job_loop]; [exists []; rewrite app_nil_r; reflexivity|].
    destruct (forallb (Z.eqb 0) cs); [exists []; rewrite app_nil_r; reflexivity|]. destruct (maxiter <=? c); [exists []; rewrite app_nil_r; reflexivity|].
    destruct (IH (S c) (mask (map (fun c0 => negb (Z.eqb 0 c0)) (map (run c) f)) f) (map (run c) f) (tr ++ map (pair c) f)) as [m E].
    eexists. rewrite E, <- app_assoc. reflexivity. }
  match goal with |- context [job_loop run maxiter ?a ?b ?c ?d ?e] => destruct (G a b c d e) as [m E]; destruct (job_loop run maxiter a b c d e) as [f tr] end.
  cbn in E. exists m. exact E.
Qed.
Print Assumptions C26_first_round.
(** other iterators: the retry runs the index, not the element; the failing job 7 is never re-run,
    its index is reported as done, and the unrelated element 1 is run twice *)
Theorem C26_retry_index_refuted : exists run maxiter iter, let '(r, calls) := job_monitor run maxiter iter in
  r = Ok [] /\ In 7%Z iter /\ (forall q, run q 7%Z <> 0%Z) /\ calls = [(0, 1%Z); (0, 7%Z); (1, 1%Z)].
Proof.
  exists (fun _ x => if Z.eqb x 7 then 1%Z else 0%Z), 3, [1; 7]%Z. cbn. repeat split; [auto | intros _; discriminate].
Qed.
Print Assumptions C26_retry_index_refuted.
Example C26_applies : job_monitor (fun r x => if Z.eqb x 1 then 5%Z else if Z.eqb x 2 && Nat.eqb r 0 then 3%Z else 0%Z) 3 [0; 1; 2]%Z =
  (Ok [1%Z], [(0, 0%Z); (0, 1%Z); (0, 2%Z); (1, 1%Z); (1, 2%Z); (2, 1%Z)]).
Proof. reflexivity. Qed.

(** * C27 *)
(** the returned indices are those of the first and the last channel in range: channel [k] is in
    range iff [i <= k <= j] *)
Theorem C27_channels : forall freqs fmin fmax be i j, ascending freqs -> spw_range freqs fmin fmax be = Ok (Some (i, j)) ->
  i <= j < length freqs /\ forall k f, nth_error freqs k = Some f -> (i <= k <= j <-> (fmin <= f < fmax)%Z).
Proof. exact spw_range_spec. Qed.
Print Assumptions C27_channels.
Theorem C27_none : forall freqs fmin fmax be, spw_range freqs fmin fmax be = Ok None -> forall f, In f freqs -> ~ (fmin <= f < fmax)%Z.
Proof. exact spw_range_none. Qed.
Theorem C27_errors : forall freqs fmin fmax, freqs <> [] ->
  ((exists e, spw_range freqs fmin fmax true = Err e) <->
   (fmax < fmin)%Z \/ (forall f, In f freqs -> (fmin < f)%Z) \/ (forall f, In f freqs -> (f < fmax)%Z)).
Proof. exact spw_range_errors. Qed.
Print Assumptions C27_errors.
(** used as a slice, the range always loses the last requested channel *)
Theorem C27_empty : forall fmin fmax be, spw_range [] fmin fmax be = Err ValueError.
Proof. intros. unfold spw_range. destruct (fmax <? fmin)%Z; reflexivity. Qed.
Theorem C27_slice_refuted : forall freqs fmin fmax be i j, ascending freqs -> spw_range freqs fmin fmax be = Ok (Some (i, j)) ->
  exists f, nth_error freqs j = Some f /\ (fmin <= f < fmax)%Z /\ ~ In f (slice i j freqs).
Proof.
  intros freqs fmin fmax be i j A H. destruct (spw_range_spec freqs fmin fmax be i j A H) as [[H1 H2] H3].
  destruct (nth_error_lt freqs j H2) as [f Hf]. exists f. split; [exact Hf|]. split; [apply (H3 j f Hf); lia|].
  intro C. unfold slice in C. apply In_nth_error in C. destruct C as [k Hk].
  assert (Hk' : nth_error (firstn j freqs) (i + k) = Some f).
  { clear -Hk. revert Hk. generalize (firstn j freqs) as l. induction i as [|i IH]; intros l Hk; [exact Hk|]. destruct l; [rewrite skipn_nil in Hk; destruct k; discriminate|]. cbn. apply IH, Hk. }
  assert (Lk : i + k < j). { apply nth_error_Some_lt in Hk'. rewrite firstn_length in Hk'. lia. }
  assert (Hk2 : nth_error freqs (i + k) = Some f).
  { rewrite <- (firstn_skipn j freqs), nth_error_app1; [exact Hk'|]. rewrite firstn_length. lia. }
  pose proof (A (i + k) j f f Hk2 Hf Lk). lia.
Qed.
Print Assumptions C27_slice_refuted.
Example C27_applies : spw_range [100; 110; 120; 130; 140]%Z 110 131 true = Ok (Some (1, 3)) /\
  slice 1 3 [100; 110; 120; 130; 140]%Z = [110; 120]%Z /\ spw_range [100; 110]%Z 101 105 true = Ok None /\ spw_range [100; 110]%Z 90 105 true = Err ValueError.
Proof. repeat split. Qed.
Example C27_ascending : ascending [100; 110; 120; 130; 140]%Z.
Proof.
  intros i j fi fj Hi Hj L.
  repeat (destruct i as [|i]; [cbn in Hi; injection Hi as <-; repeat (destruct j as [|j]; [cbn in Hj; first [lia | injection Hj as <-; lia]|]); destruct j; discriminate|]).
  destruct i; discriminate.
Qed.

(** * C47: calc_blpair_reds *)
(** an antenna is excluded iff every baseline of the data set that contains it (and counts) has too much flagged *)
Theorem C47_excluded : forall ants bls good autos crosses a,
  In a (xants_of ants bls good autos crosses) <->
  In a ants /\ forall b, In b bls -> (fst b = a \/ snd b = a) -> good b = true ->
     (fst b = snd b -> autos = false) /\ (fst b <> snd b -> crosses = false).
Proof. exact xants_of_spec. Qed.
Print Assumptions C47_excluded.
Theorem C47_drop : forall (T : Type) xants (reds : list (list bl * T)) r t b,
  In (r, t) (drop_ants xants reds) -> In b r -> ~ In (fst b) xants /\ ~ In (snd b) xants /\ exists r0, In (r0, t) reds /\ In b r0.
Proof.
  intros T xants reds r t b H Hb. apply drop_ants_spec in H. destruct H as [_ [r0 [H ->]]]. apply filter_In in Hb. destruct Hb as [Hb C].
  rewrite andb_true_iff, !negb_true_iff in C. destruct C as [C1 C2]. split; [|split; [|eauto]]; intro I; apply memZ_In in I; congruence.
Qed.
Print Assumptions C47_drop.
(** the pairs: exactly the requested pairs of every group whose baselines are in the data, each
    once, and the group numbers are aligned with them *)
Theorem C47_pairs : forall data ea ec ep reds, ea && ec = false -> (forall r, In r reds -> r <> [] /\ NoDup r) ->
  exists pjs, calc_pairs data ea ec ep reds = Ok (map fst pjs, map snd pjs) /\ NoDup pjs /\
    forall a b j, In ((a, b), j) pjs <-> exists r, nth_error reds j = Some r /\
      In a r /\ In b r /\ (ea = true -> a <> b) /\ (ec = true -> a = b) /\ (ep = true -> a = b \/ before a b r) /\
      match data with None => True | Some (d1, d2) => (In a d1 \/ In (flip a) d1) /\ (In b d2 \/ In (flip b) d2) end.
Proof. exact calc_pairs_spec. Qed.
Print Assumptions C47_pairs.
Theorem C47_grouped : forall data ea ec ep n reds ps js, (0 < n)%Z -> calc_pairs data ea ec ep reds = Ok (ps, js) ->
  exists gps gjs, calc_pairs_grouped data ea ec ep n reds = Ok (gps, gjs) /\ concat gps = ps /\ concat gjs = js /\
    map (@length _) gps = map (@length _) gjs /\ (forall g, In g gps -> 1 <= length g <= Z.to_nat n).
Proof. exact calc_pairs_grouped_spec. Qed.
Print Assumptions C47_grouped.
Example C47_applies :
  calc_pairs (Some ([(2, 1); (2, 3)], [(1, 2); (2, 3); (3, 4)])%Z) true false true [[(1, 2); (2, 3)]; [(1, 3); (3, 4)]]%Z
    = Ok ([((1, 2), (2, 3))]%Z, [0])
  /\ xants_of [1; 2; 3]%Z [(1, 2); (1, 3); (3, 3)]%Z (fun b => Z.eqb (snd b) 2 || Z.eqb (fst b) 3) false true = [3%Z].
Proof. split; reflexivity. Qed.

(** * C48: order of the groups *)
(** utils.py:1053 [f"{bl_len:03.0f}_{bl_ang:03.0f}"] for the rounded length and angle, as character codes *)
Definition pad3 (n : Z) : list Z := map (Z.add 48) (repeat 0%Z (3 - length (digits n)) ++ digits n).
Definition tag (len ang : Z) : list Z := pad3 len ++ [95%Z] ++ pad3 ang.
Lemma pad3_small n : (0 <= n < 1000)%Z -> pad3 n = [48 + n / 100; 48 + n / 10 mod 10; 48 + n mod 10]%Z.
Proof.
  intro H. assert (C : forallb (fun k => if list_eq_dec Z.eq_dec (pad3 (Z.of_nat k)) [48 + Z.of_nat k / 100; 48 + Z.of_nat k / 10 mod 10; 48 + Z.of_nat k mod 10]%Z then true else false) (seq 0 1000) = true) by (vm_compute; reflexivity).
  rewrite forallb_forall in C. specialize (C (Z.to_nat n)). rewrite Z2Nat.id in C by lia.
  assert (I : In (Z.to_nat n) (seq 0 1000)) by (apply in_seq; lia). specialize (C I).
  destruct (list_eq_dec Z.eq_dec (pad3 n) _) as [E|]; [exact E | discriminate].
Qed.
(** lengths below 1000 m: groups sorted by tag are sorted by (rounded) length *)
Theorem C48_ascending : forall groups : list (Z * Z), (forall l a, In (l, a) groups -> (0 <= l < 1000)%Z) ->
  StronglySorted (fun x y => lex_leb x y = true) (map (fun g => tag (fst g) (snd g)) groups) ->
  StronglySorted Z.le (map fst groups).
Proof.
  induction groups as [|[l a] gs IH]; intros H S; cbn [map fst snd] in *; [constructor|].
  apply StronglySorted_inv in S. destruct S as [S F]. constructor; [apply IH; [intros; eapply H; right; eassumption | exact S]|].
  rewrite Forall_forall in *. intros l' Hl. apply in_map_iff in Hl. destruct Hl as [[l2 a2] [<- Hg]]. cbn [fst].
  assert (T : lex_leb (tag l a) (tag l2 a2) = true) by (apply F, in_map_iff; exists (l2, a2); split; [reflexivity | exact Hg]).
  pose proof (H l a (or_introl eq_refl)) as B1. pose proof (H l2 a2 (or_intror Hg)) as B2.
  unfold tag in T. rewrite (pad3_small l), (pad3_small l2) in T by lia. cbn [app lex_leb] in T.
  assert (D1 : (l = 100 * (l / 100) + 10 * (l / 10 mod 10) + l mod 10 /\ 0 <= l / 10 mod 10 < 10 /\ 0 <= l mod 10 < 10)%Z).
  { pose proof (Z.div_mod l 10 ltac:(lia)). pose proof (Z.mod_pos_bound l 10 ltac:(lia)). pose proof (Z.div_mod (l / 10) 10 ltac:(lia)). pose proof (Z.mod_pos_bound (l / 10) 10 ltac:(lia)).
    rewrite Z.div_div in H2 by lia. change (10 * 10)%Z with 100%Z in H2. lia. }
  assert (D2 : (l2 = 100 * (l2 / 100) + 10 * (l2 / 10 mod 10) + l2 mod 10 /\ 0 <= l2 / 10 mod 10 < 10 /\ 0 <= l2 mod 10 < 10)%Z).
  { pose proof (Z.div_mod l2 10 ltac:(lia)). pose proof (Z.mod_pos_bound l2 10 ltac:(lia)). pose proof (Z.div_mod (l2 / 10) 10 ltac:(lia)). pose proof (Z.mod_pos_bound (l2 / 10) 10 ltac:(lia)).
    rewrite Z.div_div in H2 by lia. change (10 * 10)%Z with 100%Z in H2. lia. }
  apply orb_true_iff in T. destruct T as [T|T]; [apply Z.ltb_lt in T; lia|]. apply andb_true_iff in T. destruct T as [T0 T]. apply Z.eqb_eq in T0.
  apply orb_true_iff in T. destruct T as [T|T]; [apply Z.ltb_lt in T; lia|]. apply andb_true_iff in T. destruct T as [T1 T]. apply Z.eqb_eq in T1.
  apply orb_true_iff in T. destruct T as [T|T]; [apply Z.ltb_lt in T; lia|]. apply andb_true_iff in T. destruct T as [T2 T]. apply Z.eqb_eq in T2. lia.
Qed.
Print Assumptions C48_ascending.
(** a 1000 m baseline is listed before a 999 m one *)
Theorem C48_long_baselines_refuted : StronglySorted (fun x y => lex_leb x y = true) (map (fun g => tag (fst g) (snd g)) [(1000, 0); (999, 0)]%Z) /\
  ~ StronglySorted Z.le (map fst [(1000, 0); (999, 0)]%Z).
Proof.
  split; [repeat constructor|]. intro S. apply StronglySorted_inv in S. destruct S as [_ F]. rewrite Forall_forall in F. specialize (F 999%Z (or_introl eq_refl)). cbn in F. lia.
Qed.
Print Assumptions C48_long_baselines_refuted.
Example C48_applies : StronglySorted (fun x y => lex_leb x y = true) (map (fun g => tag (fst g) (snd g)) [(14, 60); (15, 0); (102, 7)]%Z) /\ tag 14 60 = [48; 49; 52; 95; 48; 54; 48]%Z.
Proof. split; [repeat constructor | reflexivity]. Qed.

(** * C49: uvd_time_difference *)
(** only times that follow each other directly are subtracted, whatever time difference is asked for *)
Theorem C49_adjacent : forall times ratio ps, diff_times times ratio = Ok ps ->
  exists k, 1 <= k /\ forall i a b, nth_error ps i = Some (a, b) <-> nth_error times (i * k) = Some a /\ nth_error times (i * k + 1) = Some b.
Proof. exact diff_times_spec. Qed.
Print Assumptions C49_adjacent.
(** asked for a difference of three steps, it subtracts times one step apart *)
Theorem C49_requested_separation_refuted : diff_times [0; 10; 20; 30; 40; 50]%Z 2 = Ok [(0, 10); (30, 40)]%Z.
Proof. reflexivity. Qed.
Print Assumptions C49_requested_separation_refuted.
Theorem C49_two_times : forall a b ratio, diff_times [a; b] ratio = Err ValueError.
Proof. intros a b ratio. unfold diff_times. cbn [length]. replace (2 - 2 <? ratio + 1) with true; [reflexivity|]. symmetry. apply Nat.ltb_lt. lia. Qed.
