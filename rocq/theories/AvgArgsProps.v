(** The groups that [average_spectra] reads from its argument (C375-C378). *)
From Coq Require Import ZArith Permutation.
From Coq Require Import Reals.
From Verif Require Import Prelude UvpModel UvpProofs KeyProofs BlCodecModel BlCodecProps PlotModel AvgModel AvgArgsModel.
Open Scope nat_scope.

(** ** how a baseline-pair and a list of groups can be written *)
(** a tuple or a list (or array) of these items *)
Definition seq_of (v : pv) (l : list pv) : Prop := v = PTup l \/ v = PList l.
(** ((a, b), (c, d)), the inner pairs possibly lists *)
Definition by_ants (v : pv) (p : blpair_ants) : Prop :=
  exists x y, v = PTup [x; y] /\ seq_of x [PInt (fst (fst p)); PInt (snd (fst p))] /\ seq_of y [PInt (fst (snd p)); PInt (snd (snd p))].
(** a group of baseline-pairs by antenna numbers, and one by integers *)
Definition group_by_ants (g : pv) (ps : list blpair_ants) : Prop := exists es, seq_of g es /\ Forall2 by_ants es ps.
Definition group_by_ints (g : pv) (zs : list Z) : Prop := seq_of g (map PInt zs).
(** a baseline-pair that an object can hold (C01) *)
Definition encodes (b : Z) : Prop := exists a1 a2 a3 a4 : Z,
  (0 <= a1 < 900 /\ 0 <= a2 < 900 /\ 0 <= a3 < 900 /\ 0 <= a4 < 900)%Z /\ b = antnums_to_blpair ((a1, a2), (a3, a4)).

Lemma Forall2_len {A B} (P : A -> B -> Prop) l l' : Forall2 P l l' -> List.length l = List.length l'.
Proof. induction 1; cbn; congruence. Qed.
Lemma items_seq v l : seq_of v l -> items v = Some l.
Proof. intros [-> | ->]; reflexivity. Qed.
Lemma norm_groups_seq l ess : Forall2 (fun g es => seq_of g es) l ess -> norm_groups l = if forallb (fun es => negb (Nat.eqb (List.length es) 0)) ess then Ok ess else Err ValueError.
Proof.
  induction 1 as [|g es l ess H F IH]; [reflexivity|]. cbn [norm_groups forallb]. rewrite (items_seq _ _ H).
  destruct es as [|e es]; [reflexivity|]. cbn [List.length Nat.eqb negb andb]. rewrite IH. destruct (forallb _ ess); reflexivity.
Qed.
Lemma by_ants_value v p : by_ants v p -> value_to_blpair v = Ok (antnums_to_blpair p).
Proof.
  intros (x & y & -> & Hx & Hy). destruct p as [[a b] [c d]]. cbn [fst snd] in *. unfold value_to_blpair, antenna, subscript. cbn [items nth_error bind].
  rewrite (items_seq _ _ Hx), (items_seq _ _ Hy). reflexivity.
Qed.
Lemma map_res_app {A B} (f : A -> result B) l1 l2 : map_res f (l1 ++ l2) = bind (map_res f l1) (fun r1 => bind (map_res f l2) (fun r2 => Ok (r1 ++ r2))).
Proof.
  induction l1 as [|a l1 IH]; cbn [map_res app bind]; [destruct (map_res f l2); reflexivity|].
  rewrite IH. destruct (f a); [|reflexivity]. cbn [bind]. destruct (map_res f l1); [|reflexivity]. cbn [bind]. destruct (map_res f l2); reflexivity.
Qed.
Lemma uvp_blpairs_id barr : Forall encodes barr -> uvp_blpairs barr = ordered_unique [] barr.
Proof.
  intro F. unfold uvp_blpairs. rewrite <- map_id. apply map_ext_in. intros b Hb. apply ordered_unique_spec in Hb. destruct Hb as [Hb _].
  rewrite Forall_forall in F. destruct (F b Hb) as (a1 & a2 & a3 & a4 & (R1 & R2 & R3 & R4) & ->).
  destruct (C01_codec_round_trip a1 a2 a3 a4 R1 R2 R3 R4) as [-> _]. reflexivity.
Qed.
Lemma memZ_unique z barr : memZ z (ordered_unique [] barr) = memZ z barr.
Proof.
  destruct (memZ z barr) eqn:E.
  - apply memZ_In. apply ordered_unique_spec. apply memZ_In in E. split; [exact E | intros []].
  - destruct (memZ z (ordered_unique [] barr)) eqn:E'; [|reflexivity]. apply memZ_In in E'. apply ordered_unique_spec in E'. destruct E' as [E' _].
    apply memZ_In in E'. congruence.
Qed.
Lemma entry_ints_map l : entry_ints (map PInt l) = l.
Proof. induction l; cbn; congruence. Qed.
Lemma entry_ints_In z l : In z (entry_ints l) <-> In (PInt z) l.
Proof.
  induction l as [|v l IH]; [cbn; tauto|]. destruct v; cbn [entry_ints In]; rewrite IH; [|intuition discriminate..].
  split; [intros [->|]; auto | intros [[= ->]|]; auto].
Qed.
Lemma concat_ints zss : concat (map (map PInt) zss) = map PInt (concat zss).
Proof. symmetry. apply concat_map. Qed.
Lemma hashable_ints l : forallb hashable (map PInt l) = true.
Proof. induction l; cbn; auto. Qed.
Lemma first_is_tuple_ints zss : first_is_tuple (map (map PInt) zss) = false.
Proof. destruct zss as [|[|z zs] zss]; reflexivity. Qed.

(** ** C375: either way of writing the groups *)

(** Groups written with antenna numbers are those written with the integers of the baseline-pairs: lists or tuples, accepted or refused. *)
Theorem groups_by_antennas : forall barr ew order hw v l pss, seq_of v l -> Forall2 group_by_ants l pss ->
  read_groups barr ew order (Some v) hw =
  read_groups barr ew order (Some (PList (map (fun ps => PList (map (fun p => PInt (antnums_to_blpair p)) ps)) pss))) hw.
Proof.
  intros barr ew order hw v l pss Hv H. unfold read_groups, normalize_grouped_input. rewrite (items_seq _ _ Hv). cbn [items].
  assert (X : exists ess, Forall2 (fun g es => seq_of g es) l ess /\ Forall2 (Forall2 by_ants) ess pss).
  { clear -H. induction H as [|g ps l pss (es & H1 & H2) H IH]; [exists []; split; constructor|]. destruct IH as (ess & I1 & I2). exists (es :: ess). split; constructor; assumption. }
  destruct X as (ess & F1 & F2). rewrite (norm_groups_seq _ _ F1).
  set (iss := map (fun ps : list blpair_ants => map (fun p => PInt (antnums_to_blpair p)) ps) pss).
  assert (F3 : Forall2 (fun g es => seq_of g es) (map (fun ps : list blpair_ants => PList (map (fun p => PInt (antnums_to_blpair p)) ps)) pss) iss).
  { unfold iss. clear. induction pss; constructor; [right; reflexivity | assumption]. }
  rewrite (norm_groups_seq _ _ F3).
  assert (E : forallb (fun es : list pv => negb (Nat.eqb (List.length es) 0)) iss = forallb (fun es : list pv => negb (Nat.eqb (List.length es) 0)) ess).
  { unfold iss. clear -F2. induction F2 as [|es ps ess pss Hh F IH]; [reflexivity|]. cbn [map forallb]. rewrite IH, map_length, (Forall2_len _ _ _ Hh). reflexivity. }
  rewrite E. destruct (forallb _ ess) eqn:N; [|reflexivity]. cbn [bind].
  assert (C : convert ess = Ok iss).
  { unfold convert. assert (M : map_res (map_res (fun v => bind (value_to_blpair v) (fun z => Ok (PInt z)))) ess = Ok iss).
    { unfold iss. clear -F2. induction F2 as [|es ps ess pss Hh F IH]; [reflexivity|]. cbn [map map_res]. rewrite IH.
      assert (M : map_res (fun v => bind (value_to_blpair v) (fun z => Ok (PInt z))) es = Ok (map (fun p => PInt (antnums_to_blpair p)) ps)).
      { clear -Hh. induction Hh as [|e p es ps He Hh IH]; [reflexivity|]. cbn [map map_res]. rewrite (by_ants_value _ _ He), IH. reflexivity. }
      rewrite M. reflexivity. }
    destruct (first_is_tuple ess) eqn:T; [exact M|]. destruct F2 as [|es ps ess pss Hh F]; [reflexivity|].
    exfalso. destruct Hh as [|e p es ps He Hh]; [discriminate N|]. destruct He as (x & y & -> & _). discriminate T. }
  rewrite C. cbn [bind]. assert (C' : convert iss = Ok iss).
  { unfold convert. assert (T : first_is_tuple iss = false) by (unfold iss; destruct pss as [|[|p ps] pss]; reflexivity). rewrite T. reflexivity. }
  rewrite C'. reflexivity.
Qed.

(** Groups written with integers are the groups averaged (AvgModel.v), or refused with the same error *)
Theorem groups_by_integers : forall (u : uvp R) ew order hw v l zss, Forall encodes (u_blpair_array u) ->
  seq_of v l -> Forall2 group_by_ints l zss ->
  read_groups (u_blpair_array u) ew order (Some v) hw =
  bind (effective_groups u ew order zss None) (fun gs => Ok (map (fun g => map PInt (fst g)) gs)).
Proof.
  intros u ew order hw v l zss En Hv H. unfold read_groups, normalize_grouped_input, effective_groups. rewrite (items_seq _ _ Hv).
  assert (F : Forall2 (fun g es => seq_of g es) l (map (map PInt) zss)) by (clear -H; induction H; constructor; assumption).
  rewrite (norm_groups_seq _ _ F).
  assert (E1 : forallb (fun es : list pv => negb (Nat.eqb (List.length es) 0)) (map (map PInt) zss) = forallb (fun g : list Z => negb (Nat.eqb (List.length g) 0)) zss).
  { clear. induction zss; [reflexivity|]. cbn. rewrite map_length. congruence. }
  rewrite E1. destruct (forallb (fun g : list Z => negb (Nat.eqb (List.length g) 0)) zss) eqn:N; [|reflexivity]. cbn [require bind].
  unfold convert. rewrite first_is_tuple_ints. cbn [bind].
  assert (E2 : forallb (known_first (u_blpair_array u)) (map (map PInt) zss) = forallb (fun g => memZ (hd 0%Z g) (u_blpair_array u)) zss).
  { clear -N En. induction zss as [|g zss IH]; [reflexivity|]. cbn [forallb] in N. apply andb_true_iff in N. destruct N as [N1 N2].
    cbn [map forallb]. rewrite IH by exact N2. f_equal. destruct g as [|z g]; [discriminate|]. cbn [map known_first hd].
    rewrite (uvp_blpairs_id _ En). apply memZ_unique. }
  rewrite E2. clear N. destruct (forallb (fun g => memZ (hd 0%Z g) (u_blpair_array u)) zss); [|reflexivity]. cbn [require bind]. rewrite map_length.
  destruct (negb _); [|reflexivity]. cbn [require bind]. rewrite concat_ints, hashable_ints, entry_ints_map. cbn [require bind]. f_equal.
  set (extra := if ew then [] else order _).
  assert (M : forall gs : list (list Z), map (fun g => map PInt (fst g)) (combine gs (map (fun g : list Z => map (fun _ => 1%R) g) gs)) = map (map PInt) gs)
    by (induction gs; cbn; congruence).
  assert (X : map (fun g : list Z => map (fun _ => 1%R) g) zss ++ map (fun _ => [1%R]) extra = map (fun g : list Z => map (fun _ => 1%R) g) (zss ++ map (fun b => [b]) extra)).
  { rewrite map_app, map_map. reflexivity. }
  rewrite X, M, map_app, map_map. f_equal. unfold extra. destruct ew; reflexivity.
Qed.

(** Without groups, each baseline-pair of the object is a group of its own, in order of first appearance; weights are then refused *)
Theorem groups_not_given : forall barr ew order, (forall l, Permutation (order l) l) ->
  read_groups barr ew order None true = Err ValueError /\ read_groups barr ew order None false = Ok (map (fun b => [PInt b]) (ordered_unique [] barr)).
Proof.
  intros barr ew order Ho. split; [reflexivity|]. unfold read_groups. cbn [bind].
  assert (C : concat (map (fun b => [PInt b]) (ordered_unique [] barr)) = map PInt (ordered_unique [] barr)).
  { generalize (ordered_unique [] barr). induction l; cbn; congruence. }
  rewrite C, hashable_ints, entry_ints_map. cbn [require]. f_equal. rewrite <- (app_nil_r (map _ _)) at 2. f_equal.
  destruct ew; [reflexivity|].
  assert (G : forall l l' : list Z, incl l' l -> filter (fun b => negb (memZ b l)) l' = []).
  { intros l l'. induction l' as [|a l' IH]; intro I; [reflexivity|]. cbn [filter]. assert (A : memZ a l = true) by (apply memZ_In, I; left; reflexivity).
    rewrite A. cbn [negb]. apply IH. intros x Hx. apply I. right. exact Hx. }
  rewrite G by apply incl_refl. rewrite (Permutation_nil (Permutation_sym (Ho []))). reflexivity.
Qed.

(** ** C376: every baseline-pair of the object is averaged *)

(** Groups in which no baseline-pair is named twice, of baseline-pairs of the object: each of its baseline-pairs is in exactly one of the groups that
    are averaged, and these are the groups given, followed by single baseline-pairs; with exact windows there are only the groups given. *)
Theorem groups_partition : forall (u : uvp R) order v l zss, Forall encodes (u_blpair_array u) -> (forall l, Permutation (order l) l) ->
  seq_of v l -> Forall2 group_by_ints l zss -> zss <> [] -> (forall g, In g zss -> g <> []) -> NoDup (concat zss) -> incl (concat zss) (u_blpair_array u) ->
  read_groups (u_blpair_array u) true order (Some v) false = Ok (map (map PInt) zss) /\
  exists rest, read_groups (u_blpair_array u) false order (Some v) false = Ok (map (map PInt) (zss ++ map (fun b => [b]) rest)) /\
    NoDup (concat (zss ++ map (fun b => [b]) rest)) /\ forall b, In b (concat (zss ++ map (fun b => [b]) rest)) <-> In b (u_blpair_array u).
Proof.
  intros u order v l zss En Ho Hv H Nz Ng Nd In_.
  assert (A1 : forallb (fun g : list Z => negb (Nat.eqb (List.length g) 0)) zss = true).
  { apply forallb_forall. intros g Hg. specialize (Ng g Hg). destruct g; [congruence | reflexivity]. }
  assert (A2 : forallb (fun g => memZ (hd 0%Z g) (u_blpair_array u)) zss = true).
  { apply forallb_forall. intros g Hg. apply memZ_In, In_. apply in_concat. exists g. split; [exact Hg|]. specialize (Ng g Hg). destruct g; [congruence | left; reflexivity]. }
  assert (A3 : negb (Nat.eqb (List.length zss) 0) = true) by (destruct zss; [congruence | reflexivity]).
  assert (M : forall gs : list (list Z), map (fun g => map PInt (fst g)) (combine gs (map (fun g : list Z => map (fun _ => 1%R) g) gs)) = map (map PInt) gs)
    by (induction gs; cbn; congruence).
  assert (X : forall extra, map (fun g : list Z => map (fun _ => 1%R) g) zss ++ map (fun _ : Z => [1%R]) extra = map (fun g : list Z => map (fun _ => 1%R) g) (zss ++ map (fun b => [b]) extra)).
  { intro extra. rewrite map_app, map_map. reflexivity. }
  split.
  - rewrite (groups_by_integers u true order false v l zss En Hv H). unfold effective_groups. rewrite A1, A2, A3. cbn [require bind].
    rewrite X, M. cbn [map]. rewrite app_nil_r. reflexivity.
  - rewrite (groups_by_integers u false order false v l zss En Hv H). unfold effective_groups. rewrite A1, A2, A3. cbn [require bind].
    rewrite X, M. set (rest := order _). exists rest. split; [reflexivity|].
    assert (R : forall b, In b rest <-> In b (u_blpair_array u) /\ ~ In b (concat zss)).
    { intro b. unfold rest. transitivity (In b (filter (fun b => negb (memZ b (concat zss))) (ordered_unique [] (u_blpair_array u)))).
      - split; intro I; [exact (Permutation_in _ (Ho _) I) | exact (Permutation_in _ (Permutation_sym (Ho _)) I)].
      - rewrite filter_In. destruct (ordered_unique_spec [] (u_blpair_array u)) as [-> _]. rewrite negb_true_iff. rewrite <- (memZ_In b (concat zss)).
        destruct (memZ b (concat zss)); cbn; intuition congruence. }
    assert (C : concat (map (fun b => [b]) rest) = rest) by (generalize rest; induction rest0; cbn; congruence).
    rewrite concat_app, C. split.
    + assert (Nr : NoDup rest).
      { apply (Permutation_NoDup (Permutation_sym (Ho _))). apply NoDup_filter, ordered_unique_spec. }
      clear -Nd Nr R. revert Nd R. generalize (concat zss) as z. induction z as [|a z IH]; intros Nd R; [exact Nr|]. inversion Nd; subst. cbn [app]. constructor.
      * intro I. apply in_app_or in I. destruct I as [I|I]; [contradiction|]. apply R in I. apply (proj2 I). left; reflexivity.
      * apply NoDup_app; [assumption..|]. intros x Hx Hr. apply R in Hr. apply (proj2 Hr). right. exact Hx.
    + intro b. rewrite in_app_iff, R. split; [intros [I|I]; [apply In_, I | apply I]|].
      intro I. destruct (in_dec Z.eq_dec b (concat zss)); [left | right]; auto.
Qed.

(** ** C377: what is refused *)

(** A group that is not a sequence is a TypeError and an empty one a ValueError, whichever comes first; a list of baseline-pairs that are not in groups, as
    integers or as tuples, is a TypeError; no groups at all are an IndexError; a group whose first baseline-pair the object does not have is a ValueError. *)
Theorem groups_refused : forall barr ew order hw v,
  ((forall l, ~ seq_of v l) -> read_groups barr ew order (Some v) hw = Err TypeError) /\
  (forall good g rest, seq_of v (good ++ g :: rest) -> Forall (fun x => exists es, seq_of x es /\ es <> []) good ->
     ((forall es, ~ seq_of g es) -> read_groups barr ew order (Some v) hw = Err TypeError) /\
     (seq_of g [] -> read_groups barr ew order (Some v) hw = Err ValueError)) /\
  (forall a b c d l, seq_of v (PTup [PTup [PInt a; PInt b]; PTup [PInt c; PInt d]] :: l) ->
     Forall (fun x => exists p q, x = PTup [p; q]) l -> read_groups barr ew order (Some v) hw = Err TypeError) /\
  (seq_of v [] -> read_groups barr ew order (Some v) hw = Err IndexError) /\
  (forall l zss z zs, Forall encodes barr -> seq_of v l -> Forall2 group_by_ints l zss -> (forall g, In g zss -> g <> []) -> In (z :: zs) zss -> ~ In z barr ->
     read_groups barr ew order (Some v) hw = Err ValueError).
Proof.
  intros barr ew order hw v. split; [|split; [|split; [|split]]].
  - intro N. unfold read_groups, normalize_grouped_input. destruct v as [z|l|l|]; try reflexivity; exfalso; apply (N l); first [left; reflexivity | right; reflexivity].
  - intros good g rest Hv F. unfold read_groups, normalize_grouped_input. rewrite (items_seq _ _ Hv).
    assert (P : (items g = None -> norm_groups (good ++ g :: rest) = Err TypeError) /\ (items g = Some [] -> norm_groups (good ++ g :: rest) = Err ValueError)).
    { clear Hv. induction F as [|x good (es & Hx & Ne) F IH]; cbn [app norm_groups]; [split; intros ->; reflexivity|]. rewrite (items_seq _ _ Hx).
      destruct es; [congruence|]. destruct IH as [I1 I2]; split; intro E; [rewrite (I1 E) | rewrite (I2 E)]; reflexivity. }
    destruct P as [P1 P2]. split; intro E.
    + rewrite P1; [reflexivity|]. destruct g as [z|l|l|]; try reflexivity; exfalso; apply (E l); first [left; reflexivity | right; reflexivity].
    + rewrite P2 by exact (items_seq _ _ E). reflexivity.
  - intros a b c d l Hv F. unfold read_groups, normalize_grouped_input. rewrite (items_seq _ _ Hv).
    assert (N : exists gs, norm_groups l = Ok gs). { clear Hv. induction F as [|x l (p & q & ->) F IH]; [exists []; reflexivity|]. destruct IH as [gs E]. cbn. rewrite E. eexists; reflexivity. }
    destruct N as [gs N]. cbn [norm_groups items]. rewrite N. reflexivity.
  - intros Hv. unfold read_groups, normalize_grouped_input. rewrite (items_seq _ _ Hv). reflexivity.
  - intros l zss z zs En Hv H Ng I N. unfold read_groups, normalize_grouped_input. rewrite (items_seq _ _ Hv).
    assert (F : Forall2 (fun g es => seq_of g es) l (map (map PInt) zss)) by (clear -H; induction H; constructor; assumption).
    rewrite (norm_groups_seq _ _ F). destruct (forallb _ (map (map PInt) zss)); [|reflexivity]. cbn [bind]. unfold convert. rewrite first_is_tuple_ints. cbn [bind].
    assert (E : forallb (known_first barr) (map (map PInt) zss) = false).
    { clear -I N En. induction zss as [|g zss IH]; [destruct I|]. cbn [map forallb]. destruct I as [->|I]; [|rewrite (IH I); apply andb_false_r].
      cbn [map known_first]. rewrite (uvp_blpairs_id _ En), memZ_unique. assert (M : memZ z barr = false) by (destruct (memZ z barr) eqn:E; [apply memZ_In in E; contradiction | reflexivity]). rewrite M. reflexivity. }
    rewrite E. reflexivity.
Qed.

(** ** C378: both ways of writing in one call *)

(** Claimed: each baseline-pair can be written in either way. Of the code: if the first one of all is written with antenna numbers and another one as an
    integer, a TypeError; if the first of all is an integer, and the first one of another group is not, a ValueError; if all groups start with an integer,
    the others are left as they are written, and a baseline-pair written with antenna numbers only counts as being in no group. *)
Theorem groups_mixed_refuted : forall barr ew order hw v l ess, Forall encodes barr -> (forall l, Permutation (order l) l) ->
  seq_of v l -> Forall2 (fun g es => seq_of g es /\ es <> []) l ess ->
  Forall (Forall (fun e => (exists z, e = PInt z) \/ exists a b c d, e = PTup [PTup [PInt a; PInt b]; PTup [PInt c; PInt d]])) ess ->
  (forall x y es ess', ess = (PTup [x; y] :: es) :: ess' -> (exists z, In (PInt z) (concat ess)) -> read_groups barr ew order (Some v) hw = Err TypeError) /\
  (forall z es ess', ess = (PInt z :: es) :: ess' ->
     ((exists t es', In (PTup t :: es') ess') -> read_groups barr ew order (Some v) hw = Err ValueError) /\
     ((forall g, In g ess -> exists z es', g = PInt z :: es' /\ In z barr) ->
        exists rest, read_groups barr false order (Some v) hw = Ok (ess ++ map (fun b => [PInt b]) rest) /\
          forall b, In b rest <-> In b barr /\ ~ In (PInt b) (concat ess))).
Proof.
  intros barr ew order hw v l ess En Ho Hv H Fe.
  assert (NG : norm_groups l = Ok ess).
  { rewrite (norm_groups_seq l ess); [|clear -H; induction H as [|? ? ? ? [H1 _] H IH]; constructor; assumption].
    assert (E : forallb (fun es : list pv => negb (Nat.eqb (List.length es) 0)) ess = true); [|rewrite E; reflexivity].
    clear -H. induction H as [|g es l ess [_ N] H IH]; [reflexivity|]. cbn. rewrite IH. destruct es; [congruence | reflexivity]. }
  assert (HS : forallb hashable (concat ess) = true).
  { clear -Fe. apply forallb_forall. intros e He. apply in_concat in He. destruct He as (es & I1 & I2). rewrite Forall_forall in Fe. specialize (Fe es I1).
    rewrite Forall_forall in Fe. destruct (Fe e I2) as [[z ->]|(a & b & c & d & ->)]; reflexivity. }
  split.
  - intros x y es ess' E (z & Hz). unfold read_groups, normalize_grouped_input. rewrite (items_seq _ _ Hv), NG. cbn [bind].
    assert (T : first_is_tuple ess = true) by (rewrite E; reflexivity). unfold convert. rewrite T.
    set (f := fun v0 : pv => bind (value_to_blpair v0) (fun z => Ok (PInt z))).
    assert (G : forall gs : list (list pv), Forall (Forall (fun e => (exists z, e = PInt z) \/ exists a b c d, e = PTup [PTup [PInt a; PInt b]; PTup [PInt c; PInt d]])) gs ->
       In (PInt z) (concat gs) -> map_res (map_res f) gs = Err TypeError).
    { assert (K : forall g : list pv, Forall (fun e => (exists z, e = PInt z) \/ exists a b c d, e = PTup [PTup [PInt a; PInt b]; PTup [PInt c; PInt d]]) g ->
         (In (PInt z) g -> map_res f g = Err TypeError) /\ (map_res f g = Err TypeError \/ exists r, map_res f g = Ok r)).
      { induction 1 as [|e g He F IH]; [split; [intros [] | right; exists []; reflexivity]|]. cbn [map_res].
        destruct He as [[w ->]|(a & b & c & d & ->)].
        - split; [reflexivity | left; reflexivity].
        - change (f (PTup [PTup [PInt a; PInt b]; PTup [PInt c; PInt d]])) with (Ok (PInt (antnums_to_blpair (a, b, (c, d))))). cbn [bind]. destruct IH as [I1 I2]. split.
          + intros [D|I]; [discriminate|]. rewrite (I1 I). reflexivity.
          + destruct I2 as [->|[r ->]]; [left; reflexivity | right; eexists; reflexivity]. }
      induction gs as [|g gs IH]; intros F I; [destruct I|]. inversion F as [|? ? F1 F2]; subst. destruct (K g F1) as [K1 K2]. cbn [map_res concat] in *.
      apply in_app_or in I. destruct I as [I|I]; [rewrite (K1 I); reflexivity|]. destruct K2 as [->|[r ->]]; [reflexivity|]. cbn [bind]. rewrite (IH F2 I). reflexivity. }
    rewrite (G ess Fe Hz). reflexivity.
  - intros z es ess' E. assert (T : first_is_tuple ess = false) by (rewrite E; reflexivity).
    assert (RG : forall ew', read_groups barr ew' order (Some v) hw =
      bind (require (forallb (known_first barr) ess) ValueError (require (negb (Nat.eqb (List.length ess) 0)) IndexError (Ok ess))) (fun gs =>
        require (forallb hashable (concat gs)) TypeError (Ok (gs ++ if ew' then []
             else map (fun b => [PInt b]) (order (filter (fun b => negb (memZ b (entry_ints (concat gs)))) (ordered_unique [] barr))))))).
    { intro ew'. unfold read_groups, normalize_grouped_input. rewrite (items_seq _ _ Hv), NG. cbn [bind]. unfold convert. rewrite T. reflexivity. }
    split.
    + intros (t & es' & I). rewrite RG. assert (K : forallb (known_first barr) ess = false).
      { rewrite E. cbn [forallb]. apply andb_false_iff. right. clear -I. induction ess' as [|g ess' IH]; [destruct I|]. cbn [forallb].
        destruct I as [->|I]; [reflexivity | rewrite (IH I); apply andb_false_r]. }
      rewrite K. reflexivity.
    + intros A. rewrite RG. assert (K : forallb (known_first barr) ess = true).
      { apply forallb_forall. intros g Hg. destruct (A g Hg) as (w & es' & -> & I). cbn. rewrite (uvp_blpairs_id _ En), memZ_unique. apply memZ_In, I. }
      rewrite K. cbn [require]. assert (L : negb (Nat.eqb (List.length ess) 0) = true) by (rewrite E; reflexivity). rewrite L. cbn [require bind]. rewrite HS. cbn [require].
      eexists. split; [reflexivity|]. intro b. rewrite <- entry_ints_In.
      transitivity (In b (filter (fun b => negb (memZ b (entry_ints (concat ess)))) (ordered_unique [] barr))).
      * split; intro I; [exact (Permutation_in _ (Ho _) I) | exact (Permutation_in _ (Permutation_sym (Ho _)) I)].
      * rewrite filter_In. destruct (ordered_unique_spec [] barr) as [-> _]. rewrite negb_true_iff. rewrite <- (memZ_In b (entry_ints _)).
        destruct (memZ b _); cbn; intuition congruence.
Qed.

(** two baseline-pairs b1 and b2; the group [b1, ((1, 2), (1, 2))], whose second member is b2: b2 is averaged into the group, and once more on its own *)
Example groups_mixed_case : let b1 := antnums_to_blpair ((0, 1), (0, 1))%Z in let b2 := antnums_to_blpair ((1, 2), (1, 2))%Z in
  let t := PTup [PTup [PInt 1; PInt 2]; PTup [PInt 1; PInt 2]] in
  exists rest, read_groups [b1; b2; b1; b2] false (fun l => l) (Some (PList [PList [PInt b1; t]])) false = Ok ([[PInt b1; t]] ++ map (fun b => [PInt b]) rest) /\ In b2 rest.
Proof.
  intros b1 b2 t.
  assert (En : Forall encodes [b1; b2; b1; b2]).
  { assert (E1 : encodes b1) by (exists 0%Z, 1%Z, 0%Z, 1%Z; split; [lia | reflexivity]). assert (E2 : encodes b2) by (exists 1%Z, 2%Z, 1%Z, 2%Z; split; [lia | reflexivity]).
    repeat (constructor; [assumption|]). constructor. }
  assert (Ne : b1 <> b2).
  { unfold b1, b2. intro E. apply (f_equal blpair_to_antnums) in E.
    destruct (C01_codec_round_trip 0 1 0 1 ltac:(lia) ltac:(lia) ltac:(lia) ltac:(lia)) as [R1 _]. destruct (C01_codec_round_trip 1 2 1 2 ltac:(lia) ltac:(lia) ltac:(lia) ltac:(lia)) as [R2 _].
    rewrite R1, R2 in E. discriminate. }
  clearbody b1 b2.
  destruct (groups_mixed_refuted [b1; b2; b1; b2] false (fun l => l) false (PList [PList [PInt b1; t]]) [PList [PInt b1; t]] [[PInt b1; t]] En (fun l => Permutation_refl l)) as [_ M].
  - right; reflexivity.
  - constructor; [split; [right; reflexivity | discriminate] | constructor].
  - constructor; [|constructor]. constructor; [left; exists b1; reflexivity|]. constructor; [right; exists 1%Z, 2%Z, 1%Z, 2%Z; reflexivity | constructor].
  - destruct (M b1 [t] [] eq_refl) as [_ M2]. destruct M2 as (rest & E & R).
    { intros g [<-|[]]. exists b1, [t]. split; [reflexivity | left; reflexivity]. }
    exists rest. split; [exact E|]. apply R. split; [right; left; reflexivity|]. cbn. intros [[= D]|[D|[]]]; [congruence | discriminate D].
Qed.
Example groups_partition_case : let b1 := antnums_to_blpair ((0, 1), (0, 1))%Z in Forall encodes [b1] /\ NoDup (concat [[b1]]).
Proof. intro b1. split; [constructor; [exists 0%Z, 1%Z, 0%Z, 1%Z; split; [lia | reflexivity] | constructor] | repeat constructor; intros []]. Qed.

(** a list somewhere in the value *)
Inductive holds_list : pv -> Prop :=
| hl_list l : holds_list (PList l)
| hl_tup x l : In x l -> holds_list x -> holds_list (PTup l).
(** Entries that are no baseline-pairs: if the first entry is a tuple, one with too few baselines or antennas is an IndexError, one with a number in place of a
    baseline, or something else in place of an antenna, a TypeError. If the first entries are integers of the object, a list anywhere is a TypeError. *)
Theorem entries_refused : forall barr ew order hw v l ess, seq_of v l -> Forall2 (fun g es => seq_of g es /\ es <> []) l ess ->
  (forall es ess', ess = (PTup [] :: es) :: ess' -> read_groups barr ew order (Some v) hw = Err IndexError) /\
  (forall a b es ess', ess = (PTup [PTup [PInt a; PInt b]] :: es) :: ess' -> read_groups barr ew order (Some v) hw = Err IndexError) /\
  (forall a q es ess', ess = (PTup (PTup [PInt a] :: q) :: es) :: ess' -> read_groups barr ew order (Some v) hw = Err IndexError) /\
  (forall a b c es ess', ess = (PTup [PTup [PInt a; PInt b]; PTup [PInt c]] :: es) :: ess' -> read_groups barr ew order (Some v) hw = Err IndexError) /\
  (forall a q es ess', ess = (PTup (PInt a :: q) :: es) :: ess' -> read_groups barr ew order (Some v) hw = Err TypeError) /\
  (forall x p q es ess', ess = (PTup (PTup (x :: p) :: q) :: es) :: ess' -> (forall z, x <> PInt z) -> read_groups barr ew order (Some v) hw = Err TypeError) /\
  (Forall encodes barr -> ess <> [] -> (forall g, In g ess -> exists z es', g = PInt z :: es' /\ In z barr) ->
     (exists x, In x (concat ess) /\ holds_list x) -> read_groups barr ew order (Some v) hw = Err TypeError).
Proof.
  intros barr ew order hw v l ess Hv H.
  assert (NG : norm_groups l = Ok ess).
  { rewrite (norm_groups_seq l ess); [|clear -H; induction H as [|? ? ? ? [H1 _] H IH]; constructor; assumption].
    assert (E : forallb (fun es : list pv => negb (Nat.eqb (List.length es) 0)) ess = true); [|rewrite E; reflexivity].
    clear -H. induction H as [|g es l ess [_ N] H IH]; [reflexivity|]. cbn. rewrite IH. destruct es; [congruence | reflexivity]. }
  assert (RG : read_groups barr ew order (Some v) hw = read_groups barr ew order (Some v) hw) by reflexivity.
  unfold read_groups at 2 in RG. unfold normalize_grouped_input in RG. rewrite (items_seq _ _ Hv), NG in RG. cbn [bind] in RG. rewrite RG. clear RG H NG Hv.
  repeat split.
  - intros es ess' ->. reflexivity.
  - intros a b es ess' ->. reflexivity.
  - intros a q es ess' ->. reflexivity.
  - intros a b c es ess' ->. reflexivity.
  - intros a q es ess' ->. reflexivity.
  - intros x p q es ess' -> N. destruct x as [z|x|x|]; [exfalso; exact (N z eq_refl) | reflexivity..].
  - intros En Ne A (x & Hx & HL). unfold convert. assert (T : first_is_tuple ess = false).
    { destruct ess as [|g ess]; [congruence|]. destruct (A g (or_introl eq_refl)) as (z & es' & -> & _). reflexivity. }
    rewrite T. cbn [bind].
    assert (K : forallb (known_first barr) ess = true).
    { apply forallb_forall. intros g Hg. destruct (A g Hg) as (w & es' & -> & I). cbn. rewrite (uvp_blpairs_id _ En), memZ_unique. apply memZ_In, I. }
    rewrite K. cbn [require]. assert (L : negb (Nat.eqb (List.length ess) 0) = true) by (destruct ess; [congruence | reflexivity]). rewrite L. cbn [require bind].
    assert (HF : hashable x = false).
    { clear -HL. induction HL as [l|x l I HL IH]; [reflexivity|]. cbn. induction l as [|y l IHl]; [destruct I|]. cbn. destruct I as [->|I]; [now rewrite IH | rewrite (IHl I); apply andb_false_r]. }
    assert (F : forallb hashable (concat ess) = false).
    { destruct (forallb hashable (concat ess)) eqn:E; [|reflexivity]. rewrite forallb_forall in E. rewrite (E x Hx) in HF. discriminate. }
    rewrite F. reflexivity.
Qed.
