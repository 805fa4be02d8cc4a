(** C20, C21: grouping baselines and bootstrap sampling. *)
From Coq Require Import Reals Permutation.
From Verif Require Import Prelude ListLemmas UvpModel UvpProofs KeyProofs GroupModel GroupProofs AvgModel AvgTotal.
Open Scope nat_scope.

(** * C21: a grouping is a partition of the (shuffled) list into consecutive runs *)
Theorem C21_partition : forall (A : Type) (bls : list A) G keep sh,
  (forall f, sh = Some f -> Permutation (f bls) bls) ->
  (0 < G <= Z.of_nat (length bls))%Z ->
  let n := length bls / Z.to_nat G in
  let rem := length bls mod Z.to_nat G in
  let order := match sh with Some f => f bls | None => bls end in
  exists gs, group_baselines bls G keep sh = Ok gs /\
    length gs = Z.to_nat G /\
    1 <= n /\
    (forall i g, nth_error gs i = Some g ->
       length g = if keep && (i =? Z.to_nat G - 1) then n + rem else n) /\
    concat gs = if keep then order else firstn (length bls - rem) order.
Proof. intros A. exact group_baselines_spec. Qed.
Print Assumptions C21_partition.

(** every baseline is in at most one group; with keep_remainder every one is in exactly one *)
Theorem C21_membership : forall (A : Type) (bls : list A) G keep sh gs,
  (forall f, sh = Some f -> Permutation (f bls) bls) ->
  (0 < G <= Z.of_nat (length bls))%Z -> NoDup bls ->
  group_baselines bls G keep sh = Ok gs ->
  NoDup (concat gs) /\ (forall x, In x (concat gs) -> In x bls) /\
  (keep = true -> Permutation (concat gs) bls) /\
  length (concat gs) = (if keep then length bls else length bls - length bls mod Z.to_nat G).
Proof.
  intros A bls G keep sh gs Hsh HG ND H.
  destruct (C21_partition A bls G keep sh Hsh HG) as [gs' [E [_ [_ [_ C]]]]]. rewrite H in E. injection E as <-.
  set (o := match sh with Some f => f bls | None => bls end) in *.
  assert (P : Permutation o bls) by (unfold o; destruct sh as [f|]; [apply Hsh; reflexivity | apply Permutation_refl]).
  assert (No : NoDup o) by (eapply Permutation_NoDup; [apply Permutation_sym; exact P | exact ND]).
  pose proof (Permutation_length P) as LP.
  destruct keep; rewrite C.
  - repeat split; auto. intros x Hx. eapply Permutation_in; eauto.
  - repeat split; try discriminate.
    + rewrite <- (firstn_skipn (length bls - length bls mod Z.to_nat G) o) in No. clear -No. set (a := firstn _ _) in *. clearbody a. induction a as [|y a IH]; [constructor|]. cbn in No. inversion No as [|? ? N1 N2]; subst. constructor; [intro Hy; apply N1, in_or_app; left; exact Hy | apply IH, N2].
    + intros x Hx. eapply Permutation_in; [exact P|]. rewrite <- (firstn_skipn (length bls - length bls mod Z.to_nat G) o).
      apply in_or_app. left; exact Hx.
    + rewrite firstn_length, LP. lia.
Qed.
Print Assumptions C21_membership.

(** too many groups or none: an error *)
Theorem C21_errors : forall (A : Type) (bls : list A) G keep sh,
  (G = 0%Z -> group_baselines bls G keep sh = Err ZeroDivisionError) /\
  ((Z.of_nat (length bls) < G)%Z -> group_baselines bls G keep sh = Err ValueError).
Proof. intros A bls G keep sh. destruct (group_baselines_errors bls G keep sh) as [H1 [H2 _]]. auto. Qed.
Print Assumptions C21_errors.
(** a negative number of groups is accepted and loses every baseline, even with keep_remainder *)
Theorem C21_negative_refuted :
  ~ (forall (bls : list nat) G gs, group_baselines bls G true None = Ok gs -> concat gs = bls).
Proof. intro H. specialize (H [1; 2; 3] (-1)%Z [] eq_refl). discriminate H. Qed.
Print Assumptions C21_negative_refuted.

Example C21_case : group_baselines [1; 2; 3; 4; 5; 6; 7] 3 true (Some (@rev nat)) = Ok [[7; 6]; [5; 4]; [3; 2; 1]] /\
  group_baselines [1; 2; 3; 4; 5; 6; 7] 3 false None = Ok [[1; 2]; [3; 4]; [5; 6]].
Proof. split; reflexivity. Qed.

(** * C20: bootstrap *)
Theorem C20_sample : forall (A : Type) (bls : list A) draw,
  (forall i, i < length bls -> draw i < length bls) ->
  exists s, sample_baselines bls draw = Ok s /\ length s = length bls /\
    (forall x, In x s -> In x bls) /\
    forall i, i < length bls -> nth_error s i = nth_error bls (draw i).
Proof. intros A. exact sample_baselines_spec. Qed.
Print Assumptions C20_sample.

(** every draw gives, for every group, one multiplicity per member, adding up to the group size *)
Theorem C20_multiplicities : forall obj groups draws out,
  (forall g n, length (draws g n) = n /\ Forall (fun i => i < n) (draws g n)) ->
  bootstrap_weights [obj] groups draws = Ok out ->
  exists res, out = [res] /\ length res = length groups /\
  forall i grp, nth_error groups i = Some grp -> exists blps ws, nth_error res i = Some (blps, ws) /\
    NoDup blps /\ (forall b, In b blps <-> In b grp) /\ (forall b, In b grp -> In b obj) /\
    length ws = length blps /\ list_sum ws = length blps /\
    forall j, j < length blps -> nth_error ws j = Some (count_occ Nat.eq_dec (draws i (length blps)) j).
Proof. exact bootstrap_spec. Qed.
Print Assumptions C20_multiplicities.

(** ... and those multiplicities are the numbers of copies the average uses *)
Theorem C20_used_exactly : forall ms, ms <> [] -> list_sum ms = length ms ->
  exists nw, norm_weights true (map INR ms) = Ok nw /\ map copies_of nw = ms.
Proof.
  intros ms H1 H2. exists (map INR ms). split; [apply norm_multiplicities; assumption|]. rewrite map_map.
  rewrite <- (map_id ms) at 2. apply map_ext. intro n. apply copies_of_INR.
Qed.
Print Assumptions C20_used_exactly.

(** a group naming a baseline-pair that the object lacks is refused *)
Theorem C20_unknown_pair : forall obj groups draws b grp, In grp groups -> In b grp -> ~ In b obj ->
  bootstrap_weights [obj] groups draws = Err KeyError.
Proof.
  intros obj groups draws b grp Hg Hb Hn. rewrite bootstrap_single.
  replace (forallb (forallb (fun b => memZ b obj)) groups) with false; [reflexivity|]. symmetry.
  destruct (forallb (forallb (fun b => memZ b obj)) groups) eqn:E; [|reflexivity]. exfalso. apply Hn.
  rewrite forallb_forall in E. specialize (E grp Hg). rewrite forallb_forall in E. apply memZ_In, E, Hb.
Qed.
Print Assumptions C20_unknown_pair.

(** several objects never work: the call to select_common raises TypeError *)
Theorem C20_several_objects_refuted :
  ~ (forall objs groups draws, (forall o b, In o objs -> In b (concat groups) -> In b o) ->
     exists out, bootstrap_weights objs groups draws = Ok out).
Proof.
  intro H. destruct (H [[1%Z]; [1%Z]] [[1%Z]] (fun _ n => seq 0 n)) as [out E]; [|discriminate E].
  intros o b [<-|[<-|[]]] Hb; exact Hb.
Qed.
Print Assumptions C20_several_objects_refuted.
Theorem C20_several_objects_error : forall o1 o2 objs groups draws,
  bootstrap_weights (o1 :: o2 :: objs) groups draws = Err TypeError.
Proof. reflexivity. Qed.
Print Assumptions C20_several_objects_error.

Example C20_case : (forall (g n : nat), length (repeat 0 n) = n /\ Forall (fun i => i < n) (repeat 0 n)) /\
  bootstrap_weights [[5; 6; 7; 8]%Z] [[7; 5]%Z; [6]%Z] (fun _ n => repeat 0 n) = Ok [[([7; 5]%Z, [2; 0]); ([6]%Z, [1])]].
Proof.
  split; [|reflexivity]. intros _ n. split; [apply repeat_length|]. apply Forall_forall. intros i Hi.
  assert (E : i = 0) by (eapply repeat_spec; eauto). subst. destruct n; [destruct Hi | lia].
Qed.
