(** The weighting matrix ignores flagged channels, for every weighting. *)
From Coq Require Import Reals Lra String.
From Verif Require Import Prelude PyStr PyDict DelayBinModel SphModel SphProofs PdModel.
Open Scope R_scope.

(** the Moore-Penrose inverse of a real square matrix: the conditions used (2, 3, 4) *)
Definition prod (n : nat) (A B : nat -> nat -> R) (i j : nat) : R := SphModel.sum n (fun k => A i k * B k j).
Definition penrose (pinv : mat -> mat) : Prop := forall M n, rows M = n -> cols M = n ->
  let Pm := pinv M in
  (forall i j, (i < n)%nat -> (j < n)%nat -> ent Pm i j = prod n (prod n (ent Pm) (ent M)) (ent Pm) i j) /\
  (forall i j, (i < n)%nat -> (j < n)%nat -> ent Pm i j = prod n (ent Pm) (prod n (ent M) (ent Pm)) i j) /\
  (forall i j, (i < n)%nat -> (j < n)%nat -> prod n (ent Pm) (ent M) i j = prod n (ent Pm) (ent M) j i) /\
  (forall i j, (i < n)%nat -> (j < n)%nat -> prod n (ent M) (ent Pm) i j = prod n (ent M) (ent Pm) j i).

Lemma prod_zero_col n A B i j : (forall k, (k < n)%nat -> B k j = 0) -> prod n A B i j = 0.
Proof. intro H. unfold prod. apply sum_zero. intros k Hk. rewrite H by exact Hk. ring. Qed.
Lemma prod_zero_row n A B i j : (forall k, (k < n)%nat -> A i k = 0) -> prod n A B i j = 0.
Proof. intro H. unfold prod. apply sum_zero. intros k Hk. rewrite H by exact Hk. ring. Qed.
Lemma pinv_flagged pinv M n j : penrose pinv -> rows M = n -> cols M = n -> (j < n)%nat ->
  (forall i, (i < n)%nat -> ent M i j = 0 /\ ent M j i = 0) -> forall i, (i < n)%nat -> ent (pinv M) i j = 0 /\ ent (pinv M) j i = 0.
Proof.
  intros HP Hr Hc Hj HM i Hi. destruct (HP M n Hr Hc) as [P1 [P2 [P3 P4]]]. split.
  - rewrite P2 by assumption. apply prod_zero_col. intros k Hk. rewrite P4 by assumption. apply prod_zero_row. intros l Hl. apply HM. exact Hl.
  - rewrite P1 by assumption. apply prod_zero_row. intros k Hk. rewrite P3 by assumption. apply prod_zero_col. intros l Hl. apply HM. exact Hl.
Qed.

Lemma sandwich_zero a m i j : a j = 0 -> ent (sandwich a m) i j = 0 /\ ent (sandwich a m) j i = 0.
Proof. intro H. unfold sandwich. cbn [ent]. rewrite H. split; ring. Qed.
Lemma shape_is_ok m n : shape_is m n = true -> rows m = n /\ cols m = n.
Proof. unfold shape_is. intro H. apply andb_true_iff in H. destruct H as [A B]. apply Nat.eqb_eq in A, B. split; assumption. Qed.
Lemma nth_error_sqY (wmax : key -> nat -> R) (k : key) (cs : list nat) j c : nth_error cs j = Some c -> wmax k c = 0 -> sqY (map (wmax k) cs) j = 0.
Proof.
  intros E W. unfold sqY. assert (E' : nth_error (map (wmax k) cs) j = Some 0) by (rewrite nth_error_map, E; cbn; rewrite W; reflexivity).
  rewrite (nth_error_nth _ _ 0 E'). apply sqrt_0.
Qed.

(** what [assemble] does with zero rows and columns *)
Lemma assemble_zero (P : Type) g (st : pds P) y yky m j :
  assemble g st y yky = Ok m -> (j < List.length y)%nat -> (forall i, (i < List.length y)%nat -> ent yky i j = 0 /\ ent yky j i = 0) ->
  let f0 := if sym st then 0%nat else Z.to_nat (fst (ext st)) in
  (forall i, (i < rows m)%nat -> ent m i j = 0) /\ (forall i, (i < rows m)%nat -> j = (i + f0)%nat -> forall j', (j' < cols m)%nat -> ent m i j' = 0) /\
  cols m = List.length y /\ rows m = Z.to_nat (nfreqs st).
Proof.
  intros H Hj HZ f0. unfold assemble in H. subst f0. destruct (sym st).
  - unfold r_symmetric in H. destruct (Nat.eqb_spec (List.length y) (Z.to_nat (nfreqs st))) as [L|]; cbn [andb require] in H; [|discriminate H].
    destruct (shape_is yky (Z.to_nat (nfreqs st))) eqn:S; cbn [require] in H; [|discriminate H]. apply shape_is_ok in S. destruct S as [S1 S2].
    injection H as <-. unfold sandwich. cbn [rows cols ent]. rewrite L in *. split; [|split; [|split; congruence]].
    + intros i Hi. rewrite (proj1 (HZ i ltac:(lia))). ring.
    + intros i Hi E j' Hj'. rewrite Nat.add_0_r in E. subst i. rewrite (proj2 (HZ j' ltac:(lia))). ring.
  - unfold r_asymmetric in H. set (n := Z.to_nat (nfreqs st)) in *. set (a := Z.to_nat (fst (ext st))) in *. set (b := Z.to_nat (snd (ext st))) in *.
    destruct (Nat.eqb_spec (List.length y) (n + a + b)) as [L|]; cbn [andb require] in H; [|discriminate H].
    destruct (shape_is yky (n + a + b)) eqn:S; cbn [require] in H; [|discriminate H]. injection H as <-. cbn [rows cols ent]. rewrite L in *.
    split; [|split; [|split; reflexivity]].
    + intros i Hi. rewrite sum_zero; [ring|]. intros l Hl. rewrite (proj1 (HZ l Hl)). ring.
    + intros i Hi E j' Hj'. rewrite sum_zero; [ring|]. intros l Hl. unfold tmat. destruct (Nat.eqb_spec l (i + a)) as [->|]; [|ring].
      rewrite <- E. rewrite (proj2 (HZ j' Hj')). ring.
Qed.

(** a channel flagged at all times: its column of R vanishes, so the data of that channel do not matter, and so does its row *)
Theorem flagged_channels : forall (P : Type) wmax covdata minv gen_window dayenu_inv pinv (st st' : pds P) k m,
  penrose pinv ->
  dget key_dec (cY st) k = None -> dget rkey_dec (cR st) (rkey_of st k) = None ->
  callR wmax covdata minv gen_window dayenu_inv pinv st k = (st', Ok m) ->
  forall c j, nth_error (chans st) j = Some c -> wmax k c = 0 ->
  (forall i, (i < rows m)%nat -> ent m i j = 0) /\
  (forall i, (i < rows m)%nat -> j = (i + if sym st then 0 else Z.to_nat (fst (ext st)))%nat -> forall j', (j' < cols m)%nat -> ent m i j' = 0).
Proof.
  intros P wmax covdata minv gen_window dayenu_inv pinv st st' k m HP HY HR H c j Ec Wc. unfold callR in H. rewrite HR in H.
  destruct (Z.ltb (nfreqs st) 0); [discriminate H|]. unfold callY in H. rewrite HY in H. set (y := map (wmax k) (chans st)) in *.
  destruct (forallb binary y); [|discriminate H].
  assert (Lj : (j < List.length y)%nat). { unfold y. rewrite map_length. apply nth_error_Some. congruence. }
  assert (Sj : sqY y j = 0) by (apply (nth_error_sqY wmax k _ _ c); assumption).
  match type of H with context [up_cache ?a ?b ?c ?d ?e ?f] => set (s1 := up_cache a b c d e f) in * end.
  assert (Aux : forall (s2 : pds P) yky, sym s2 = sym st -> ext s2 = ext st ->
     (forall i, (i < List.length y)%nat -> ent yky i j = 0 /\ ent yky j i = 0) -> assemble gen_window s2 y yky = Ok m ->
     (forall i, (i < rows m)%nat -> ent m i j = 0) /\
     (forall i, (i < rows m)%nat -> j = (i + if sym st then 0 else Z.to_nat (fst (ext st)))%nat -> forall j', (j' < cols m)%nat -> ent m i j' = 0)).
  { intros s2 yky E1 E2 HZ A. destruct (assemble_zero P gen_window s2 y yky m j A Lj HZ) as [A1 [A2 _]]. rewrite E1, E2 in A2. split; assumption. }
  destruct (weight st).
  - destruct (callI s1 k) as [s2 [mi|e]] eqn:EI; [|discriminate H].
    assert (Es : sym s2 = sym st /\ ext s2 = ext st).
    { unfold callI in EI. destruct (dget key_dec (cI s1) k); [injection EI as <- _; split; reflexivity|].
      destruct (ident _); [|discriminate EI]. injection EI as <- _. split; reflexivity. }
    unfold storeR in H. destruct (shape_is mi (List.length y)) eqn:S; cbn [require] in H; [|discriminate H].
    destruct (assemble gen_window s2 y (sandwich (sqY y) mi)) as [m'|] eqn:A; [|discriminate H]. injection H as _ <-.
    apply (Aux s2 (sandwich (sqY y) mi)); [apply Es | apply Es | intros i _; apply sandwich_zero; exact Sj | exact A].
  - destruct (calliC covdata minv s1 k) as [s2 mi] eqn:EI.
    assert (Es : sym s2 = sym st /\ ext s2 = ext st).
    { unfold calliC in EI. destruct (dget key_dec (ciC s1) k); [injection EI as <- _; split; reflexivity|]. unfold callC in EI.
      destruct (dget key_dec (cC s1) k); injection EI as <- _; split; reflexivity. }
    unfold storeR in H. destruct (shape_is mi (List.length y)) eqn:S; cbn [require] in H; [|discriminate H].
    destruct (assemble gen_window s2 y (sandwich (sqY y) mi)) as [m'|] eqn:A; [|discriminate H]. injection H as _ <-.
    apply (Aux s2 (sandwich (sqY y) mi)); [apply Es | apply Es | intros i _; apply sandwich_zero; exact Sj | exact A].
  - destruct (dget wkey_dec (rpar s1) (Dayenu, k)) as [p|]; [|discriminate H]. unfold storeR in H.
    set (mi := dayenu_inv p (dayenu_chans s1)) in *.
    destruct (shape_is mi (List.length y)) eqn:S; cbn [require] in H; [|discriminate H]. apply shape_is_ok in S. destruct S as [S1 S2].
    destruct (assemble gen_window s1 y (pinv (sandwich (sqY y) mi))) as [m'|] eqn:A; [|discriminate H]. injection H as _ <-.
    apply (Aux s1 (pinv (sandwich (sqY y) mi))); [reflexivity | reflexivity | | exact A].
    intros i Hi. apply (pinv_flagged pinv (sandwich (sqY y) mi) (List.length y)); try assumption. intros l _. apply sandwich_zero. exact Sj.
Qed.
Print Assumptions flagged_channels.

(** so the weighted data do not depend on the visibilities of flagged channels *)
Theorem flagged_data : forall (P : Type) wmax covdata minv gen_window dayenu_inv pinv (st st' : pds P) k m x x',
  penrose pinv ->
  dget key_dec (cY st) k = None -> dget rkey_dec (cR st) (rkey_of st k) = None ->
  callR wmax covdata minv gen_window dayenu_inv pinv st k = (st', Ok m) -> cols m = List.length (chans st) ->
  (forall c j, nth_error (chans st) j = Some c -> wmax k c <> 0 -> x j = x' j) ->
  forall i, (i < rows m)%nat -> SphModel.sum (cols m) (fun j => ent m i j * x j) = SphModel.sum (cols m) (fun j => ent m i j * x' j).
Proof.
  intros P wmax covdata minv gen_window dayenu_inv pinv st st' k m x x' HP HY HR H L HX i Hi. apply sum_ext. intros j Hj. rewrite L in Hj.
  destruct (nth_error (chans st) j) as [c|] eqn:E; [|apply nth_error_None in E; lia].
  destruct (Req_EM_T (wmax k c) 0) as [Z|N]; [|rewrite (HX c j E N); reflexivity].
  rewrite (proj1 (flagged_channels P wmax covdata minv gen_window dayenu_inv pinv st st' k m HP HY HR H c j E Z) i Hi). ring.
Qed.
Print Assumptions flagged_data.

(** cases: an inverse with the conditions used, and a matrix with a flagged channel *)
Example penrose_zero : penrose (fun M => mkmat (cols M) (rows M) (fun _ _ => 0)).
Proof.
  intros M n Hr Hc Pm.
  assert (Z : forall A B i j, (forall a b, A a b = 0) \/ (forall a b, B a b = 0) -> prod n A B i j = 0).
  { intros A B i j [H|H]; unfold prod; apply sum_zero; intros; rewrite H; ring. }
  repeat split; intros i j Hi Hj; unfold Pm; cbn [ent]; rewrite ?(Z _ _ _ _ (or_introl (fun _ _ => eq_refl))), ?(Z _ _ _ _ (or_intror (fun _ _ => eq_refl))); reflexivity.
Qed.

Definition k0 : key := (0, 1, 2, 0)%nat.
Definition wm (k : key) (c : nat) : R := if Nat.eqb c 1 then 0 else 1.
Definition nomat (M : mat) : mat := mkmat (cols M) (rows M) (fun _ _ => 0).
Example flagged_case : exists st' m,
  callR (P := unit) wm (fun _ _ => mkmat 0 0 (fun _ _ => 0)) nomat (fun _ _ _ => 0) (fun _ _ => mkmat 0 0 (fun _ _ => 0)) nomat (init 3) k0 = (st', Ok m) /\
  nth_error (chans (init (P := unit) 3)) 1 = Some 1%nat /\ wm k0 1 = 0 /\ (rows m, cols m) = (3, 3)%nat /\ ent m 0 0 = 1.
Proof.
  assert (B : forallb binary (map (wm k0) (chans (init (P := unit) 3))) = true).
  { assert (B0 : binary 0 = true). { unfold binary, close. destruct (Rle_dec _ _) as [|N]; [reflexivity|]. exfalso. apply N. rewrite Rminus_0_r, Rabs_R0, Rmult_0_r. lra. }
    assert (B1 : binary 1 = true). { unfold binary. apply orb_true_iff. right. unfold close. destruct (Rle_dec _ _) as [|N]; [reflexivity|]. exfalso. apply N. replace (1 - 1) with 0 by ring. rewrite Rabs_R0, Rabs_R1. lra. }
    change (chans (init (P := unit) 3)) with [0; 1; 2]%nat. cbn [map wm Nat.eqb forallb]. rewrite B0, B1. reflexivity. }
  eexists. eexists. split; [|split; [reflexivity|split; [reflexivity|]]].
  - unfold callR. cbn [cR init dget rkey_of weight]. cbn [nfreqs init]. change (Z.of_nat 3 <? 0)%Z with false. cbv iota. unfold callY. cbn [cY init dget].
    rewrite B. cbn [weight init]. reflexivity.
  - split; [reflexivity|]. cbn. unfold sqY. change (Pos.to_nat 3) with 3%nat. cbn. rewrite sqrt_1. ring.
Qed.
