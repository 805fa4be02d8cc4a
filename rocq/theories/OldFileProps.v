(** Counters of rows after reading files, old and new (C387, C388). *)
From Coq Require Import Reals Lra.
From Verif Require Import Prelude OldFileModel.
Open Scope nat_scope.

(** ** Specification *)
(** the number of different values in a list *)
Definition different {A} (l : list A) (n : nat) : Prop := exists u, NoDup u /\ List.length u = n /\ forall x, In x u <-> In x l.
(** the counters are those of the rows; for [pairs], time-pairs are counted by both times, otherwise by their mean *)
Definition counted (pairs : bool) (o : fobj) : Prop :=
  o_Nbltpairs o = Some (List.length (o_rows o)) /\ o_Nblpairts o = None /\ o_Ntimes o = o_Ntpairs o /\
  exists n, o_Ntpairs o = Some n /\ (if pairs then different (map (fun r => (f_t1 r, f_t2 r)) (o_rows o)) n else different (map f_tavg (o_rows o)) n).
(** files as they were written *)
Definition new_file (f : ffile) : Prop :=
  f_new f = Some (List.length (f_rows f)) /\ f_old f = None /\ f_times f = f_tpairs f /\ different (map f_tavg (f_rows f)) (f_tpairs f).
Definition old_file (f : ffile) : Prop := f_new f = None /\ f_old f = Some (List.length (f_rows f)).
Definition everything : fsel := mkfsel None None None.

Lemma different_nodup {A} (dec : forall a b : A, {a = b} + {a <> b}) l : different l (List.length (nodup dec l)).
Proof. exists (nodup dec l). split; [apply NoDup_nodup|]. split; [reflexivity|]. intro x. apply nodup_In. Qed.

(** ** C387: files of the old format *)
(** Read as a whole, an old file gives an object whose counters are those of its rows, whatever the object was before. *)
Theorem old_file_read : forall o f, old_file f -> exists o', read_file o f everything = (o', None) /\ o_rows o' = f_rows f /\ counted true o'.
Proof.
  intros o f [H1 H2]. unfold read_file, select_rows. cbn [no_rows_asked everything s_bls s_blpairs s_times]. eexists. split; [reflexivity|].
  unfold convert_old, load. cbn [o_Nblpairts]. rewrite H2. cbn. split; [reflexivity|]. repeat split. eexists. split; [reflexivity | apply different_nodup].
Qed.
(** Read with a selection of rows by baselines, it gives the rows asked for, but the number of rows is that of the whole file; without one, a
    selection by baseline-pairs or times is an AttributeError. *)
Theorem old_file_selected : forall o f s, old_file f -> no_rows_asked s = false ->
  (forall b, s_bls s = Some b -> (exists r, In r (f_rows f) /\ keeps s r = true) ->
     exists o', read_file o f s = (o', None) /\ o_rows o' = filter (keeps s) (f_rows f) /\ o_Nbltpairs o' = Some (List.length (f_rows f)) /\
       (counted true o' <-> forall r, In r (f_rows f) -> keeps s r = true)) /\
  (s_bls s = None -> snd (read_file o f s) = Some AttributeError).
Proof.
  intros o f s [H1 H2] NR. unfold read_file, select_rows. rewrite NR. cbn [load o_Nbltpairs]. rewrite H1. unfold needs_count. split.
  - intros b Hb (r & Hr & Kr). rewrite Hb. cbn [andb]. cbn [load o_rows]. destruct (filter (keeps s) (f_rows f)) as [|x l] eqn:E.
    + exfalso. assert (I : In r []) by (rewrite <- E; apply filter_In; auto). destruct I.
    + eexists. split; [reflexivity|]. unfold convert_old. cbn [load o_Nblpairts]. rewrite H2. cbn [o_rows o_Nbltpairs]. split; [reflexivity|]. split; [reflexivity|].
      assert (L : List.length (f_rows f) = List.length (x :: l) <-> forall r, In r (f_rows f) -> keeps s r = true).
      { rewrite <- E. split.
        - intros Q. clear -Q. assert (G : forall l, List.length (filter (keeps s) l) <= List.length l) by (induction l as [|y l IH]; cbn; [lia|]; destruct (keeps s y); cbn; lia).
          induction (f_rows f) as [|y rows IH]; [intros ? []|]. cbn [filter List.length] in Q. destruct (keeps s y) eqn:K; cbn [List.length] in Q.
          + intros z [<-|Hz]; [exact K | apply IH; [lia | exact Hz]].
          + specialize (G rows). lia.
        - intro A. f_equal. clear -A. induction (f_rows f) as [|y rows IH]; [reflexivity|]. cbn. rewrite (A y (or_introl eq_refl)). f_equal. apply IH. intros z Hz. apply A. now right. }
      rewrite <- L. unfold counted. cbn [o_rows o_Nbltpairs o_Nblpairts o_Ntimes o_Ntpairs]. split; [intros [[= Q] _]; exact Q|].
      intro Q. repeat split; [now rewrite Q|]. eexists. split; [reflexivity | apply different_nodup].
  - intros Hb. unfold no_rows_asked in NR. rewrite Hb in NR |- *. destruct (s_blpairs s), (s_times s); try discriminate; reflexivity.
Qed.

(** ** C388: what the object was before *)
(** A file of the present format, read whole or with a selection that matches a row into an object that holds no Nblpairts, gives the rows asked for,
    and counters that are those of the rows; nothing of the object before is left. *)
Theorem new_file_read_partial : forall o f s, new_file f -> o_Nblpairts o = None -> (exists r, In r (f_rows f) /\ keeps s r = true) \/ s = everything ->
  exists o', read_file o f s = (o', None) /\ o_rows o' = filter (keeps s) (f_rows f) /\ counted false o' /\
    forall o2, o_Nblpairts o2 = None -> read_file o2 f s = (o', None).
Proof.
  intros o f s (H1 & H2 & H3 & H4) HO HS.
  assert (LD : forall o2, o_Nblpairts o2 = None -> load o2 f = load o f) by (intros o2 E; unfold load; rewrite H2, E, HO; reflexivity).
  assert (P : exists o', read_file o f s = (o', None) /\ o_rows o' = filter (keeps s) (f_rows f) /\ counted false o').
  { unfold read_file, select_rows. destruct (no_rows_asked s) eqn:NR.
    - eexists. split; [reflexivity|]. unfold convert_old. cbn [load o_Nblpairts]. rewrite H2, HO. cbn [load o_rows]. split.
      + assert (K : forall r, keeps s r = true).
        { intro r. unfold no_rows_asked in NR. unfold keeps. destruct (s_bls s), (s_blpairs s), (s_times s); try discriminate. reflexivity. }
        clear -K. induction (f_rows f) as [|y rows IH]; [reflexivity|]. cbn. rewrite K. now f_equal.
      + unfold counted. cbn [load o_rows o_Nbltpairs o_Nblpairts o_Ntimes o_Ntpairs]. rewrite H1, H2, H3. repeat split; [exact HO|]. eexists. split; [reflexivity | exact H4].
    - cbn [load o_Nbltpairs]. rewrite H1. rewrite andb_false_r. cbn [load o_rows]. destruct (filter (keeps s) (f_rows f)) as [|x l] eqn:E.
      + exfalso. destruct HS as [(r & Hr & Kr)| ->]; [|discriminate NR]. assert (I : In r []) by (rewrite <- E; apply filter_In; auto). destruct I.
      + eexists. split; [reflexivity|]. unfold convert_old. cbn [load o_Nblpairts]. rewrite H2, HO. cbn [o_rows]. split; [reflexivity|].
        repeat split. eexists. split; [reflexivity | apply different_nodup]. }
  destruct P as (o' & P1 & P2 & P3). exists o'. repeat split; try assumption; try apply P3.
  intros o2 E. unfold read_file in *. rewrite (LD o2 E). exact P1.
Qed.
(** But an object that failed to read an old file keeps its Nblpairts, and the next file read into it gets the number of rows of the old one. *)
Theorem read_after_failure_refuted : forall o f s f', old_file f -> no_rows_asked s = false -> s_bls s = None -> new_file f' ->
  exists o1 o2, read_file o f s = (o1, Some AttributeError) /\ read_file o1 f' everything = (o2, None) /\
    o_rows o2 = f_rows f' /\ o_Nbltpairs o2 = Some (List.length (f_rows f)) /\
    (List.length (f_rows f) <> List.length (f_rows f') -> ~ counted false o2 /\ forall o0, o_Nblpairts o0 = None -> read_file o0 f' everything <> (o2, None)).
Proof.
  intros o f s f' [H1 H2] NR HB (G1 & G2 & G3 & G4).
  assert (E1 : read_file o f s = (load o f, Some AttributeError)).
  { unfold read_file, select_rows. rewrite NR. cbn [load o_Nbltpairs]. rewrite H1. unfold needs_count. unfold no_rows_asked in NR. rewrite HB in NR |- *.
    destruct (s_blpairs s), (s_times s); try discriminate; reflexivity. }
  exists (load o f). eexists. split; [exact E1|]. split; [reflexivity|]. unfold convert_old. cbn [load o_Nblpairts]. rewrite G2, H2. cbn [load o_rows o_Nbltpairs o_Nblpairts].
  split; [reflexivity|]. split; [reflexivity|]. intro N. split.
  - intros [[= Q] _]. cbn in Q. contradiction.
  - intros o0 E0. unfold read_file, select_rows. cbn [no_rows_asked everything s_bls s_blpairs s_times]. unfold convert_old. cbn [load o_Nblpairts]. rewrite G2, E0.
    unfold load. rewrite G1. intros [= Q _]. congruence.
Qed.

(** witness: an old file of two baseline-pairs and two times, read by baselines *)
Theorem old_file_nonvacuous : let r1 := mkfrow 1 0 0 0 in let r2 := mkfrow 2 0 0 0 in let f := mkffile [r1; r2] None (Some 2) 7 7 in
  let s := mkfsel (Some (fun r => Z.eqb (f_blp r) 1)) None None in
  old_file f /\ no_rows_asked s = false /\ (exists r, In r (f_rows f) /\ keeps s r = true) /\ new_file (mkffile [r1] (Some 1) None 1 1).
Proof.
  cbv zeta. split; [split; reflexivity|]. split; [reflexivity|]. split; [eexists; split; [left; reflexivity | reflexivity]|].
  repeat split. exists [0%R]. split; [repeat constructor; intros []|]. split; [reflexivity|]. cbn. tauto.
Qed.

(** a row is asked for: its baselines or its baseline-pair are among those given, if any are, and so is its time *)
Definition asked (s : fsel) (r : frow) : Prop :=
  ((s_bls s = None /\ s_blpairs s = None) \/ (exists b, s_bls s = Some b /\ b r = true) \/ (exists p, s_blpairs s = Some p /\ p r = true)) /\
  (forall t, s_times s = Some t -> t r = true).
(** the rows that [keeps] keeps are those asked for *)
Theorem rows_asked_for : forall s r, keeps s r = true <-> asked s r.
Proof.
  intros [b p t] r. unfold keeps, asked. cbn [s_bls s_blpairs s_times]. rewrite andb_true_iff.
  assert (T : match t with Some t => t r | None => true end = true <-> forall t0, t = Some t0 -> t0 r = true).
  { destruct t as [t|]; [split; [intros H ? [= <-]; exact H | intro H; now apply H] | split; [discriminate | reflexivity]]. }
  rewrite T. clear T. apply and_iff_compat_r.
  destruct b as [b|], p as [p|]; rewrite ?orb_true_iff; (split; [intro H; repeat match goal with H : _ \/ _ |- _ => destruct H as [H|H] end; eauto|]);
    intro H; repeat match goal with
    | H : _ \/ _ |- _ => destruct H as [H|H]
    | H : _ /\ _ |- _ => destruct H
    | H : exists _, Some _ = Some _ /\ _ |- _ => destruct H as (? & [= <-] & ?)
    | H : exists _, None = Some _ /\ _ |- _ => destruct H as (? & ? & ?)
    end; try discriminate; auto.
Qed.
(** A file of the present format read whole gives the counters that are in it; a selection that matches no row is an AssertionError. *)
Theorem new_file_counters : forall o f s, f_old f = None -> o_Nblpairts o = None ->
  read_file o f everything = (mkfobj (f_rows f) (f_new f) None (Some (f_tpairs f)) (Some (f_times f)), None) /\
  (f_new f <> None -> no_rows_asked s = false -> (forall r, In r (f_rows f) -> ~ asked s r) -> snd (read_file o f s) = Some AssertionError).
Proof.
  intros o f s H1 H2. split.
  - unfold read_file, select_rows. cbn [no_rows_asked everything s_bls s_blpairs s_times]. unfold convert_old, load. cbn [o_Nblpairts]. now rewrite H1, H2.
  - intros N NR A. unfold read_file, select_rows. rewrite NR. cbn [load o_Nbltpairs o_rows]. destruct (f_new f) as [n|]; [|congruence]. rewrite andb_false_r.
    destruct (filter (keeps s) (f_rows f)) as [|x l] eqn:E; [reflexivity|]. exfalso. assert (I : In x (filter (keeps s) (f_rows f))) by (rewrite E; now left).
    apply filter_In in I as [I K]. apply rows_asked_for in K. exact (A x I K).
Qed.
