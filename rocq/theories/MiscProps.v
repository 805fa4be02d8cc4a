(** Properties C328-C331: the log, loading files, distinct values in order, time differences. *)
From Coq Require Import String Sorted Permutation.
From Verif Require Import Prelude ListLemmas UvpModel UvpProofs KeyProofs CombineModel CombineProofs MiscModel.
Open Scope nat_scope.

(** * C328: the log *)
(** what a message looks like: two spaces per level, the message, and a traceback on further lines *)
Theorem log_line : forall c, output c = append (repeat_str "  " (Z.to_nat (l_lvl c)))
  (append (l_msg c) (match l_tb c with None => EmptyString | Some t => append newline (join newline t) end)).
Proof.
  intros c. unfold output. destruct (l_tb c); [reflexivity|]. f_equal. induction (l_msg c) as [|a s IH]; [reflexivity|]. cbn. f_equal. exact IH.
Qed.
Lemma append_assoc a b c : append (append a b) c = append a (append b c).
Proof. induction a as [|x a IH]; [reflexivity|]. cbn. f_equal. exact IH. Qed.
Lemma append_nil a : append a EmptyString = a.
Proof. induction a as [|x a IH]; [reflexivity|]. cbn. f_equal. exact IH. Qed.
(** after any sequence of calls the file holds the messages that were given the file, one after the other; [verbose] decides only what is printed *)
Theorem log_contents : forall cs w,
  file (fold_left log cs w) = append (file w) (fold_right append EmptyString (map output (filter l_file cs))) /\
  screen (fold_left log cs w) = screen w ++ map output (filter l_verbose cs).
Proof.
  induction cs as [|c cs IH]; intros w; cbn [fold_left filter map fold_right]; [rewrite append_nil, app_nil_r; auto|]. destruct (IH (log w c)) as [-> ->]. unfold log; cbn [file screen]. split.
  - destruct (l_file c); [|reflexivity]. cbn [map fold_right]. apply append_assoc.
  - destruct (l_verbose c); [|reflexivity]. cbn [map]. rewrite <- app_assoc. reflexivity.
Qed.
(** the file does not have one line per message: no separator is written, so the messages cannot be told apart *)
Theorem log_lines_refuted : exists cs cs', List.length cs <> List.length cs' /\ (forall c, In c (cs ++ cs') -> l_file c = true /\ l_msg c <> EmptyString /\ l_tb c = None) /\
  forall w, file (fold_left log cs w) = file (fold_left log cs' w).
Proof.
  set (c := fun m => mkcall m true 0 None true). exists [c "ab"%string; c "c"%string], [c "a"%string; c "b"%string; c "c"%string]. split; [discriminate|]. split.
  - intros x H. cbn in H. repeat (destruct H as [<-|H]; [repeat split; discriminate|]). destruct H.
  - intros w. destruct (log_contents [c "ab"%string; c "c"%string] w) as [-> _]. destruct (log_contents [c "a"%string; c "b"%string; c "c"%string] w) as [-> _]. reflexivity.
Qed.
Print Assumptions log_line.
Print Assumptions log_contents.
Print Assumptions log_lines_refuted.
Example log_case : file (fold_left log [mkcall "Reading 1 / 2" true 1 None false; mkcall "failed" true 0 (Some ["Traceback"; "ValueError"]%string) true] (mkworld [] "")) =
  append "  Reading 1 / 2failed" (append newline (append "Traceback" (append newline "ValueError"))).
Proof. reflexivity. Qed.

(** * C329: loading *)
(** one object per entry, in the order of the entries, and the keyword names the files that were read; a file that cannot be read is an error *)
Theorem load_dsets_spec : forall (D : Type) glob (read : list string -> result D) fnames,
  (forall l, load_dsets glob read fnames = Ok l <-> Forall2 (fun e dk => exists fs, fs = match e with Pattern p => glob p | Files x => x end /\ read fs = Ok (fst dk) /\ snd dk = Files fs) fnames l) /\
  (forall err, load_dsets glob read fnames = Err err <-> exists pre e post, fnames = pre ++ e :: post /\ (forall x, In x pre -> exists d, read (files_of glob x) = Ok d) /\ read (files_of glob e) = Err err).
Proof.
  intros D glob read. induction fnames as [|e r [IH1 IH2]]; split.
  - intros l. cbn. split; [intros H; injection H as <-; constructor|intros H; inversion H; reflexivity].
  - intros err. cbn. split; [discriminate|]. intros (pre & x & post & E & _). destruct pre; discriminate.
  - intros l. cbn. split.
    + intros H. destruct (read (files_of glob e)) as [d|] eqn:R; [|discriminate]. cbn in H. destruct (load_dsets glob read r) as [l'|] eqn:L; [|discriminate]. injection H as <-.
      constructor; [|apply IH1; reflexivity]. exists (files_of glob e). split; [destruct e; reflexivity|]. split; [exact R|reflexivity].
    + intros H. inversion H as [|? [d k] ? l' (fs & E1 & E2 & E3) F]; subst. cbn in E2, E3. assert (files_of glob e = match e with Pattern p => glob p | Files x => x end) by (destruct e; reflexivity).
      rewrite <- H0 in E2, E3. rewrite E2. cbn. apply IH1 in F. rewrite F. cbn. subst. reflexivity.
  - intros err. cbn. split.
    + intros H. destruct (read (files_of glob e)) as [d|x] eqn:R; cbn in H.
      * destruct (load_dsets glob read r) as [l'|y] eqn:L; [discriminate|]. cbn in H. injection H as ->. destruct (proj1 (IH2 err) eq_refl) as (pre & e' & post & -> & H1 & H2).
        exists (e :: pre), e', post. split; [reflexivity|]. split; [|exact H2]. intros z [<-|Hz]; [eauto|apply H1, Hz].
      * injection H as ->. exists [], e, r. split; [reflexivity|]. split; [intros z []|exact R].
    + intros (pre & e' & post & E & H1 & H2). destruct pre as [|p pre]; cbn in E; injection E as -> ->.
      * rewrite H2. reflexivity.
      * destruct (H1 p (or_introl eq_refl)) as [d ->]. cbn. rewrite (proj2 (IH2 err)); [reflexivity|]. exists pre, e', post. split; [reflexivity|]. split; [intros z Hz; apply H1; right; exact Hz|exact H2].
Qed.
(** calibrations: the same, but for a pattern the keyword is the pattern *)
Theorem load_cals_spec : forall (D : Type) glob (read : list string -> result D) cnames l, load_cals glob read cnames = Ok l <->
  Forall2 (fun e dk => read (match e with Pattern p => glob p | Files x => x end) = Ok (fst dk) /\ snd dk = e) cnames l.
Proof.
  intros D glob read. induction cnames as [|e r IH]; intros l; cbn.
  - split; [intros H; injection H as <-; constructor|intros H; inversion H; reflexivity].
  - split.
    + intros H. destruct (read (files_of glob e)) as [d|] eqn:R; [|discriminate]. cbn in H. destruct (load_cals glob read r) as [l'|] eqn:L; [|discriminate]. injection H as <-.
      constructor; [|apply IH; reflexivity]. split; [destruct e; exact R|reflexivity].
    + intros H. inversion H as [|x1 [d k] x2 l' [E2 E3] F Q1 Q2]. clear H. cbn in E2, E3. subst k x1 x2. rename l into l0. assert (H0 : files_of glob e = match e with Pattern p => glob p | Files x => x end) by (destruct e; reflexivity).
      rewrite <- H0 in E2. rewrite E2. cbn. apply IH in F. rewrite F. reflexivity.
Qed.
(** so the calibration files themselves are not recorded: two runs with different files leave the same record *)
Theorem load_cals_record_refuted : exists (glob glob' : string -> list string) (read : list string -> result nat) cnames l l',
  load_cals glob read cnames = Ok l /\ load_cals glob' read cnames = Ok l' /\ map snd l = map snd l' /\ glob "*.calfits"%string <> glob' "*.calfits"%string /\
  map snd (match load_dsets glob read cnames with Ok x => x | Err _ => [] end) <> map snd (match load_dsets glob' read cnames with Ok x => x | Err _ => [] end).
Proof.
  exists (fun _ => ["a.calfits"%string]), (fun _ => ["b.calfits"%string]), (fun l => Ok (List.length l)), [Pattern "*.calfits"]. eexists. eexists. split; [reflexivity|]. split; [reflexivity|]. split; [reflexivity|]. split; discriminate.
Qed.
Print Assumptions load_dsets_spec.
Print Assumptions load_cals_spec.
Print Assumptions load_cals_record_refuted.
Example load_case : load_dsets (fun _ => ["x.uvh5"; "y.uvh5"]%string) (fun l => Ok (List.length l)) [Pattern "*.uvh5"; Files ["z.uvh5"%string]] =
  Ok [(2, Files ["x.uvh5"; "y.uvh5"]%string); (1, Files ["z.uvh5"%string])].
Proof. reflexivity. Qed.

(** * C330: distinct values in order of first appearance *)
(** [i] is the first place of its value *)
Definition first_place (l : list Z) (i : nat) : Prop := exists x, nth_error l i = Some x /\ ~ In x (firstn i l).
Lemma first_index_spec x l : In x l -> nth_error l (first_index x l) = Some x /\ ~ In x (firstn (first_index x l) l).
Proof.
  induction l as [|y l IH]; intros H; [destruct H|]. cbn. destruct (Z.eqb_spec x y) as [->|N]; [cbn; auto|]. destruct H as [H|H]; [congruence|]. destruct (IH H) as [H1 H2]. cbn. split; [exact H1|]. intros [E|E]; [congruence|contradiction].
Qed.
Lemma first_index_unique x l i : nth_error l i = Some x -> ~ In x (firstn i l) -> first_index x l = i.
Proof.
  revert i. induction l as [|y l IH]; intros [|i] H N; cbn in *; try discriminate.
  - injection H as ->. rewrite Z.eqb_refl. reflexivity.
  - destruct (Z.eqb_spec x y) as [->|E]; [exfalso; apply N; left; reflexivity|]. f_equal. apply IH; tauto.
Qed.
(** the two numpy calls: the values at their first places, in increasing order of the places *)
Theorem ordered_unique_places : forall l, exists idx, StronglySorted lt idx /\ (forall i, In i idx <-> first_place l i) /\ np_ordered_unique l = map (fun i => nth i l 0%Z) idx.
Proof.
  intros l. unfold np_ordered_unique. set (vs := sorted_set Z.eq_dec Z.leb l). set (idx := isort Nat.leb (map (fun x => first_index x l) vs)). exists idx.
  assert (Hv : forall x, In x vs <-> In x l) by (intros x; apply sorted_set_In).
  assert (HI : forall i, In i idx <-> first_place l i).
  { intros i. unfold idx. split.
    - intros H. apply (Permutation_in _ (isort_perm Nat.leb _)) in H. apply in_map_iff in H. destruct H as [x [<- Hx]]. apply Hv in Hx. exists x. apply first_index_spec, Hx.
    - intros (x & H1 & H2). apply (Permutation_in _ (Permutation_sym (isort_perm Nat.leb _))). apply in_map_iff. exists x. split; [apply first_index_unique; assumption|]. apply Hv. exact (nth_error_In _ _ H1). }
  assert (ND : NoDup idx).
  { apply (Permutation_NoDup (Permutation_sym (isort_perm Nat.leb _))). assert (N : NoDup vs) by apply sorted_set_NoDup. revert N. assert (S : forall x, In x vs -> In x l) by (intros; apply Hv; assumption). revert S. generalize vs.
    clear. induction vs as [|x vs IH]; intros S N; cbn; [constructor|]. inversion N as [|? ? N1 N2]; subst. constructor; [|apply IH; [intros; apply S; right; assumption|exact N2]].
    intros I. apply in_map_iff in I. destruct I as [y [E Hy]]. apply N1. replace x with y; [exact Hy|]. destruct (first_index_spec x l (S x (or_introl eq_refl))) as [A _]. destruct (first_index_spec y l (S y (or_intror Hy))) as [B _]. rewrite E in B. congruence. }
  split; [|split; [exact HI|reflexivity]].
  assert (SS : StronglySorted (fun x y => Nat.leb x y = true) idx).
  { apply (isort_sorted Nat.leb). 2: intros a b c H1 H2; apply Nat.leb_le in H1, H2; apply Nat.leb_le; lia. intros a b. destruct (Nat.leb_spec a b); [auto|right; apply Nat.leb_le; lia]. }
  clear -SS ND. induction SS as [|x t S IH F]; constructor; [apply IH; inversion ND; assumption|]. inversion ND as [|? ? N1 N2]; subst. rewrite Forall_forall in *. intros y Hy. specialize (F y Hy). apply Nat.leb_le in F.
  assert (x <> y) by (intros ->; contradiction). lia.
Qed.

Lemma ou_places l : forall seen, exists idx, StronglySorted lt idx /\ (forall i, In i idx <-> exists x, nth_error l i = Some x /\ ~ In x (firstn i l) /\ ~ In x seen) /\
  ordered_unique seen l = map (fun i => nth i l 0%Z) idx.
Proof.
  induction l as [|y l IH]; intros seen.
  - exists []. split; [constructor|]. split; [|reflexivity]. intros i. split; [intros []|]. intros (x & H & _). destruct i; discriminate.
  - cbn [ordered_unique]. destruct (memZ y seen) eqn:M.
    + destruct (IH seen) as (idx & H1 & H2 & H3). exists (map S idx). split; [clear -H1; induction H1 as [|a t S I F]; constructor; [exact I|]; rewrite Forall_forall in *; intros z Hz; apply in_map_iff in Hz; destruct Hz as [w [<- Hw]]; specialize (F w Hw); lia|].
      apply memZ_In in M. split; [|rewrite map_map; exact H3]. intros i. rewrite in_map_iff. split.
      * intros (j & <- & Hj). apply H2 in Hj. destruct Hj as (x & A & B & C). exists x. cbn. repeat split; try assumption. intros [E|E]; [subst; contradiction|contradiction].
      * intros (x & A & B & C). destruct i as [|i]; [cbn in A; injection A as <-; contradiction|]. exists i. split; [reflexivity|]. apply H2. exists x. cbn in A, B. tauto.
    + destruct (IH (y :: seen)) as (idx & H1 & H2 & H3). assert (N : ~ In y seen) by (intros Q; apply memZ_In in Q; congruence). exists (0 :: map S idx). split; [|split].
      * constructor; [clear -H1; induction H1 as [|a t S I F]; constructor; [exact I|]; rewrite Forall_forall in *; intros z Hz; apply in_map_iff in Hz; destruct Hz as [w [<- Hw]]; specialize (F w Hw); lia|].
        apply Forall_forall. intros z Hz. apply in_map_iff in Hz. destruct Hz as [w [<- _]]. lia.
      * intros i. cbn [In]. rewrite in_map_iff. split.
        -- intros [<-|(j & <- & Hj)]; [exists y; cbn; tauto|]. apply H2 in Hj. destruct Hj as (x & A & B & C). exists x. cbn in *. tauto.
        -- intros (x & A & B & C). destruct i as [|i]; [left; reflexivity|]. right. exists i. split; [reflexivity|]. apply H2. exists x. cbn in A, B. cbn. tauto.
      * cbn. f_equal. rewrite map_map. exact H3.
Qed.
Lemma ss_ext a : forall b, StronglySorted lt a -> StronglySorted lt b -> (forall i, In i a <-> In i b) -> a = b.
Proof.
  induction a as [|x a IH]; intros [|y b] Ha Hb E; [reflexivity|exfalso; apply (proj2 (E y)); left; reflexivity|exfalso; apply (proj1 (E x)); left; reflexivity|].
  inversion Ha as [|? ? Sa Fa]; inversion Hb as [|? ? Sb Fb]; subst. rewrite Forall_forall in Fa, Fb.
  assert (x = y). { destruct (proj1 (E x) (or_introl eq_refl)) as [Q|Q]; [congruence|]. destruct (proj2 (E y) (or_introl eq_refl)) as [R|R]; [congruence|]. specialize (Fb _ Q). specialize (Fa _ R). lia. }
  subst y. f_equal. apply IH; try assumption. intros i. split; intros H.
  - destruct (proj1 (E i) (or_intror H)) as [<-|Q]; [specialize (Fa _ H); lia|exact Q].
  - destruct (proj2 (E i) (or_intror H)) as [<-|Q]; [specialize (Fb _ H); lia|exact Q].
Qed.
(** so get_all_keys, which relies on it, lists the pairs in the order in which their records appear *)
Theorem np_ordered_unique_correct : forall l, np_ordered_unique l = ordered_unique [] l.
Proof.
  intros l. destruct (ordered_unique_places l) as (a & A1 & A2 & ->). destruct (ou_places l []) as (b & B1 & B2 & ->). f_equal. apply ss_ext; try assumption.
  intros i. rewrite A2, B2. unfold first_place. split; intros (x & H); exists x; cbn; tauto.
Qed.
Print Assumptions ordered_unique_places.
Print Assumptions np_ordered_unique_correct.
Example ordered_unique_case : np_ordered_unique [7; 3; 7; 5; 3; 1]%Z = [7; 3; 5; 1]%Z.
Proof. reflexivity. Qed.

(** * C331: time differences of a pair of datasets *)
Theorem time_difference_spec : forall (D W : Type) (diff : D -> result D) dsets (wgts : list W), List.length wgts = List.length dsets -> forall r,
  time_difference diff dsets wgts = Ok r <->
  exists d0 d1 a b, dsets = [d0; d1] /\ diff d0 = Ok a /\ diff d1 = Ok b /\ r = ([a; b], wgts, ["dset0"; "dset1"]%string, [None; None]).
Proof.
  intros D W diff dsets wgts L r. unfold time_difference. split.
  - destruct dsets as [|d0 [|d1 t]]; try discriminate. destruct (diff d0) as [a|] eqn:A; [|discriminate]. destruct (diff d1) as [b|] eqn:B; [|discriminate]. cbn. unfold require.
    destruct (Nat.eqb_spec (List.length wgts) 2) as [E|E]; [|discriminate]. intros H. injection H as <-. rewrite E in L. destruct t; [|discriminate]. exists d0, d1, a, b. auto.
  - intros (d0 & d1 & a & b & -> & A & B & ->). rewrite A, B. cbn. rewrite L. reflexivity.
Qed.
(** with fewer than two datasets, and with more, there is an error; a failing difference is reported *)
Theorem time_difference_errors : forall (D W : Type) (diff : D -> result D) dsets (wgts : list W), List.length wgts = List.length dsets ->
  (List.length dsets < 2 -> time_difference diff dsets wgts = Err IndexError) /\
  (2 < List.length dsets -> exists e, time_difference diff dsets wgts = Err e) /\
  (forall d0 d1 e, dsets = [d0; d1] -> diff d0 = Err e \/ (exists a, diff d0 = Ok a) /\ diff d1 = Err e -> time_difference diff dsets wgts = Err e).
Proof.
  intros D W diff dsets wgts L. unfold time_difference. split; [|split].
  - destruct dsets as [|d0 [|d1 t]]; cbn; intros; try reflexivity; lia.
  - destruct dsets as [|d0 [|d1 t]]; cbn [List.length]; intros; try lia. destruct (diff d0) as [a|e]; [|exists e; reflexivity]. destruct (diff d1) as [b|e]; [|exists e; reflexivity]. cbn. exists AssertionError.
    unfold require. destruct (Nat.eqb_spec (List.length wgts) 2) as [E|E]; [cbn in *; lia|reflexivity].
  - intros d0 d1 e -> [H|[[a A] H]]; [rewrite H; reflexivity|rewrite A, H; reflexivity].
Qed.
Print Assumptions time_difference_spec.
Print Assumptions time_difference_errors.
Example time_difference_case : time_difference (fun d : nat => Ok (d + 1)) [4; 9] [true; false] = Ok ([5; 10], [true; false], ["dset0"; "dset1"]%string, [None; None]).
Proof. reflexivity. Qed.
