(** Storing UVPSpec objects in HDF5 groups: what is written is read back, what is not, partial reads. *)
From Coq Require Import Sorted String Ascii.
From Verif Require Import PyDict PyStr H5Model H5Proofs.
From Verif Require Import Prelude ListLemmas.
Open Scope nat_scope.

Definition symmetric_taper : pystr := s_ "symmetric_taper".
Definition time_2_array : pystr := s_ "time_2_array".

(** every required parameter of the class but symmetric_taper is stored: as an attribute, as a dataset, or window by window *)
Theorem required_parameters_stored : forall p, In p req_params -> p <> symmetric_taper -> In p meta_attrs \/ In p meta_dsets \/ In p dicts.
Proof.
  intros p H N. assert (F : forallb (fun p => str_eqb p symmetric_taper || memn p meta_attrs || memn p meta_dsets || memn p dicts) req_params = true)
    by (vm_compute; reflexivity).
  rewrite forallb_forall in F. specialize (F p H). rewrite !orb_true_iff in F. rewrite !memn_In in F. rewrite str_eqb_eq in F. tauto.
Qed.
Print Assumptions required_parameters_stored.

Strategy 1000 [declared all_params meta_dsets dicts dicts_of_dicts req_params with_arrays].
Strategy expand [meta_attrs].

Section Thms.
Context {V : Type}.
Variables (enc dec : pystr -> V -> V) (spws_of : V -> list nat) (truth : V -> bool) (v_type v_false : V) (is_uvpspec : V -> bool).
Notation obj := (obj V).
Notation write o := (write_group enc spws_of truth v_type o (mkgrp [] [])).
Notation read := (read_group dec v_false is_uvpspec).
Notation no_sel := (no_selection spws_of).

(** the value of statistic [s] for window [i] *)
Definition stat_at (o : obj) (s : pystr) (i : nat) : option V :=
  match o_stats o with
  | None => None
  | Some st => match dget name_dec st s with None => None | Some d => dget Nat.eq_dec d i end
  end.

(** objects with windows [sp] (check() makes them 0 .. Nspws-1), every array it has filled for all of them, the four required
    arrays, exact windows iff the flag says so, both parts of the covariance or none; any statistics *)
Definition complete (o : obj) (sp : list nat) : Prop :=
  (exists v, aget (o_attr o) a_spw = Some v /\ spws_of v = sp) /\ In 0 sp /\
  (exists v, aget (o_attr o) time_2_array = Some v) /\
  (forall a, In a [d_data; d_wgt; d_int; d_nsmp] -> has_arr o a = true) /\
  (exists e, aget (o_attr o) a_exact = Some e /\ has_arr o d_kperp = has_arr o d_win && truth e /\ has_arr o d_kpara = has_arr o d_win && truth e) /\
  has_arr o d_covi = has_arr o d_covr /\
  (forall a i, has_arr o a = true -> In i sp -> exists v, arr_at o a i = Ok v) /\
  (forall st, o_stats o = Some st -> NoDup (map fst st) /\ forall s d i, In (s, d) st -> In i sp -> exists v, dget Nat.eq_dec d i = Some v).

Lemma ok_inj {A} (x y : A) : Ok x = Ok y -> x = y.
Proof. intros E. injection E. auto. Qed.
Lemma bind_Ok_l {A B} (x : A) (f : A -> result B) : bind (Ok x) f = f x.
Proof. reflexivity. Qed.
Lemma map_res_In {A B} (f : A -> result B) l r y : map_res f l = Ok r -> (In y r <-> exists x, In x l /\ f x = Ok y).
Proof.
  intros E. apply map_res_spec in E. induction E as [|x z l r H E IH]; simpl.
  - split; [intros []|intros (x & [] & _)].
  - rewrite IH. split.
    + intros [<-|(x' & I & F)]; [exists x; auto|exists x'; auto].
    + intros (x' & [<-|I] & F); [left; congruence|right; exists x'; auto].
Qed.
Lemma assoc_get {D} (F : pystr -> result D) ks r : map_res (fun k => bind (F k) (fun d => Ok (k, d))) ks = Ok r ->
  map fst r = ks /\ (forall k, In k ks -> exists d, F k = Ok d /\ dget name_dec r k = Some d) /\
  (forall k, ~ In k ks -> dget name_dec r k = None).
Proof.
  intros E. apply map_res_spec in E. induction E as [|k [k' d] ks r H E (IH1 & IH2 & IH3)]; simpl.
  - split; [reflexivity|]. split; [intros k []|reflexivity].
  - apply bind_ok in H as (d0 & H & H'). injection H' as <- <-. split; [f_equal; exact IH1|]. split.
    + intros j [<-|I]; [exists d0; split; [exact H|]; destruct (name_dec k k); congruence|].
      destruct (name_dec j k) as [->|N]; [exists d0; auto|]. apply IH2, I.
    + intros j N. destruct (name_dec j k) as [->|N']; [exfalso; apply N; left; reflexivity|]. apply IH3. intros I. apply N. right. exact I.
Qed.

Definition arrays (o : obj) : list pystr :=
  [d_data; d_wgt; d_int; d_nsmp] ++
  (if has_arr o d_win then [d_win] ++ (if has_arr o d_kperp then [d_kperp; d_kpara] else []) else []) ++
  (if has_arr o d_covr then [d_covr; d_covi] else []).
Lemma arrays_dicts o a : In a (arrays o) -> In a dicts.
Proof.
  unfold arrays. rewrite !in_app_iff. intros [H|[H|H]].
  - repeat (destruct H as [<-|H]; [vm_compute; tauto|]). destruct H.
  - destruct (has_arr o d_win); [|destruct H]. rewrite in_app_iff in H. destruct H as [H|H].
    + destruct H as [<-|[]]. vm_compute; tauto.
    + destruct (has_arr o d_kperp); [|destruct H]. repeat (destruct H as [<-|H]; [vm_compute; tauto|]). destruct H.
  - destruct (has_arr o d_covr); [|destruct H]. repeat (destruct H as [<-|H]; [vm_compute; tauto|]). destruct H.
Qed.
Lemma dicts_has o sp a : complete o sp -> In a dicts -> (In a (arrays o) <-> has_arr o a = true).
Proof.
  intros (_ & _ & _ & R & (e & _ & P1 & P2) & CV & _) H.
  assert (D : In a [d_data; d_wgt; d_int; d_nsmp] \/ a = d_win \/ a = d_kperp \/ a = d_kpara \/ a = d_covr \/ a = d_covi).
  { assert (F : forallb (fun a => memn a [d_data; d_wgt; d_int; d_nsmp] || memn a [d_win; d_kperp; d_kpara; d_covr; d_covi]) dicts = true) by (vm_compute; reflexivity).
    rewrite forallb_forall in F. specialize (F a H). rewrite orb_true_iff, !memn_In in F. destruct F as [F|F]; [left; exact F|right].
    repeat (destruct F as [<-|F]; [tauto|]). destruct F. }
  assert (NE : forall x y : pystr, str_eqb x y = false -> x <> y).
  { intros x y E ->. rewrite (proj2 (str_eqb_eq y y) eq_refl) in E. discriminate. }
  unfold arrays. rewrite !in_app_iff. destruct D as [D|D]; [split; [intros _; apply R, D|intros _; left; exact D]|].
  assert (E0 : ~ In a [d_data; d_wgt; d_int; d_nsmp]).
  { assert (F : forallb (fun a => negb (memn a [d_data; d_wgt; d_int; d_nsmp])) [d_win; d_kperp; d_kpara; d_covr; d_covi] = true) by (vm_compute; reflexivity).
    rewrite forallb_forall in F. assert (I : In a [d_win; d_kperp; d_kpara; d_covr; d_covi]) by (simpl; intuition).
    apply F in I. apply negb_true_iff, memn_false in I. exact I. }
  assert (N1 : forall b c, memn b c = false -> ~ In b c) by (intros; apply memn_false; assumption).
  destruct D as [-> | [-> | [-> | [-> | ->]]]].
  - destruct (has_arr o d_win) eqn:W; [intuition; left; left; reflexivity|].
    split; [|discriminate]. intros [C|[ [] |C]]; [contradiction|]. destruct (has_arr o d_covr); [|destruct C].
    exfalso. revert C. apply N1. reflexivity.
  - rewrite P1. destruct (has_arr o d_win) eqn:W; simpl.
    + destruct (truth e) eqn:T; simpl.
      * split; [reflexivity|]. intros _. right. left. right. left. reflexivity.
      * split; [|discriminate]. intros [C|[C|C]]; [contradiction| |].
        -- exfalso. revert C. apply (N1 d_kperp [d_win]). reflexivity.
        -- destruct (has_arr o d_covr); [|destruct C]. exfalso. revert C. apply N1. reflexivity.
    + split; [|discriminate]. intros [C|[ [] |C]]; [contradiction|]. destruct (has_arr o d_covr); [|destruct C]. exfalso. revert C. apply N1. reflexivity.
  - rewrite P1, P2. destruct (has_arr o d_win) eqn:W; simpl.
    + destruct (truth e) eqn:T; simpl.
      * split; [reflexivity|]. intros _. right. left. right. right. left. reflexivity.
      * split; [|discriminate]. intros [C|[C|C]]; [contradiction| |].
        -- exfalso. revert C. apply (N1 d_kpara [d_win]). reflexivity.
        -- destruct (has_arr o d_covr); [|destruct C]. exfalso. revert C. apply N1. reflexivity.
    + split; [|discriminate]. intros [C|[ [] |C]]; [contradiction|]. destruct (has_arr o d_covr); [|destruct C]. exfalso. revert C. apply N1. reflexivity.
  - destruct (has_arr o d_covr) eqn:W.
    + split; [reflexivity|]. intros _. right. right. left. reflexivity.
    + split; [|discriminate]. intros [C|[C|[]]]; [contradiction|]. exfalso. destruct (has_arr o d_win); [|destruct C].
      destruct (has_arr o d_kperp); revert C; apply N1; reflexivity.
  - rewrite CV. destruct (has_arr o d_covr) eqn:W.
    + split; [reflexivity|]. intros _. right. right. right. left. reflexivity.
    + split; [|discriminate]. intros [C|[C|[]]]; [contradiction|]. exfalso. destruct (has_arr o d_win); [|destruct C].
      destruct (has_arr o d_kperp); revert C; apply N1; reflexivity.
Qed.

(** the datasets of a written group *)
Lemma stored_arrays_complete o sp : complete o sp -> stored_arrays truth o = Ok (arrays o).
Proof.
  intros (_ & _ & _ & _ & (e & E & P1 & P2) & _). unfold stored_arrays, arrays. rewrite E. destruct (has_arr o d_win).
  - simpl in P1. rewrite P1. destruct (truth e); reflexivity.
  - reflexivity.
Qed.
Definition in_file (o : obj) (sp : list nat) (n : pystr) (v : V) : Prop :=
  (In n meta_dsets /\ aget (o_attr o) n = Some v) \/
  (exists a i, In a (arrays o) /\ In i sp /\ n = ds_name a i /\ arr_at o a i = Ok v) \/
  (exists st s d i, o_stats o = Some st /\ In (s, d) st /\ In i sp /\ n = stat_name s i /\ dget Nat.eq_dec d i = Some v).

Lemma meta_In (o : obj) n v :
  In (n, v) (flat_map (fun k => match aget (o_attr o) k with Some v => [(k, v)] | None => [] end) meta_dsets) <-> In n meta_dsets /\ aget (o_attr o) n = Some v.
Proof.
  rewrite in_flat_map. split.
  - intros (k & H & I). destruct (aget (o_attr o) k) eqn:E; [|destruct I]. destruct I as [I|[]]. injection I as <- <-. auto.
  - intros [H E]. exists n. split; [exact H|]. rewrite E. left. reflexivity.
Qed.
Lemma windows_In (o : obj) as_ sp ws n v : map_res (window_items o as_) sp = Ok ws ->
  (In (n, v) (concat ws) <-> exists a i, In a as_ /\ In i sp /\ n = ds_name a i /\ arr_at o a i = Ok v).
Proof.
  intros E. rewrite in_concat. split.
  - intros (w & Hw & I). apply (map_res_In _ _ _ w E) in Hw as (i & Hi & W). unfold window_items in W.
    apply (map_res_In _ _ _ (n, v) W) in I as (a & Ha & B). apply bind_ok in B as (v' & B & B'). injection B' as <- <-. exists a, i. auto.
  - intros (a & i & Ha & Hi & -> & B). pose proof E as E'. apply map_res_spec in E'.
    assert (exists w, In w ws /\ window_items o as_ i = Ok w) as (w & Hw & W).
    { clear E. induction E' as [|x y l r X E' IH]; [destruct Hi|]. destruct Hi as [->|Hi]; [exists y; simpl; auto|].
      destruct (IH Hi) as (w & A & C). exists w. simpl. auto. }
    exists w. split; [exact Hw|]. unfold window_items in W. apply (map_res_In _ _ _ _ W). exists a. split; [exact Ha|]. rewrite B. reflexivity.
Qed.
Lemma stats_In sp (st : list (pystr * list (nat * V))) ss n v : map_res (stat_items sp) st = Ok ss ->
  (In (n, v) (concat ss) <-> exists s d i, In (s, d) st /\ In i sp /\ n = stat_name s i /\ dget Nat.eq_dec d i = Some v).
Proof.
  intros E. rewrite in_concat. split.
  - intros (w & Hw & I). apply (map_res_In _ _ _ w E) in Hw as ([s d] & Hi & W). unfold stat_items in W. simpl in W.
    apply (map_res_In _ _ _ (n, v) W) in I as (i & Ha & B). destruct (dget Nat.eq_dec d i) eqn:G; [|discriminate].
    injection B as <- <-. exists s, d, i. auto.
  - intros (s & d & i & Hs & Hi & -> & B). pose proof E as E'. apply map_res_spec in E'.
    assert (exists w, In w ss /\ stat_items sp (s, d) = Ok w) as (w & Hw & W).
    { clear E. induction E' as [|x y l r X E' IH]; [destruct Hs|]. destruct Hs as [->|Hi']; [exists y; simpl; auto|].
      destruct (IH Hi') as (w & A & C). exists w. simpl. auto. }
    exists w. split; [exact Hw|]. unfold stat_items in W. simpl in W. apply (map_res_In _ _ _ _ W). exists i. split; [exact Hi|]. rewrite B. reflexivity.
Qed.

Lemma write_content o sp g : complete o sp -> write o = Ok g ->
  NoDup (map fst (g_dsets g)) /\ (forall n v, In (n, v) (g_dsets g) <-> in_file o sp n v) /\
  NoDup (map fst (g_attrs g)) /\
  (forall k, In k meta_attrs -> aget (g_attrs g) k = option_map (enc k) (aget (o_attr o) k)) /\
  aget (g_attrs g) t_pspec = Some v_type.
Proof.
  intros C W. pose proof (stored_arrays_complete o sp C) as SA. destruct C as ((vs & S1 & S2) & _ & _ & _ & _ & _ & _ & _).
  unfold write_group in W.
  apply bind_ok in W as (d1 & W1 & W). apply bind_ok in W as (sp' & W2 & W). unfold spws in W2. rewrite S1, S2 in W2. injection W2 as <-.
  apply bind_ok in W as (as_ & W3 & W). rewrite SA in W3. injection W3 as <-.
  apply bind_ok in W as (ws & W4 & W). apply bind_ok in W as (d2 & W5 & W). apply bind_ok in W as (d3 & W6 & W). apply ok_inj in W. subst g. cbn [g_dsets g_attrs] in *.
  apply create_ok in W1 as [E1 N1]. apply create_ok in W5 as [E2 N2].
  assert (X : NoDup (map fst d3) /\ forall n v, In (n, v) d3 <-> In (n, v) d2 \/
     exists st s d i, o_stats o = Some st /\ In (s, d) st /\ In i sp /\ n = stat_name s i /\ dget Nat.eq_dec d i = Some v).
  { destruct (o_stats o) as [st|].
    - apply bind_ok in W6 as (ss & W6 & W7). apply create_ok in W7 as [E3 N3]. split; [apply N3, N2, N1; constructor|].
      intros n v. subst d3. rewrite in_app_iff, (stats_In _ _ _ _ _ W6). split.
      + intros [H|(s & d & i & H1 & H2 & H3 & H4)]; [left; exact H|right]. exists st, s, d, i. rewrite unique_In in H2. auto.
      + intros [H|(st' & s & d & i & H0 & H1 & H2 & H3 & H4)]; [left; exact H|right]. injection H0 as <-. exists s, d, i. rewrite unique_In. auto.
    - injection W6 as <-. split; [apply N2, N1; constructor|]. intros n v. split; [auto|]. intros [H|(st & s & d & i & H & _)]; [exact H|discriminate]. }
  destruct X as [X1 X2]. split; [exact X1|]. split.
  { intros n v. rewrite X2. unfold in_file. subst d2 d1. rewrite app_nil_l, in_app_iff, meta_In, (windows_In _ _ _ _ _ _ W4).
    split.
    - intros [[H|(a & i & H1 & H2 & H3 & H4)]|H]; [left; exact H| |right; right; exact H].
      right. left. exists a, i. rewrite unique_In in H2. auto.
    - intros [H|[(a & i & H1 & H2 & H3 & H4)|H]]; [left; left; exact H| |right; exact H].
      left. right. exists a, i. rewrite unique_In. auto. }
  split; [apply dset_NoDup, fold_set_NoDup; constructor|]. split.
  - intros k Hk. unfold aget at 1. rewrite dget_dset. destruct (name_dec k t_pspec) as [->|_].
    { exfalso. revert Hk. apply memn_false. vm_compute. reflexivity. }
    rewrite fold_set_get. apply memn_In in Hk. rewrite Hk. destruct (aget (o_attr o) k); reflexivity.
  - unfold aget. rewrite dget_dset. destruct (name_dec t_pspec t_pspec); congruence.
Qed.

Lemma ds_stat_ne a i s j : In a dicts -> ds_name a i <> stat_name s j.
Proof. intros H E. pose proof (ds_name_prefix a i H) as P. rewrite E, stat_name_prefix in P. discriminate. Qed.

(** lookups in a written group *)
Lemma written_lookup o sp g : complete o sp -> write o = Ok g ->
  (forall k, In k meta_dsets -> aget (g_dsets g) k = aget (o_attr o) k) /\
  (forall a i, In a dicts -> In i sp -> file_get g (ds_name a i) = if has_arr o a then arr_at o a i else Err KeyError) /\
  (forall s i, In i sp -> aget (g_dsets g) (stat_name s i) = stat_at o s i) /\
  aget (g_dsets g) (s_ "cov_array_spw0") = None.
Proof.
  intros C W. destruct (write_content o sp g C W) as (ND & IN & _).
  assert (L : forall n v, aget (g_dsets g) n = Some v <-> in_file o sp n v).
  { intros n v. rewrite <- IN. split; [apply dget_In|apply In_dget, ND]. }
  assert (LN : forall n, (forall v, ~ in_file o sp n v) -> aget (g_dsets g) n = None).
  { intros n H. destruct (aget (g_dsets g) n) eqn:E; [|reflexivity]. apply L in E. exfalso. eapply H, E. }
  split; [|split; [|split]].
  - intros k Hk. destruct (aget (o_attr o) k) eqn:E.
    + apply L. left. auto.
    + apply LN. intros v [[_ H]|[(a & i & _ & _ & -> & _)|(st & s & d & i & _ & _ & _ & -> & _)]]; [congruence| |].
      * revert Hk. apply ds_name_not_meta.
      * revert Hk. apply stat_name_not_meta.
  - intros a i Ha Hi. pose proof (dicts_has o sp a C Ha) as DH. destruct (has_arr o a) eqn:E.
    + destruct C as (_ & _ & _ & _ & _ & _ & AR & _). destruct (AR a i E Hi) as [v Hv]. rewrite Hv. unfold file_get.
      replace (aget (g_dsets g) (ds_name a i)) with (Some v); [reflexivity|]. symmetry. apply L. right. left. exists a, i. tauto.
    + unfold file_get. rewrite LN; [reflexivity|]. intros v [[H _]|[(b & j & Hb & _ & Hn & _)|(st & s & d & j & _ & _ & _ & Hn & _)]].
      * revert H. apply ds_name_not_meta.
      * apply ds_name_inj in Hn as [-> ->]; [|exact Ha|eapply arrays_dicts, Hb]. apply DH in Hb. discriminate.
      * revert Hn. apply ds_stat_ne, Ha.
  - intros s i Hi. destruct (stat_at o s i) eqn:E.
    + apply L. right. right. unfold stat_at in E. destruct (o_stats o) as [st|]; [|discriminate]. destruct (dget name_dec st s) as [d|] eqn:G; [|discriminate].
      exists st, s, d, i. apply dget_In in G. auto.
    + apply LN. intros v [[H _]|[(b & j & Hb & _ & Hn & _)|(st & s' & d & j & H0 & H1 & _ & Hn & H2)]].
      * revert H. apply stat_name_not_meta.
      * symmetry in Hn. revert Hn. apply ds_stat_ne. eapply arrays_dicts, Hb.
      * apply stat_name_inj in Hn as [<- <-]. unfold stat_at in E. rewrite H0 in E. destruct C as (_ & _ & _ & _ & _ & _ & _ & ST).
        destruct (ST st H0) as [NS _]. rewrite (In_dget name_dec st s d NS H1) in E. congruence.
  - apply LN. intros v [[H _]|[(b & j & Hb & _ & Hn & _)|(st & s' & d & j & _ & _ & _ & Hn & _)]].
    + revert H. apply memn_false. vm_compute. reflexivity.
    + apply arrays_dicts in Hb. rewrite ds_name_split in Hn.
      change (s_ "cov_array_spw0") with ((s_ "cov_array" ++ s_ "_sp") ++ w_char :: str_Z (Z.of_nat 0)) in Hn.
      apply sep_inj in Hn as [Hn _]; try nochar. apply app_inv_tail in Hn. unfold dicts, names in Hb.
      repeat (destruct Hb as [<-|Hb]; [vm_compute in Hn; discriminate|]). destruct Hb.
    + discriminate.
Qed.

Lemma window_keys (o : obj) as_ sp ws : map_res (window_items o as_) sp = Ok ws ->
  map fst (concat ws) = flat_map (fun i => map (fun a => ds_name a i) as_) sp.
Proof.
  intros Hws. apply map_res_spec in Hws. induction Hws as [|i w l r H E IH]; [reflexivity|]. simpl. rewrite map_app, IH. f_equal.
  unfold window_items in H. apply map_res_spec in H. clear - H. induction H as [|a p l2 r2 H E IH]; [reflexivity|]. simpl. rewrite IH. f_equal.
  apply bind_ok in H as (v & _ & H). injection H as <-. reflexivity.
Qed.
Lemma stat_keys sp (st : list (pystr * list (nat * V))) ss : map_res (stat_items sp) st = Ok ss ->
  map fst (concat ss) = flat_map (fun s => map (fun i => stat_name s i) sp) (map fst st).
Proof.
  intros Hss. apply map_res_spec in Hss. induction Hss as [|[s d] w l r H E IH]; [reflexivity|]. simpl. rewrite map_app, IH. f_equal.
  unfold stat_items in H. simpl in H. apply map_res_spec in H. clear - H. induction H as [|a p l2 r2 H E IH]; [reflexivity|]. simpl. rewrite IH. f_equal.
  destruct (dget Nat.eq_dec d a); [|discriminate]. injection H as <-. reflexivity.
Qed.
(** ** writing succeeds *)
Theorem write_succeeds : forall o sp, complete o sp -> exists g, write o = Ok g.
Proof.
  intros o sp C. pose proof (stored_arrays_complete o sp C) as SA. pose proof (fun a => dicts_has o sp a C) as DH.
  destruct C as ((vs & S1 & S2) & _ & _ & _ & _ & _ & AR & ST).
  unfold write_group. rewrite create_total.
  2:{ assert (N : NoDup meta_dsets) by (apply (NoDup_count_occ' name_dec); intros x H; unfold meta_dsets, names in H;
        repeat (destruct H as [<-|H]; [vm_compute; reflexivity|]); destruct H).
      revert N. generalize meta_dsets as ms. induction ms as [|k ms IH]; intros N; [constructor|]. inversion N as [|? ? N1 N2]; subst.
      simpl. destruct (aget (o_attr o) k); [|apply IH, N2]. simpl. constructor; [|apply IH, N2].
      intros H. apply in_map_iff in H as ([k' v'] & <- & H). apply in_flat_map in H as (k2 & H1 & H2). destruct (aget (o_attr o) k2); [|destruct H2].
      destruct H2 as [H2|[]]. injection H2 as <- <-. contradiction. }
  2:{ intros n _ []. }
  rewrite bind_Ok_l. unfold spws. rewrite S1, S2, bind_Ok_l, SA, bind_Ok_l. cbn [g_dsets].
  destruct (map_res_total (window_items o (arrays o)) (unique sp)) as [ws Hws].
  { apply Forall_forall. intros i Hi. rewrite unique_In in Hi. unfold window_items. apply map_res_total. apply Forall_forall. intros a Ha.
    destruct (AR a i) as [v Hv]; [apply DH; [eapply arrays_dicts, Ha|exact Ha]|exact Hi|]. rewrite Hv. simpl. eauto. }
  rewrite Hws. rewrite bind_Ok_l.
  assert (NA : NoDup (arrays o)).
  { unfold arrays. apply (NoDup_count_occ' name_dec). intros x H.
    destruct (has_arr o d_win), (has_arr o d_kperp), (has_arr o d_covr); simpl app in *;
    repeat (destruct H as [<-|H]; [vm_compute; reflexivity|]); destruct H. }
  pose proof (window_keys o (arrays o) (unique sp) ws Hws) as KW.
  rewrite create_total.
  2:{ rewrite KW. pose proof (unique_NoDup sp) as NU. revert NU. generalize (unique sp) as l. induction l as [|i l IH]; intros N; [constructor|].
      inversion N as [|? ? N1 N2]; subst. cbn [flat_map]. apply NoDup_app_3; [|apply IH, N2|].
      - apply NoDup_map_in; [|exact NA]. intros a b Ha Hb E. apply ds_name_inj in E as [E _]; [exact E| |]; eapply arrays_dicts; eassumption.
      - intros n H1 H2. apply in_map_iff in H1 as (a & <- & Ha). apply in_flat_map in H2 as (j & Hj & H2). apply in_map_iff in H2 as (b & E & Hb).
        apply ds_name_inj in E as [_ E]; try (eapply arrays_dicts; eassumption). subst. contradiction. }
  2:{ intros n Hn Hm. rewrite KW in Hn. apply in_flat_map in Hn as (i & _ & Hn). apply in_map_iff in Hn as (a & <- & _).
      apply in_map_iff in Hm as ([k v] & E & Hm). simpl in E. subst k. change (([]:H5Model.dict V) ++ ?x) with x in Hm. apply meta_In in Hm as [Hm _]. revert Hm. apply ds_name_not_meta. }
  rewrite bind_Ok_l. destruct (o_stats o) as [st|]; [|rewrite bind_Ok_l; eauto].
  destruct (ST st eq_refl) as [NS SF].
  destruct (map_res_total (stat_items (unique sp)) st) as [ss Hss].
  { apply Forall_forall. intros [s d] Hs. unfold stat_items. apply map_res_total. apply Forall_forall. intros i Hi. rewrite unique_In in Hi.
    destruct (SF s d i Hs Hi) as [v Hv]. simpl. rewrite Hv. eauto. }
  rewrite Hss. rewrite bind_Ok_l.
  pose proof (stat_keys (unique sp) st ss Hss) as KS.
  rewrite create_total.
  2:{ rewrite KS. enough (G : forall l : list pystr, NoDup l -> NoDup (flat_map (fun s => map (fun i => stat_name s i) (unique sp)) l)) by (apply G; exact NS).
      induction l as [|s l IH]; intros N; [constructor|].
      inversion N as [|? ? N1 N2]; subst. cbn [flat_map]. apply NoDup_app_3; [|apply IH, N2|].
      - apply NoDup_map_in; [|apply unique_NoDup]. intros a b _ _ E. apply stat_name_inj in E as [_ E]. exact E.
      - intros n H1 H2. apply in_map_iff in H1 as (a & <- & Ha). apply in_flat_map in H2 as (j & Hj & H2). apply in_map_iff in H2 as (b & E & Hb).
        apply stat_name_inj in E as [E _]. subst. contradiction. }
  2:{ intros n Hn Hm. rewrite KS in Hn. apply in_flat_map in Hn as (s & _ & Hn). apply in_map_iff in Hn as (i & <- & _).
      rewrite map_app, in_app_iff in Hm. destruct Hm as [Hm|Hm].
      - apply in_map_iff in Hm as ([k v] & E & Hm). simpl in E. subst k. change (([]:H5Model.dict V) ++ ?x) with x in Hm. apply meta_In in Hm as [Hm _]. revert Hm. apply stat_name_not_meta.
      - rewrite KW in Hm. apply in_flat_map in Hm as (j & _ & Hm). apply in_map_iff in Hm as (a & E & Ha). revert E. apply ds_stat_ne. eapply arrays_dicts, Ha. }
  rewrite bind_Ok_l. eauto.
Qed.

(** ** reading *)
Lemma fold_dset_None (P : pystr -> bool) (F : pystr * V -> V) (l : list (pystr * V)) (d0 : H5Model.dict V) k : NoDup (map fst l) -> P k = false ->
  dget name_dec (fold_left (fun d kv => if P (fst kv) then dset name_dec d (fst kv) (F kv) else d) l d0) k = dget name_dec d0 k.
Proof. intros N E. rewrite fold_dset_get by exact N. rewrite E. reflexivity. Qed.
Lemma filter_get (P : pystr -> bool) (d : H5Model.dict V) k :
  dget name_dec (filter (fun kv => negb (P (fst kv))) d) k = if P k then None else dget name_dec d k.
Proof.
  induction d as [|[n v] d IH]; [simpl; destruct (P k); reflexivity|].
  cbn [filter fst]. destruct (P n) eqn:M; cbn [negb].
  - rewrite IH. cbn [dget]. destruct (name_dec k n) as [->|_]; [rewrite M; reflexivity|reflexivity].
  - cbn [dget]. destruct (name_dec k n) as [->|_]; [rewrite M; reflexivity|exact IH].
Qed.
(** reading, for any lists of attributes [A], datasets [D] and cleared parameters [P] *)
Lemma meta_folds_get (A D P : pystr -> bool) (at_ ds old : H5Model.dict V) k : NoDup (map fst at_) -> NoDup (map fst ds) ->
  (forall k, A k = true -> D k = false /\ P k = true) ->
  dget name_dec (fold_left (fun d kv => if D (fst kv) then dset name_dec d (fst kv) (snd kv) else d) ds
         (fold_left (fun d kv => if A (fst kv) then dset name_dec d (fst kv) (dec (fst kv) (snd kv)) else d) at_
            (filter (fun kv => negb (P (fst kv))) old))) k =
  if D k then match dget name_dec ds k with Some v => Some v | None => if P k then None else dget name_dec old k end
  else if A k then option_map (dec k) (dget name_dec at_ k)
  else if P k then None else dget name_dec old k.
Proof.
  intros N1 N2 DJ. rewrite (fold_dset_get D (fun kv => snd kv)) by exact N2.
  rewrite (fold_dset_get A (fun kv => dec (fst kv) (snd kv))) by exact N1. rewrite filter_get. cbn [fst snd].
  specialize (DJ k). destruct (D k), (A k); try (destruct (DJ eq_refl); discriminate); try reflexivity.
  destruct (DJ eq_refl) as [_ ->]. destruct (dget name_dec at_ k); reflexivity.
Qed.
Lemma filter_mem (P : pystr -> bool) l k : memn k (filter P l) = true -> memn k l = true /\ P k = true.
Proof. rewrite !memn_In. apply filter_In. Qed.
Lemma attrs_disjoint k : memn k meta_attrs = true -> memn k meta_dsets = false /\ memn k all_params = true.
Proof.
  intros H. unfold meta_attrs in H. apply filter_mem in H as [H1 H2]. split; [|exact H1].
  apply negb_true_iff in H2. apply orb_false_iff in H2 as [H2 _]. apply orb_false_iff in H2 as [_ H2]. exact H2.
Qed.
Lemma exact_is_attr : memn a_exact meta_attrs = true.
Proof. vm_compute; reflexivity. Qed.
Lemma read_meta_get g old d : NoDup (map fst (g_attrs g)) -> NoDup (map fst (g_dsets g)) ->
  read_meta dec v_false is_uvpspec g old = Ok d -> forall k,
  aget d k = if name_dec k a_exact then Some (match aget (g_attrs g) k with Some v => dec k v | None => v_false end) else
             if memn k meta_dsets then match aget (g_dsets g) k with Some v => Some v | None => if memn k all_params then None else aget (o_attr old) k end
             else if memn k meta_attrs then option_map (dec k) (aget (g_attrs g) k)
             else if memn k all_params then None else aget (o_attr old) k.
Proof.
  intros N1 N2 E k. unfold read_meta in E. destruct (aget (g_attrs g) t_pspec) as [t|]; [|discriminate].
  unfold require in E. destruct (is_uvpspec t); [|discriminate]. apply ok_inj in E. unfold clear in E.
  pose proof (meta_folds_get (fun n => memn n meta_attrs) (fun n => memn n meta_dsets) (fun n => memn n all_params)
    (g_attrs g) (g_dsets g) (o_attr old) k N1 N2 attrs_disjoint) as G. cbv beta in G.
  pose proof exact_is_attr as ME. pose proof (attrs_disjoint _ ME) as [MD MA].
  destruct (aget (g_attrs g) a_exact) as [e|] eqn:X; subst d.
  - unfold aget at 1. rewrite G. unfold aget in *. destruct (name_dec k a_exact) as [->|NE]; [|reflexivity].
    rewrite MD, ME, X. reflexivity.
  - unfold aget at 1. rewrite dget_dset. destruct (name_dec k a_exact) as [->|NE]; [rewrite X; reflexivity|].
    rewrite G. reflexivity.
Qed.
Lemma down_get pick (d : H5Model.dict V) k : aget (down pick d) k = option_map (fun v => if memn k with_arrays then pick k v else v) (aget d k).
Proof.
  unfold down. generalize with_arrays as ws. intros ws. induction d as [|[n v] d IH]; [reflexivity|]. simpl. unfold aget in *.
  destruct (memn n ws) eqn:M; simpl; destruct (name_dec k n) as [->|_]; auto; simpl; rewrite M; reflexivity.
Qed.
Lemma down_id (d : H5Model.dict V) : down (fun _ v => v) d = d.
Proof.
  unfold down. generalize with_arrays as ws. intros ws. induction d as [|[n v] d IH]; [reflexivity|]. simpl. rewrite IH. destruct (memn n ws); reflexivity.
Qed.

(** the arrays fetched, window by window *)
Lemma fetch_all_get (s : source V) m pick arrs sts : fetch_all s m pick = Ok (arrs, sts) ->
  (forall n o o', In (n, o) m -> In (n, o') m -> o = o') ->
  map fst arrs = wanted s /\
  (forall a, In a (wanted s) -> exists d, dget name_dec arrs a = Some d /\
     (forall n o, In (n, o) m -> exists v, src_get s a o = Ok v /\ dget Nat.eq_dec d n = Some (pick a v)) /\
     (forall n, ~ In n (map fst m) -> dget Nat.eq_dec d n = None)) /\
  (forall a, ~ In a (wanted s) -> dget name_dec arrs a = None) /\
  (src_stats s = [] -> sts = None) /\
  (src_stats s <> [] -> exists st, sts = Some st /\ map fst st = src_stats s /\
    (forall a, In a (src_stats s) -> exists d, dget name_dec st a = Some d /\
     (forall n o, In (n, o) m -> exists v, src_stat s a o = Ok v /\ dget Nat.eq_dec d n = Some (pick stats_s v)) /\
     (forall n, ~ In n (map fst m) -> dget Nat.eq_dec d n = None)) /\
    (forall a, ~ In a (src_stats s) -> dget name_dec st a = None)).
Proof.
  intros E F. unfold fetch_all in E. apply bind_ok in E as (l1 & E1 & E). apply bind_ok in E as (l2 & E2 & E). apply ok_inj in E.
  apply pair_equal_spec in E as [<- <-]. 
  apply assoc_get in E1 as (K1 & G1 & H1). apply assoc_get in E2 as (K2 & G2 & H2).
  split; [exact K1|]. split.
  { intros a Ha. destruct (G1 a Ha) as (d & Fd & Gd). exists d. split; [exact Gd|]. apply (fetch_get _ _ _ _ Fd F). }
  split; [exact H1|]. split; [intros X; rewrite X in K2; destruct l2; [reflexivity|discriminate]|].
  intros X. destruct l2 as [|x l2]; [exfalso; apply X; symmetry; exact K2|].
  exists (x :: l2). split; [reflexivity|]. split; [exact K2|]. split; [|exact H2].
  intros a Ha. destruct (G2 a Ha) as (d & Fd & Gd). exists d. split; [exact Gd|]. apply (fetch_get _ _ _ _ Fd F).
Qed.
Lemma fetch_all_total (s : source V) m pick :
  (forall a n o, In a (wanted s) -> In (n, o) m -> exists v, src_get s a o = Ok v) ->
  (forall a n o, In a (src_stats s) -> In (n, o) m -> exists v, src_stat s a o = Ok v) ->
  exists r, fetch_all s m pick = Ok r.
Proof.
  intros H1 H2. unfold fetch_all.
  destruct (map_res_total (fun a => bind (fetch (src_get s a) (pick a) m) (fun d => Ok (a, d))) (wanted s)) as [l1 ->].
  { apply Forall_forall. intros a Ha. destruct (fetch_total (src_get s a) (pick a) m) as [d ->]; [intros n o I; apply (H1 a n o Ha I)|]. simpl. eauto. }
  destruct (map_res_total (fun st => bind (fetch (src_stat s st) (pick stats_s) m) (fun d => Ok (st, d))) (src_stats s)) as [l2 E2].
  { apply Forall_forall. intros a Ha. destruct (fetch_total (src_stat s a) (pick stats_s) m) as [d ->]; [intros n o I; apply (H2 a n o Ha I)|]. simpl. eauto. }
  rewrite bind_Ok_l, E2, bind_Ok_l. eauto.
Qed.
Lemma fetch_all_ext (s t : source V) m pick : wanted s = wanted t -> src_stats s = src_stats t ->
  (forall a n o, In a (wanted s) -> In (n, o) m -> src_get s a o = src_get t a o) ->
  (forall a n o, In a (src_stats s) -> In (n, o) m -> src_stat s a o = src_stat t a o) ->
  fetch_all s m pick = fetch_all t m pick.
Proof.
  intros W S H1 H2. unfold fetch_all. rewrite <- W, <- S.
  rewrite (map_res_ext (fun a => bind (fetch (src_get s a) (pick a) m) (fun d => Ok (a, d))) (fun a => bind (fetch (src_get t a) (pick a) m) (fun d => Ok (a, d))) (wanted s)).
  2:{ intros a Ha. rewrite (fetch_ext (src_get s a) (src_get t a)); [reflexivity|]. intros n o I. apply (H1 a n o Ha I). }
  rewrite (map_res_ext (fun st => bind (fetch (src_stat s st) (pick stats_s) m) (fun d => Ok (st, d))) (fun st => bind (fetch (src_stat t st) (pick stats_s) m) (fun d => Ok (st, d))) (src_stats s)).
  2:{ intros a Ha. rewrite (fetch_ext (src_stat s a) (src_stat t a)); [reflexivity|]. intros n o I. apply (H2 a n o Ha I). }
  reflexivity.
Qed.
Lemma diag_fun (l : list nat) n o o' : In (n, o) (map (fun s => (s, s)) l) -> In (n, o') (map (fun s => (s, s)) l) -> o = o'.
Proof. intros H H'. apply in_map_iff in H as (x & E & _). apply in_map_iff in H' as (x' & E' & _). congruence. Qed.
Lemma diag_In (l : list nat) n o : In (n, o) (map (fun s => (s, s)) l) <-> n = o /\ In n l.
Proof.
  rewrite in_map_iff. split; [intros (x & E & H); injection E as <- <-; auto|intros [<- H]; exists n; auto].
Qed.

(** ** what was written is read back *)
Lemma meta_in_params k : In k meta_dsets -> k <> time_2_array -> memn k all_params = true.
Proof.
  intros H N. assert (F : forallb (fun k => str_eqb k time_2_array || memn k all_params) meta_dsets = true) by (vm_compute; reflexivity).
  rewrite forallb_forall in F. specialize (F k H). apply orb_true_iff in F as [F|F]; [|exact F]. apply str_eqb_eq in F. contradiction.
Qed.
Lemma sources_agree o sp g : complete o sp -> write o = Ok g ->
  (forall a, In a (wanted (file_source g)) <-> In a (arrays o)) /\
  (forall a i, In a (arrays o) -> In i sp -> src_get (file_source g) a i = arr_at o a i) /\
  (forall s, In s (src_stats (file_source g)) <-> exists v, stat_at o s 0 = Some v) /\
  (forall s i, In s (src_stats (file_source g)) -> In i sp -> exists v, src_stat (file_source g) s i = Ok v /\ stat_at o s i = Some v).
Proof.
  intros C W. destruct (written_lookup o sp g C W) as (_ & LA & LS & LC). destruct (write_content o sp g C W) as (ND & IN & _).
  pose proof (fun a => dicts_has o sp a C) as DH.
  assert (Z : In 0 sp) by apply C.
  assert (HF : forall a, In a dicts -> file_has g (ds_name a 0) = has_arr o a).
  { intros a Ha. specialize (LA a 0 Ha Z). unfold file_get, file_has in *. destruct (has_arr o a) eqn:E.
    - destruct C as (_ & _ & _ & _ & _ & _ & AR & _). destruct (AR a 0 E Z) as [v Hv]. rewrite Hv in LA.
      destruct (aget (g_dsets g) (ds_name a 0)); [reflexivity|discriminate].
    - destruct (aget (g_dsets g) (ds_name a 0)); [discriminate|reflexivity]. }
  assert (D1 : In d_covr dicts) by (apply memn_In; vm_compute; reflexivity).
  assert (D2 : In d_win dicts) by (apply memn_In; vm_compute; reflexivity).
  assert (D3 : In d_kperp dicts) by (apply memn_In; vm_compute; reflexivity).
  split; [|split; [|split]].
  - intros a. unfold wanted, file_source, arrays. cbn [src_win src_exact src_cov]. rewrite !HF by assumption.
    replace (file_has g (s_ "cov_array_spw0")) with false by (unfold file_has; rewrite LC; reflexivity). rewrite andb_true_r. reflexivity.
  - intros a i Ha Hi. unfold file_source. cbn [src_get]. rewrite LA; [|eapply arrays_dicts, Ha|exact Hi].
    rewrite (proj1 (DH a (arrays_dicts o a Ha)) Ha). reflexivity.
  - intros s. unfold file_source. cbn [src_stats]. rewrite unique_str_In, in_map_iff. split.
    + intros (n & <- & Hn). apply filter_In in Hn as [Hn HP]. apply in_map_iff in Hn as ([n' v] & En & Hn). simpl in En. subst n'.
      apply IN in Hn as [[H _]|[(a & i & Ha & _ & -> & _)|(st & s & d & i & H1 & H2 & H3 & -> & H4)]].
      * pose proof meta_dsets_prefix as F. rewrite forallb_forall in F. apply F in H. rewrite HP in H. discriminate.
      * rewrite ds_name_prefix in HP; [discriminate|eapply arrays_dicts, Ha].
      * rewrite stat_of_stat_name. unfold stat_at. rewrite H1. destruct C as (_ & _ & _ & _ & _ & _ & _ & ST). destruct (ST st H1) as [NS SF].
        rewrite (In_dget name_dec st s d NS H2). apply (SF s d 0 H2 Z).
    + intros (v & Hv). exists (stat_name s 0). split; [apply stat_of_stat_name|]. apply filter_In. split; [|apply stat_name_prefix].
      apply in_map_iff. exists (stat_name s 0, v). split; [reflexivity|]. apply (dget_In name_dec). rewrite <- LS in Hv by exact Z. exact Hv.
  - intros s i Hs Hi. unfold file_source in *. cbn [src_stats src_stat] in *. unfold file_get. rewrite LS by exact Hi.
    assert (X : exists v, stat_at o s i = Some v); [|destruct X as [v ->]; eauto].
    rewrite unique_str_In, in_map_iff in Hs. destruct Hs as (n & <- & Hn). apply filter_In in Hn as [Hn HP]. apply in_map_iff in Hn as ([n' v] & En & Hn). simpl in En. subst n'.
      apply IN in Hn as [[H _]|[(a & j & Ha & _ & -> & _)|(st & s & d & j & H1 & H2 & H3 & -> & H4)]].
      * pose proof meta_dsets_prefix as F. rewrite forallb_forall in F. apply F in H. rewrite HP in H. discriminate.
      * rewrite ds_name_prefix in HP; [discriminate|eapply arrays_dicts, Ha].
      * rewrite stat_of_stat_name. unfold stat_at. rewrite H1. destruct C as (_ & _ & _ & _ & _ & _ & _ & ST). destruct (ST st H1) as [NS SF].
        rewrite (In_dget name_dec st s d NS H2). apply (SF s d i H2 Hi).
Qed.

Theorem write_read_round_trip : forall o sp g old, complete o sp -> (forall k v, dec k (enc k v) = v) -> is_uvpspec v_type = true ->
  write o = Ok g ->
  exists o', read g false no_sel old = Ok o' /\
    (forall k, In k meta_attrs \/ In k meta_dsets -> aget (o_attr o') k = aget (o_attr o) k) /\
    (forall a, In a dicts -> has_arr o' a = has_arr o a) /\
    (forall a i, In a dicts -> In i sp -> arr_at o' a i = arr_at o a i) /\
    (forall s i, In i sp -> stat_at o' s i = stat_at o s i).
Proof.
  intros o sp g old C DE UV W. destruct (written_lookup o sp g C W) as (LM & _). destruct (write_content o sp g C W) as (ND & _ & NA & LA & TY).
  destruct (sources_agree o sp g C W) as (SW & SG & SS & ST).
  assert (exists d, read_meta dec v_false is_uvpspec g old = Ok d) as [d RM].
  { unfold read_meta. rewrite TY. unfold require. rewrite UV. eauto. }
  pose proof (read_meta_get g old d NA ND RM) as G.
  assert (GM : forall k, In k meta_attrs \/ In k meta_dsets -> aget d k = aget (o_attr o) k).
  { intros k Hk. rewrite G. destruct (name_dec k a_exact) as [->|NE].
    - rewrite LA by (apply memn_In, exact_is_attr). destruct C as (_ & _ & _ & _ & (e & E & _) & _). rewrite E. simpl. rewrite DE. reflexivity.
    - destruct (memn k meta_dsets) eqn:M.
      + apply memn_In in M. rewrite LM by exact M. destruct (aget (o_attr o) k) eqn:E; [reflexivity|].
        rewrite meta_in_params; [reflexivity|exact M|]. intros ->. destruct C as (_ & _ & (v & E2) & _). congruence.
      + apply memn_false in M. destruct Hk as [Hk|Hk]; [|contradiction]. rewrite (proj2 (memn_In _ _) Hk).
        rewrite LA by exact Hk. destruct (aget (o_attr o) k); simpl; [rewrite DE|]; reflexivity. }
  assert (SP : aget d a_spw = aget (o_attr o) a_spw) by (apply GM; left; apply memn_In; vm_compute; reflexivity).
  assert (NS : no_sel d = Ok (d, map (fun s => (s, s)) sp, fun _ v => v)).
  { unfold no_selection, spws. rewrite SP. destruct C as ((v & E1 & E2) & _). rewrite E1, bind_Ok_l, E2. reflexivity. }
  destruct (fetch_all_total (file_source g) (map (fun s => (s, s)) sp) (fun _ v => v)) as [[arrs sts] FA].
  { intros a n i Ha Hi. apply diag_In in Hi as [<- Hi]. apply SW in Ha. rewrite SG by assumption.
    apply C; [|exact Hi]. apply (dicts_has o sp a C); [eapply arrays_dicts, Ha|exact Ha]. }
  { intros s n i Hs Hi. apply diag_In in Hi as [<- Hi]. destruct (ST s n Hs Hi) as (v & Hv & _). eauto. }
  exists (mkobj d arrs sts). split.
  { unfold read_group. rewrite RM, bind_Ok_l, NS, bind_Ok_l, FA, bind_Ok_l, down_id. reflexivity. }
  destruct (fetch_all_get _ _ _ _ _ FA (diag_fun sp)) as (K1 & F1 & F2 & F3 & F4).
  assert (HA : forall a, In a dicts -> has_arr (mkobj d arrs sts) a = has_arr o a).
  { intros a Ha. unfold has_arr at 1. cbn [o_arr]. destruct (has_arr o a) eqn:E.
    - apply (dicts_has o sp a C Ha) in E. apply SW in E. destruct (F1 a E) as (x & -> & _). reflexivity.
    - rewrite F2; [reflexivity|]. intros H. apply SW in H. apply (dicts_has o sp a C Ha) in H. congruence. }
  cbn [o_attr]. split; [exact GM|]. split; [exact HA|]. split.
  - intros a i Ha Hi. destruct (has_arr o a) eqn:E.
    + apply (dicts_has o sp a C Ha) in E. pose proof E as E'. apply SW in E. destruct (F1 a E) as (x & Hx & X1 & _).
      destruct (X1 i i) as (v & Hv & Hd); [apply diag_In; auto|]. unfold arr_at at 1. cbn [o_arr]. rewrite Hx, Hd. rewrite <- SG by assumption. rewrite Hv. reflexivity.
    + specialize (HA a Ha). rewrite E in HA. unfold has_arr, arr_at in *. destruct (dget name_dec (o_arr (mkobj d arrs sts)) a); [discriminate|].
      destruct (dget name_dec (o_arr o) a); [discriminate|reflexivity].
  - intros s i Hi. unfold stat_at at 1. cbn [o_stats].
    assert (NO : ~ In s (src_stats (file_source g)) -> stat_at o s i = None).
    { intros H. destruct (stat_at o s i) eqn:E; [|reflexivity]. exfalso. apply H. apply SS. unfold stat_at in *.
      destruct (o_stats o) as [st|] eqn:O; [|discriminate]. destruct (dget name_dec st s) as [x|] eqn:Y; [|discriminate].
      assert (Z : In 0 sp) by apply C. destruct C as (_ & _ & _ & _ & _ & _ & _ & CS). destruct (CS st O) as [_ SF]. apply dget_In in Y. apply (SF s x 0 Y Z). }
    destruct (src_stats (file_source g)) as [|s0 ss] eqn:SE.
    + rewrite (F3 eq_refl). symmetry. apply NO. intros [].
    + rewrite <- SE in *. destruct F4 as (st & -> & K & F4 & F5); [rewrite SE; discriminate|].
      destruct (in_dec name_dec s (src_stats (file_source g))) as [I|I].
      * destruct (F4 s I) as (x & -> & X1 & _). destruct (X1 i i) as (v & Hv & ->); [apply diag_In; auto|].
        destruct (ST s i I Hi) as (v' & Hv' & ->). congruence.
      * rewrite (F5 s I). symmetry. apply NO, I.
Qed.

(** ** a partial read is the full read followed by the selection; the data are not needed for the metadata *)
Theorem partial_read_is_select : forall g old o1 sel, read g false no_sel old = Ok o1 ->
  (forall d' m p sp, sel (o_attr o1) = Ok (d', m, p) -> spws spws_of (o_attr o1) = Ok sp -> forall n i, In (n, i) m -> In i sp) ->
  read g false sel old = select_mem sel o1.
Proof.
  intros g old o1 sel R OW. unfold read_group in R. apply bind_ok in R as (d & RM & R).
  apply bind_ok in R as ([[d0 m0] p0] & NS & R). unfold no_selection in NS. apply bind_ok in NS as (sp & SP & NS). apply ok_inj in NS.
  apply pair_equal_spec in NS as [NS <-]. apply pair_equal_spec in NS as [<- <-]. cbv beta iota in R.
  apply bind_ok in R as ([arrs sts] & FA & R). apply ok_inj in R. rewrite down_id in R. subst o1. cbn [fst snd o_attr] in *.
  unfold read_group, select_mem. rewrite RM, bind_Ok_l. cbn [o_attr]. destruct (sel d) as [[[d' m] pick]|e] eqn:SE; [|reflexivity].
  rewrite !bind_Ok_l. specialize (OW d' m pick sp eq_refl SP).
  destruct (fetch_all_get _ _ _ _ _ FA (diag_fun sp)) as (K1 & F1 & F2 & F3 & F4).
  assert (HA : forall a, has_arr (mkobj d arrs sts) a = memn a (wanted (file_source g))).
  { intros a. unfold has_arr. cbn [o_arr]. destruct (memn a (wanted (file_source g))) eqn:E.
    - apply memn_In in E. destruct (F1 a E) as (x & -> & _). reflexivity.
    - apply memn_false in E. rewrite (F2 a E). reflexivity. }
  assert (WE : wanted (file_source g) = wanted (mem_source (mkobj d arrs sts))).
  { unfold mem_source. generalize (HA d_covr), (HA d_win), (HA d_kperp). generalize (has_arr (mkobj d arrs sts) d_covr), (has_arr (mkobj d arrs sts) d_win), (has_arr (mkobj d arrs sts) d_kperp).
    intros b1 b2 b3 -> -> ->. unfold wanted. cbn [src_cov src_win src_exact]. generalize (src_cov (file_source g)), (src_win (file_source g)), (src_exact (file_source g)).
    intros [] [] []; vm_compute; reflexivity. }
  assert (SS : src_stats (file_source g) = src_stats (mem_source (mkobj d arrs sts))).
  { unfold mem_source. cbn [src_stats o_stats]. destruct (src_stats (file_source g)) as [|s0 ss] eqn:S0.
    - rewrite (F3 eq_refl). reflexivity.
    - destruct F4 as (st & -> & K & _); [discriminate|]. symmetry. exact K. }
  rewrite (fetch_all_ext (file_source g) (mem_source (mkobj d arrs sts)) m pick WE SS); [reflexivity| |].
  - intros a n i Ha Hi. apply OW in Hi. destruct (F1 a Ha) as (x & Hx & X1 & _). destruct (X1 i i) as (v & Hv & Hd); [apply diag_In; auto|].
    rewrite Hv. unfold mem_source. cbn [src_get]. unfold arr_at. cbn [o_arr]. rewrite Hx, Hd. reflexivity.
  - intros s n i Hs Hi. apply OW in Hi. assert (NE : src_stats (file_source g) <> []) by (intros E; rewrite E in Hs; destruct Hs).
    destruct (F4 NE) as (st & -> & K & F5 & _). destruct (F5 s Hs) as (x & Hx & X1 & _). destruct (X1 i i) as (v & Hv & Hd); [apply diag_In; auto|].
    rewrite Hv. unfold mem_source. cbn [src_stat o_stats]. rewrite Hx, Hd. reflexivity.
Qed.

Theorem metadata_read_alone : forall g old sel o1 o2, read g false sel old = Ok o1 -> read g true sel old = Ok o2 ->
  (forall k, ~ In k (names ["OmegaP"; "OmegaPP"; "r_params"]%string) -> aget (o_attr o2) k = aget (o_attr o1) k) /\
  o_arr o2 = [] /\ o_stats o2 = None.
Proof.
  intros g old sel o1 o2 R1 R2. unfold read_group in *. apply bind_ok in R1 as (d & RM & R1). rewrite RM, bind_Ok_l in R2.
  apply bind_ok in R1 as ([[d0 m0] p0] & SE & R1). rewrite SE, bind_Ok_l in R2. cbv beta iota in *. apply ok_inj in R2. subst o2.
  apply bind_ok in R1 as (f & FA & R1). apply ok_inj in R1. subst o1. cbn [o_attr o_arr o_stats]. split; [|auto].
  intros k N. rewrite down_get. replace (memn k with_arrays) with false by (symmetry; apply memn_false, N). destruct (aget d0 k); reflexivity.
Qed.

(** ** the object that is overwritten leaves no trace *)
Theorem read_replaces : forall g old1 old2 o1 o2, NoDup (map fst (g_attrs g)) -> NoDup (map fst (g_dsets g)) ->
  read g false no_sel old1 = Ok o1 -> read g false no_sel old2 = Ok o2 ->
  (forall k, In k meta_attrs \/ (In k meta_dsets /\ k <> time_2_array) -> aget (o_attr o1) k = aget (o_attr o2) k) /\ o_arr o1 = o_arr o2 /\ o_stats o1 = o_stats o2.
Proof.
  intros g old1 old2 o1 o2 N1 N2 R1 R2. unfold read_group in *.
  apply bind_ok in R1 as (d1 & M1 & R1). apply bind_ok in R2 as (d2 & M2 & R2).
  pose proof (read_meta_get g old1 d1 N1 N2 M1) as G1. pose proof (read_meta_get g old2 d2 N1 N2 M2) as G2.
  assert (GE : forall k, In k meta_attrs \/ (In k meta_dsets /\ k <> time_2_array) -> aget d1 k = aget d2 k).
  { intros k Hk. rewrite G1, G2. destruct (name_dec k a_exact); [reflexivity|].
    destruct (memn k meta_dsets) eqn:M.
    - destruct (aget (g_dsets g) k); [reflexivity|]. apply memn_In in M. destruct Hk as [Hk|[_ Hk]].
      + apply memn_In in Hk. apply attrs_disjoint in Hk as [_ ->]. reflexivity.
      + rewrite meta_in_params by assumption. reflexivity.
    - destruct Hk as [Hk|[Hk _]]; [|apply memn_false in M; contradiction]. apply memn_In in Hk. rewrite Hk. reflexivity. }
  assert (SP : aget d1 a_spw = aget d2 a_spw) by (apply GE; left; apply memn_In; vm_compute; reflexivity).
  unfold no_selection, spws in *. rewrite SP in R1. destruct (aget d2 a_spw) as [v|]; [|discriminate].
  rewrite !bind_Ok_l in *. cbv beta iota in *. apply bind_ok in R1 as (f1 & FA1 & R1). apply bind_ok in R2 as (f2 & FA2 & R2).
  apply ok_inj in R1. apply ok_inj in R2. rewrite down_id in *. subst o1 o2. cbn [o_attr o_arr o_stats]. split; [exact GE|].
  assert (f1 = f2) as -> by congruence. auto.
Qed.

(** ** files *)
Notation write_file := (write_hdf5 enc spws_of truth v_type).
Theorem existing_file_kept : forall check o f, write_file check false o (Some f) = (Some f, Some OSError).
Proof. reflexivity. Qed.
End Thms.
Print Assumptions write_succeeds.
Print Assumptions write_read_round_trip.
Print Assumptions partial_read_is_select.
Print Assumptions metadata_read_alone.
Print Assumptions read_replaces.

(** ** a concrete class of values: lists of numbers *)
Definition Vx := list nat.
Definition idx (_ : pystr) (v : Vx) : Vx := v.
Definition truthx (v : Vx) : bool := match v with [] => false | _ => true end.
Definition typex : Vx := [7].
Definition is_typex (v : Vx) : bool := match v with [7] => true | _ => false end.
Notation write_x o := (write_group idx (fun v => v) truthx typex o (mkgrp [] [])).
Notation read_x := (read_group idx [] is_typex).
Notation no_sel_x := (no_selection (V:=Vx) (fun v => v)).
Definition two (a b : Vx) : list (nat * Vx) := [(0, a); (1, b)].
Definition ex_obj : obj Vx :=
  mkobj [(a_spw, [0; 1]); (a_exact, [1]); (time_2_array, [5]); (symmetric_taper, [1]); (s_ "history", [9; 9]); (s_ "OmegaP", [3; 4]); (s_ "OmegaPP", [5; 6])]
        [(d_data, two [1] [2]); (d_wgt, two [3] [4]); (d_int, two [5] [6]); (d_nsmp, two [7] [8]); (d_win, two [9] [10]);
         (d_kperp, two [11] [12]); (d_kpara, two [13] [14]); (d_covr, two [15] [16]); (d_covi, two [17] [18])]
        (Some [(s_ "P_SN", two [19] [20]); (s_ "P_N", two [21] [22])]).
Definition old_obj : obj Vx := mkobj [(symmetric_taper, [0]); (s_ "history", [8]); (time_2_array, [2])] [] None.
Definition empty_obj : obj Vx := mkobj [] [] None.

Lemma two_get a b i : In i [0; 1] -> exists v, dget Nat.eq_dec (two a b) i = Some v.
Proof. intros [<-|[<-|[]]]; simpl; eauto. Qed.
Example complete_example : complete (fun v => v) truthx ex_obj [0; 1].
Proof.
  unfold complete. split; [exists [0; 1]; split; vm_compute; reflexivity|]. split; [left; reflexivity|].
  split; [exists [5]; vm_compute; reflexivity|].
  split; [intros a H; repeat (destruct H as [<-|H]; [vm_compute; reflexivity|]); destruct H|].
  split; [exists [1]; vm_compute; auto|]. split; [vm_compute; reflexivity|]. split.
  - intros a i H Hi. assert (I : In a (map fst (o_arr ex_obj))).
    { unfold has_arr in H. match type of H with match ?x with _ => _ end = _ => destruct x eqn:E end; [|discriminate H]. apply dget_In in E. apply (in_map fst) in E. exact E. }
    destruct Hi as [<-|[<-|[]]]; repeat (destruct I as [<-|I]; [eexists; vm_compute; reflexivity|]); destruct I.

  - intros st E. injection E as <-. split.
    + apply (NoDup_count_occ' name_dec). intros x H. repeat (destruct H as [<-|H]; [vm_compute; reflexivity|]); destruct H.
    + intros s d i H Hi. repeat (destruct H as [H|H]; [injection H as _ <-; apply two_get, Hi|]). destruct H.
Qed.
Example write_example : exists g, write_x ex_obj = Ok g /\ length (g_dsets g) = 25 /\ aget (g_dsets g) (s_ "cov_imag_spw1") = Some [18] /\ aget (g_dsets g) (s_ "stats_P_SN_1") = Some [20].
Proof. eexists. split; [vm_compute; reflexivity|]. vm_compute. auto. Qed.

(** a required parameter that does not survive: the object read has whatever the object it was read into had *)
Theorem symmetric_taper_stored_refuted :
  ~ (forall (o : obj Vx) sp g old o', complete (fun v => v) truthx o sp -> write_x o = Ok g -> read_x g false no_sel_x old = Ok o' ->
     forall p, In p req_params -> ~ In p dicts -> aget (o_attr o') p = aget (o_attr o) p).
Proof.
  intros H. destruct (write_x ex_obj) as [g|] eqn:W; [|vm_compute in W; discriminate W].
  destruct (read_x g false no_sel_x old_obj) as [o'|] eqn:R.
  2:{ vm_compute in W. injection W as <-. vm_compute in R. discriminate R. }
  specialize (H ex_obj [0; 1] g old_obj o' complete_example W R symmetric_taper).
  vm_compute in W. injection W as <-. vm_compute in R. injection R as <-.
  assert (A : aget (o_attr ex_obj) symmetric_taper = Some [1]) by (vm_compute; reflexivity). rewrite A in H.
  assert (X : In symmetric_taper req_params) by (apply memn_In; vm_compute; reflexivity).
  assert (Y : ~ In symmetric_taper dicts) by (apply memn_false; vm_compute; reflexivity).
  specialize (H X Y). vm_compute in H. discriminate H.
Qed.
Print Assumptions symmetric_taper_stored_refuted.

(** the value of symmetric_taper, and times missing from the file, come from the object overwritten *)
Theorem read_replaces_all_refuted :
  ~ (forall g (old1 old2 : obj Vx) o1 o2, read_x g false no_sel_x old1 = Ok o1 -> read_x g false no_sel_x old2 = Ok o2 ->
     forall p, In p req_params -> ~ In p dicts -> aget (o_attr o1) p = aget (o_attr o2) p).
Proof.
  intros H. destruct (write_x ex_obj) as [g|] eqn:W; [|vm_compute in W; discriminate W].
  destruct (read_x g false no_sel_x old_obj) as [o1|] eqn:R1.
  2:{ vm_compute in W. injection W as <-. vm_compute in R1. discriminate R1. }
  destruct (read_x g false no_sel_x empty_obj) as [o2|] eqn:R2.
  2:{ vm_compute in W. injection W as <-. vm_compute in R2. discriminate R2. }
  specialize (H g old_obj empty_obj o1 o2 R1 R2 symmetric_taper).
  vm_compute in W. injection W as <-. vm_compute in R1. injection R1 as <-. vm_compute in R2. injection R2 as <-.
  assert (X : In symmetric_taper req_params) by (apply memn_In; vm_compute; reflexivity).
  assert (Y : ~ In symmetric_taper dicts) by (apply memn_false; vm_compute; reflexivity).
  specialize (H X Y). vm_compute in H. discriminate H.
Qed.
Print Assumptions read_replaces_all_refuted.

(** with overwrite=True the old file is gone before the object is checked *)
Theorem overwrite_is_safe_refuted :
  ~ (forall check (o : obj Vx) f, let r := write_hdf5 idx (fun v => v) truthx typex check true o (Some f) in snd r = None \/ fst r = Some f).
Proof.
  intros H. destruct (H (fun _ => false) ex_obj (mkgrp [(a_spw, [0])] [])) as [E|E]; vm_compute in E; discriminate E.
Qed.
Print Assumptions overwrite_is_safe_refuted.

(** keep the second of two polarizations *)
Definition sel_pol : selection (V:=Vx) := fun d => bind (spws (fun v => v) d) (fun sp => Ok (d, map (fun s => (s, s)) sp, fun _ v => skipn 1 v)).
(** a metadata-only read keeps the beam of the polarizations that are not selected *)
Theorem metadata_same_refuted :
  ~ (forall g (old : obj Vx) sel o1 o2, read_x g false sel old = Ok o1 -> read_x g true sel old = Ok o2 -> forall k, aget (o_attr o2) k = aget (o_attr o1) k).
Proof.
  intros H. destruct (write_x ex_obj) as [g|] eqn:W; [|vm_compute in W; discriminate W].
  destruct (read_x g false sel_pol old_obj) as [o1|] eqn:R1.
  2:{ vm_compute in W. injection W as <-. vm_compute in R1. discriminate R1. }
  destruct (read_x g true sel_pol old_obj) as [o2|] eqn:R2.
  2:{ vm_compute in W. injection W as <-. vm_compute in R2. discriminate R2. }
  specialize (H g old_obj sel_pol o1 o2 R1 R2 (s_ "OmegaP")).
  vm_compute in W. injection W as <-. vm_compute in R1. injection R1 as <-. vm_compute in R2. injection R2 as <-.
  vm_compute in H. discriminate H.
Qed.
Print Assumptions metadata_same_refuted.

(** a partial read of one window *)
Definition sel_win : selection (V:=Vx) := fun d => Ok (dset name_dec d a_spw [0], [(0, 1)], fun _ v => v).
Example partial_read_example : exists g o1 o2, write_x ex_obj = Ok g /\ read_x g false no_sel_x old_obj = Ok o1 /\
  read_x g false sel_win old_obj = Ok o2 /\ arr_at o2 d_covi 0 = Ok [18] /\ stat_at o2 (s_ "P_N") 0 = Some [22] /\ arr_at o2 d_covi 1 = Err KeyError.
Proof.
  eexists. eexists. eexists. split; [vm_compute; reflexivity|]. split; [vm_compute; reflexivity|]. split; [vm_compute; reflexivity|].
  vm_compute. auto.
Qed.
(** the statistics of an object read from a file come in the order of their names, each once, whatever the order in which they were set *)
Theorem statistics_in_order : forall V dec v_false is_uvp (g : grp V) sel old o st,
  read_group dec v_false is_uvp g false sel old = Ok o -> o_stats o = Some st -> StronglySorted name_lt (map fst st).
Proof.
  intros V dec v_false is_uvp g sel old o st H E. unfold read_group in H. apply bind_ok in H as (d & _ & H). apply bind_ok in H as ([[d' m] pick] & _ & H).
  cbv beta iota in H. apply bind_ok in H as (f & F & H). apply ok_inj in H. subst o. cbn [o_stats] in E. unfold fetch_all in F.
  apply bind_ok in F as (arrs & _ & F). apply bind_ok in F as (sts & M & F). apply ok_inj in F. subst f. cbn [snd] in E.
  assert (st = sts) as -> by (destruct sts; [discriminate | congruence]).
  assert (K : map fst sts = src_stats (file_source g)).
  { revert M. generalize (src_stats (file_source g)). clear. intros l. revert sts. induction l as [|s l IH]; intros sts M; cbn in M.
    - apply ok_inj in M. subst. reflexivity.
    - apply bind_ok in M as (y & Y & M). apply bind_ok in M as (ys & YS & M). apply ok_inj in M. subst sts. apply bind_ok in Y as (dd & _ & Y). apply ok_inj in Y. subst y. cbn. f_equal. apply IH, YS. }
  rewrite K. unfold file_source. cbn [src_stats]. apply unique_str_sorted.
Qed.
Print Assumptions statistics_in_order.

(** a dataset name without underscore, which only foreign files have, counts as the statistic named by it without its last character *)
Theorem stat_of_no_underscore : forall f, ~ In "_"%char f -> stat_of f = removelast f.
Proof.
  intros f N. unfold stat_of, find_, rfind_. rewrite rfind_from_none by exact N.
  assert (F : forall k, find_from k "_"%char f = None).
  { induction f as [|x f IH]; intros k; cbn; [reflexivity|]. destruct (Ascii.eqb_spec x "_"%char) as [->|_]; [exfalso; apply N; left; reflexivity|].
    apply IH. intros I. apply N. right. exact I. }
  rewrite F. unfold or_minus1, py_slice. cbv zeta. change (-1 + 1)%Z with 0%Z. change (0 <? 0)%Z with false. change (-1 <? 0)%Z with true. cbv iota.
  replace (Z.to_nat (Z.max 0 (Z.min (Z.of_nat (length f)) 0))) with 0 by lia.
  replace (Z.to_nat (Z.max 0 (Z.min (Z.of_nat (length f)) (-1 + Z.of_nat (length f))))) with (pred (length f)) by lia.
  unfold slice. cbn [skipn]. rewrite removelast_firstn_len. reflexivity.
Qed.
