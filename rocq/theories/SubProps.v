(** C156-C161: subtraction of two sets of power spectra. *)
From Coq Require Import String.
From Coq Require Import Reals Lra.
From Verif Require Import Prelude SubModel.
Open Scope R_scope.

Section Sub.
Context {W : Type} (eqW : forall x y : W, {x = y} + {x <> y}).
Notation row := (row W). Notation sobj := (sobj W).
Notation put := (put eqW). Notation sub_one := (sub_one eqW). Notation subtract_uvp := (subtract_uvp eqW). Notation restrict := (restrict eqW).

(** ** specification *)
Definition key (r : row) : Z * Z := (r_blp r, r_lst r).
(** a row of [u] is common to [u1] and [u2]: its baseline-pair occurs in both and its LST occurs in both *)
Definition common_row (u1 u2 : sobj) (r : row) : Prop :=
  (forall u, u = u1 \/ u = u2 -> In (r_blp r) (map r_blp (s_rows u)) /\ In (r_lst r) (map r_lst (s_rows u))).
(** the cell of the difference: values subtract, independent errors add in quadrature, effective samples and integration times add like 1/sigma *)
Definition difference_of (stats : bool) (a b c : cell) : Prop :=
  (forall d, c_data c d = (fst (c_data a d) - fst (c_data b d), snd (c_data a d) - snd (c_data b d))) /\
  (0 < c_ns a -> 0 < c_ns b -> 0 < c_ns c /\ / c_ns c ^ 2 = / c_ns a ^ 2 + / c_ns b ^ 2) /\
  (0 < c_int a -> 0 < c_int b -> 0 < c_int c /\ / c_int c ^ 2 = / c_int a ^ 2 + / c_int b ^ 2) /\
  (c_int a = 0 \/ c_int b = 0 -> c_int c = 0) /\
  (stats = true -> forall s d, 0 <= fst (c_stat c s d) /\ 0 <= snd (c_stat c s d) /\
     fst (c_stat c s d) ^ 2 = fst (c_stat a s d) ^ 2 + fst (c_stat b s d) ^ 2 /\ snd (c_stat c s d) ^ 2 = snd (c_stat a s d) ^ 2 + snd (c_stat b s d) ^ 2).

(** ** views: the cells of one baseline-pair at one window and polarization pair *)
Definition view (rows : list row) (w : W) (p b : Z) : list cell := map (fun r => r_cell r w p) (of_blp b rows).
Lemma put_keys b w p rows : forall cs, map key (put b w p rows cs) = map key rows.
Proof. induction rows as [| r rows IH]; intros cs; cbn; [reflexivity |]. destruct (Z.eqb (r_blp r) b); [destruct cs |]; cbn; rewrite IH; reflexivity. Qed.
Lemma put_other b w p rows b' : b' <> b -> forall cs, of_blp b' (put b w p rows cs) = of_blp b' rows.
Proof.
  intros N. unfold of_blp. induction rows as [| r rows IH]; intros cs; cbn; [reflexivity |]. destruct (Z.eqb_spec (r_blp r) b) as [E | E].
  - assert (X : Z.eqb (r_blp r) b' = false) by (apply Z.eqb_neq; congruence). destruct cs; cbn; rewrite X; apply IH.
  - cbn. destruct (Z.eqb (r_blp r) b'); rewrite IH; reflexivity.
Qed.
Lemma put_view b w p rows w' p' : forall cs, length cs = length (of_blp b rows) ->
  view (put b w p rows cs) w' p' b = if eqW w' w then (if Z.eqb p' p then cs else view rows w' p' b) else view rows w' p' b.
Proof.
  unfold view, of_blp. induction rows as [| r rows IH]; intros cs L; cbn in *.
  - destruct cs; [| discriminate]. destruct (eqW w' w), (Z.eqb p' p); reflexivity.
  - destruct (Z.eqb_spec (r_blp r) b) as [E | E].
    + destruct cs as [| c cs]; [discriminate |]. cbn in L. cbn [filter r_blp]. rewrite E, Z.eqb_refl. cbn [map r_cell].
      rewrite IH by lia. destruct (eqW w' w), (Z.eqb p' p); reflexivity.
    + cbn [filter]. apply Z.eqb_neq in E. rewrite E. rewrite IH by assumption. reflexivity.
Qed.
Lemma map2_length {A B C} (f : A -> B -> C) l : forall l', length l = length l' -> length (map2 f l l') = length l.
Proof. induction l as [| x l IH]; intros [| y l'] H; cbn in *; try discriminate; [reflexivity |]. f_equal. apply IH. lia. Qed.
Lemma map2_nth {A B C} (f : A -> B -> C) l : forall l' k a b, nth_error l k = Some a -> nth_error l' k = Some b -> nth_error (map2 f l l') k = Some (f a b).
Proof. induction l as [| x l IH]; intros [| y l'] [| k] a b H H'; cbn in *; try discriminate; [congruence |]. apply IH; assumption. Qed.
Lemma norm_length l : length (norm_wgts l) = length l.
Proof. unfold norm_wgts. destruct (all_wgts l) as [ws |]; [destruct (Req_EM_T (maxl ws) 0) |]; apply map_length. Qed.
Lemma norm_nth l k c : nth_error l k = Some c -> exists c', nth_error (norm_wgts l) k = Some c' /\
  c_data c' = c_data c /\ c_ns c' = c_ns c /\ c_int c' = c_int c /\ c_stat c' = c_stat c /\ c_covr c' = c_covr c /\ c_covi c' = c_covi c /\ c_win c' = c_win c.
Proof.
  intros H. unfold norm_wgts. destruct (all_wgts l) as [ws |]; [destruct (Req_EM_T (maxl ws) 0) |];
    rewrite nth_error_map, H; cbn [option_map]; eexists; (split; [reflexivity |]); repeat split.
Qed.

(** the flags that decide which arrays are combined *)
Definition dostat (u1 u2 : sobj) : bool := match s_stats u1, s_stats u2 with Some _, Some _ => true | _, _ => false end.
Definition docov (u1 u2 : sobj) : bool := dostat u1 u2 && match s_cov u1, s_cov u2 with Some m, Some m' => if string_dec m m' then true else false | _, _ => false end.
Definition new_cells (u1 u2 : sobj) (l1 l2 : list cell) : list cell :=
  norm_wgts (map2 (sub_cell (dostat u1 u2) (docov u1 u2) (s_hwin u1 && s_hwin u2)) l1 l2).
Definition stats_ok (u1 u2 : sobj) : Prop :=
  match s_stats u1, s_stats u2 with Some n, Some n' => incl n n' | _, _ => True end.
Lemma view_length rows w p b : length (view rows w p b) = length (of_blp b rows).
Proof. apply map_length. Qed.
Lemma of_blp_length_keys b (rows rows' : list row) : map key rows = map key rows' -> length (of_blp b rows) = length (of_blp b rows').
Proof.
  unfold of_blp. revert rows'. induction rows as [| r rows IH]; intros [| r' rows'] H; try discriminate; [reflexivity |]. cbn in H. injection H as H1 H2 H3.
  cbn. rewrite H1. destruct (Z.eqb (r_blp r') b); cbn; rewrite (IH rows' H3); reflexivity.
Qed.
Lemma sub_one_ok u1 u2 w p b rows : In p (s_pols u2) -> s_folded u2 = false -> stats_ok u1 u2 ->
  length (of_blp b rows) = length (of_blp b (s_rows u2)) -> of_blp b rows <> [] ->
  sub_one u1 u2 w p b rows = Ok (put b w p rows (new_cells u1 u2 (view rows w p b) (view (s_rows u2) w p b))).
Proof.
  intros Hp Hf Hs HL Hne. unfold SubModel.sub_one. fold (view rows w p b) (view (s_rows u2) w p b) (dostat u1 u2). fold (docov u1 u2).
  assert (E1 : memZ p (s_pols u2) = true) by (unfold memZ; destruct (in_dec Z.eq_dec p (s_pols u2)); [reflexivity | contradiction]).
  assert (E2 : some (view (s_rows u2) w p b) = true).
  { unfold view. destruct (of_blp b (s_rows u2)); [| reflexivity]. destruct (of_blp b rows); [congruence | discriminate]. }
  rewrite E1, E2, Hf. cbn [andb negb require]. unfold broadcast. rewrite !view_length, HL, Nat.eqb_refl. cbn [bind].
  assert (E3 : match s_stats u1, s_stats u2 with Some n, Some n' => forallb (fun x => if in_dec string_dec x n' then true else false) n | _, _ => true end = true).
  { unfold stats_ok in Hs. destruct (s_stats u1), (s_stats u2); try reflexivity. apply forallb_forall. intros x Hx. destruct (in_dec string_dec x l0); [reflexivity |]. exfalso. apply n, Hs, Hx. }
  rewrite E3. reflexivity.
Qed.

(** the loops: every (window, polarization pair, baseline-pair) is treated once, from the original cells *)
Lemma loops_ok u1 u2 todo : s_folded u2 = false -> stats_ok u1 u2 -> (forall w p b, In (w, p, b) todo -> In p (s_pols u2)) ->
  NoDup todo -> forall rows, (forall w p b, In (w, p, b) todo -> length (of_blp b rows) = length (of_blp b (s_rows u2)) /\ of_blp b rows <> []) ->
  exists rows', fold_res (fun '(w, p, b) rows => sub_one u1 u2 w p b rows) todo rows = Ok rows' /\ map key rows' = map key rows /\
    forall w p b, (In (w, p, b) todo -> view rows' w p b = new_cells u1 u2 (view rows w p b) (view (s_rows u2) w p b)) /\
                  (~ In (w, p, b) todo -> view rows' w p b = view rows w p b).
Proof.
  intros Hf Hs. induction todo as [| [[w p] b] todo IH]; intros HP ND rows HR; cbn [fold_res].
  - exists rows. split; [reflexivity |]. split; [reflexivity |]. intros; split; [intros [] | reflexivity].
  - inversion ND as [| ? ? N1 N2]; subst. destruct (HR w p b (or_introl eq_refl)) as [HL HN].
    rewrite sub_one_ok by (auto; eapply HP; left; reflexivity). cbn [bind].
    set (cs := new_cells u1 u2 (view rows w p b) (view (s_rows u2) w p b)).
    assert (LC : length cs = length (of_blp b rows)).
    { unfold cs, new_cells. rewrite norm_length, map2_length; rewrite !view_length; [reflexivity | assumption]. }
    set (rows1 := put b w p rows cs). assert (K1 : map key rows1 = map key rows) by apply put_keys.
    destruct (IH (fun w' p' b' H => HP w' p' b' (or_intror H)) N2 rows1) as (rows' & E & K & V).
    { intros w' p' b' H. rewrite (of_blp_length_keys b' rows1 rows K1). destruct (HR w' p' b' (or_intror H)) as [A B]. split; [assumption |].
      intros C. apply B. apply length_zero_iff_nil. rewrite <- (of_blp_length_keys b' rows1 rows K1), C. reflexivity. }
    exists rows'. split; [exact E |]. split; [congruence |]. intros w' p' b'.
    assert (VV : view rows1 w' p' b' = if Z.eq_dec b' b then (if eqW w' w then (if Z.eqb p' p then cs else view rows w' p' b') else view rows w' p' b') else view rows w' p' b').
    { destruct (Z.eq_dec b' b) as [-> | NB]; [apply put_view; assumption |]. unfold view, rows1. rewrite put_other by assumption. reflexivity. }
    destruct (V w' p' b') as [V1 V2]. split.
    + intros [Eq | H].
      * injection Eq as -> -> ->. rewrite V2 by assumption. rewrite VV. destruct (Z.eq_dec b' b'); [| congruence]. destruct (eqW w' w'); [| congruence]. rewrite Z.eqb_refl. reflexivity.
      * rewrite V1 by assumption. rewrite VV. destruct (Z.eq_dec b' b) as [-> | NB]; [| reflexivity]. destruct (eqW w' w) as [-> | NW]; [| reflexivity].
        destruct (Z.eqb_spec p' p) as [-> | NP]; [contradiction | reflexivity].
    + intros H. cbn [In] in H. rewrite V2 by tauto. rewrite VV. destruct (Z.eq_dec b' b) as [-> | NB]; [| reflexivity]. destruct (eqW w' w) as [-> | NW]; [| reflexivity].
      destruct (Z.eqb_spec p' p) as [-> | NP]; [exfalso; tauto | reflexivity].
Qed.

Lemma memZ_In z l : memZ z l = true <-> In z l.
Proof. unfold memZ. destruct (in_dec Z.eq_dec z l); split; intros; auto; discriminate. Qed.
Lemma memW_In w l : memW eqW w l = true <-> In w l.
Proof. unfold memW. destruct (in_dec eqW w l); split; intros; auto; discriminate. Qed.
Lemma restrict_rows u1 u2 u r : In r (s_rows (restrict u1 u2 u)) <-> In r (s_rows u) /\ common_row u1 u2 r.
Proof.
  cbn [restrict s_rows]. rewrite filter_In, !andb_true_iff. unfold has_blp, has_lst. rewrite !memZ_In. unfold common_row. split.
  - intros (A & (B & C) & D & E). split; [assumption |]. intros v [-> | ->]; tauto.
  - intros (A & B). split; [assumption |]. pose proof (B u1 (or_introl eq_refl)). pose proof (B u2 (or_intror eq_refl)). tauto.
Qed.
Lemma nth_error_view rows w p b k : nth_error (view rows w p b) k = option_map (fun r => r_cell r w p) (nth_error (of_blp b rows) k).
Proof. apply nth_error_map. Qed.
Lemma of_blp_keys b (rows rows' : list row) : map key rows = map key rows' -> map key (of_blp b rows) = map key (of_blp b rows').
Proof.
  unfold of_blp. revert rows'. induction rows as [| r rows IH]; intros [| r' rows'] H; try discriminate; [reflexivity |]. cbn in H. injection H as H1 H2 H3.
  cbn. rewrite H1. destruct (Z.eqb (r_blp r') b); cbn; rewrite (IH rows' H3); [| reflexivity]. f_equal. unfold key. congruence.
Qed.
Lemma list_prod_NoDup {A B} (l : list A) (l' : list B) : NoDup l -> NoDup l' -> NoDup (list_prod l l').
Proof.
  intros H H'. induction H as [| x l Hn H IH]; cbn; [constructor |].
  assert (G : forall a b : list (A * B), NoDup a -> NoDup b -> (forall q, In q a -> ~ In q b) -> NoDup (a ++ b)).
  { clear. intros a b Ha Hb D. induction Ha as [| q a Hq Ha IH]; cbn; [assumption |]. constructor; [rewrite in_app_iff; intros [X | X]; [auto | exact (D q (or_introl eq_refl) X)] |].
    apply IH. intros y Hy. apply D. right. assumption. }
  apply G; [| assumption |].
  - clear -H'. induction H' as [| y l' Hy H' IH]; cbn; constructor; [| assumption]. rewrite in_map_iff. intros (z & E & Hz). injection E as <-. contradiction.
  - intros q Hq Hq'. apply in_map_iff in Hq. destruct Hq as (y & <- & _). apply in_prod_iff in Hq'. tauto.
Qed.
Lemma invq_pos a b : 0 < a -> 0 < b -> 0 < invq a b /\ / invq a b ^ 2 = / a ^ 2 + / b ^ 2.
Proof.
  intros Ha Hb. unfold invq. destruct (Req_EM_T a 0); [lra |]. destruct (Req_EM_T b 0); [lra |].
  assert (A : 0 < / a ^ 2) by (apply Rinv_0_lt_compat, pow_lt; assumption). assert (B : 0 < / b ^ 2) by (apply Rinv_0_lt_compat, pow_lt; assumption).
  assert (C : 0 < 1 / (1 / a ^ 2 + 1 / b ^ 2)). { apply Rdiv_lt_0_compat; [lra |]. unfold Rdiv. lra. }
  split; [apply sqrt_lt_R0; assumption |]. rewrite pow2_sqrt by lra. unfold Rdiv. rewrite !Rmult_1_l, Rinv_inv. reflexivity.
Qed.
Lemma quad_sq a b : 0 <= quad a b /\ quad a b ^ 2 = a ^ 2 + b ^ 2.
Proof. unfold quad. split; [apply sqrt_pos |]. apply pow2_sqrt. apply Rplus_le_le_0_compat; apply pow2_ge_0. Qed.

(** When the subtraction is meaningful: unfolded objects; every polarization pair of the first is in the second; the statistics of the
    first are in the second (if both have any); something is common; and, restricted to the baseline-pairs and LSTs that occur in both,
    each baseline-pair has the same sequence of LSTs in both. *)
Definition subtractable (u1 u2 : sobj) : Prop :=
  s_folded u1 = false /\ s_folded u2 = false /\ NoDup (s_wins u1) /\ NoDup (s_pols u1) /\ incl (s_pols u1) (s_pols u2) /\ stats_ok u1 u2 /\
  (exists w, In w (s_wins u1) /\ In w (s_wins u2)) /\ s_pols u1 <> [] /\ (exists r, In r (s_rows u1) /\ common_row u1 u2 r) /\
  (forall b, map r_lst (of_blp b (s_rows (restrict u1 u2 u1))) = map r_lst (of_blp b (s_rows (restrict u1 u2 u2)))).
Lemma subtract_core u1 u2 : subtractable u1 u2 ->
  let v1 := restrict u1 u2 u1 in let v2 := restrict u1 u2 u2 in
  exists rows', subtract_uvp u1 u2 = Ok (mksobj (s_folded v1) (s_wins v1) (s_pols v1) rows' (s_stats v1) (s_cov v1) (s_hwin v1)) /\
    map key rows' = map key (s_rows v1) /\
    (forall w p b, In w (s_wins v1) -> In p (s_pols v1) -> In b (map r_blp (s_rows v1)) ->
       view rows' w p b = new_cells v1 v2 (view (s_rows v1) w p b) (view (s_rows v2) w p b)).
Proof.
  intros (F1 & F2 & NW & NP & IP & ST & (w0 & Hw1 & Hw2) & PN & (r0 & Hr0 & HC0) & AL). intros v1 v2.
  fold v1 v2 in AL.
  assert (HL : forall b, length (of_blp b (s_rows v1)) = length (of_blp b (s_rows v2))).
  { intros b. rewrite <- (map_length r_lst), AL, map_length. reflexivity. }
  assert (R0 : In r0 (s_rows v1)) by (apply restrict_rows; split; assumption).
  assert (C : common2 eqW u1 u2 = Ok (v1, v2)).
  { unfold common2. fold v1 v2.
    replace (some (filter (fun w => memW eqW w (s_wins u2)) (s_wins u1))) with true.
    2: { symmetry. assert (X : In w0 (filter (fun w => memW eqW w (s_wins u2)) (s_wins u1))) by (apply filter_In; split; [assumption | apply memW_In; assumption]).
         destruct (filter _ (s_wins u1)); [destruct X | reflexivity]. }
    replace (existsb (fun r => has_blp (r_blp r) u2) (s_rows u1)) with true.
    2: { symmetry. apply existsb_exists. exists r0. split; [assumption |]. unfold has_blp. apply memZ_In. apply (HC0 u2 (or_intror eq_refl)). }
    replace (existsb (fun r => has_lst (r_lst r) u2) (s_rows u1)) with true.
    2: { symmetry. apply existsb_exists. exists r0. split; [assumption |]. unfold has_lst. apply memZ_In. apply (HC0 u2 (or_intror eq_refl)). }
    replace (some (filter (fun p => memZ p (s_pols u2)) (s_pols u1))) with true.
    2: { symmetry. destruct (s_pols u1) as [| p0 ps]; [congruence |]. cbn. replace (memZ p0 (s_pols u2)) with true; [reflexivity |]. symmetry. apply memZ_In, IP. left. reflexivity. }
    cbn [require]. replace (some (s_rows v1)) with true by (symmetry; destruct (s_rows v1); [destruct R0 | reflexivity]). cbn [require].
    replace (some (s_rows v2)) with true; [reflexivity |]. symmetry. destruct (s_rows v2) as [| y l] eqn:E; [| reflexivity]. exfalso.
    specialize (HL (r_blp r0)). try rewrite E in HL. cbn [of_blp filter length] in HL. apply length_zero_iff_nil in HL.
    assert (X : In r0 (of_blp (r_blp r0) (s_rows v1))) by (apply filter_In; split; [assumption | apply Z.eqb_refl]). rewrite HL in X. destruct X. }
  unfold SubModel.subtract_uvp. rewrite C. cbn [bind]. set (blps := nodup Z.eq_dec (map r_blp (s_rows v1))).
  set (todo := list_prod (list_prod (s_wins v1) (s_pols v1)) blps).
  assert (TI : forall w p b, In (w, p, b) todo <-> In w (s_wins v1) /\ In p (s_pols v1) /\ In b (map r_blp (s_rows v1))).
  { intros w p b. unfold todo, blps. rewrite !in_prod_iff, nodup_In. tauto. }
  destruct (loops_ok v1 v2 todo) with (rows := s_rows v1) as (rows' & E & K & V).
  - exact F2.
  - exact ST.
  - intros w p b H. apply TI in H. apply IP, H.
  - unfold todo. apply list_prod_NoDup; [apply list_prod_NoDup; [| exact NP] | apply NoDup_nodup]. apply NoDup_filter, NW.
  - intros w p b H. split; [apply HL |]. apply TI in H. destruct H as (_ & _ & H). apply in_map_iff in H. destruct H as (r & Eb & Hr). intros C0.
    assert (X : In r (of_blp b (s_rows v1))) by (apply filter_In; split; [assumption | apply Z.eqb_eq; assumption]). rewrite C0 in X. destruct X.
  - rewrite E. cbn [bind]. exists rows'. split; [reflexivity |]. split; [exact K |]. intros w p b Hw Hp Hb. apply V. apply TI. auto.
Qed.
(** rows of the result and the two rows they come from *)
Lemma subtract_trace u1 u2 rows' : subtractable u1 u2 -> map key rows' = map key (s_rows (restrict u1 u2 u1)) ->
  forall r' k, nth_error (of_blp (r_blp r') rows') k = Some r' ->
  exists r1 r2, nth_error (of_blp (r_blp r') (s_rows (restrict u1 u2 u1))) k = Some r1 /\ nth_error (of_blp (r_blp r') (s_rows (restrict u1 u2 u2))) k = Some r2 /\
    key r1 = key r' /\ key r2 = key r' /\ In r1 (s_rows u1) /\ In r2 (s_rows u2) /\ In (r_blp r') (map r_blp (s_rows (restrict u1 u2 u1))).
Proof.
  intros (_ & _ & _ & _ & _ & _ & _ & _ & _ & AL) K r' k Hk. set (b := r_blp r') in *. set (v1 := restrict u1 u2 u1) in *. set (v2 := restrict u1 u2 u2) in *.
  pose proof (of_blp_keys b rows' (s_rows v1) K) as KB.
    assert (Q1 : exists r1, nth_error (of_blp b (s_rows v1)) k = Some r1 /\ key r1 = key r').
    { assert (Y : nth_error (map key (of_blp b (s_rows v1))) k = Some (key r')) by (rewrite <- KB, nth_error_map, Hk; reflexivity).
      rewrite nth_error_map in Y. destruct (nth_error (of_blp b (s_rows v1)) k) as [r1 |]; [| discriminate]. cbn in Y. injection Y as Y. exists r1. split; [reflexivity | unfold key; congruence]. }
    destruct Q1 as (r1 & Hk1 & E1).
    assert (Q2 : exists r2, nth_error (of_blp b (s_rows v2)) k = Some r2 /\ r_lst r2 = r_lst r1).
    { assert (Y : nth_error (map r_lst (of_blp b (s_rows v2))) k = Some (r_lst r1)) by (rewrite <- AL, nth_error_map, Hk1; reflexivity).
      rewrite nth_error_map in Y. destruct (nth_error (of_blp b (s_rows v2)) k) as [r2 |]; [| discriminate]. cbn in Y. injection Y as Y. exists r2. auto. }
    destruct Q2 as (r2 & Hk2 & E2). pose proof (nth_error_In _ _ Hk1) as I1. pose proof (nth_error_In _ _ Hk2) as I2. apply filter_In in I1, I2.
    destruct I1 as [I1 B1], I2 as [I2 B2]. apply Z.eqb_eq in B1, B2. exists r1, r2. split; [assumption |]. split; [assumption |]. split; [exact E1 |].
    split. { rewrite <- E1. unfold key. rewrite E2, B1, B2. reflexivity. }
    split; [apply (restrict_rows u1 u2 u1), I1 |]. split; [apply (restrict_rows u1 u2 u2), I2 |].
    apply in_map_iff; exists r1; auto.
Qed.

(** Then the result has exactly the common windows and rows of the first, in order, and holds the difference of
    the two rows with the same baseline-pair and LST. *)
Theorem subtract_matches :
  forall u1 u2, subtractable u1 u2 ->
    exists u', subtract_uvp u1 u2 = Ok u' /\ s_pols u' = s_pols u1 /\
      (forall w, In w (s_wins u') <-> In w (s_wins u1) /\ In w (s_wins u2)) /\
      map key (s_rows u') = map key (s_rows (restrict u1 u2 u1)) /\
      forall r', In r' (s_rows u') -> exists r1 r2, In r1 (s_rows u1) /\ In r2 (s_rows u2) /\ key r1 = key r' /\ key r2 = key r' /\
        forall w p, In w (s_wins u') -> In p (s_pols u') -> difference_of (dostat u1 u2) (r_cell r1 w p) (r_cell r2 w p) (r_cell r' w p).
Proof.
  intros u1 u2 S. pose proof (subtract_core u1 u2 S) as H. cbn zeta in H. set (v1 := restrict u1 u2 u1) in *. set (v2 := restrict u1 u2 u2) in *. destruct H as (rows' & E & K & V).
  eexists. split; [exact E |]. cbn [s_pols s_wins s_rows]. split; [reflexivity |]. split; [| split; [exact K |]].
    { intros w. unfold v1. cbn [restrict s_wins]. rewrite filter_In, andb_true_iff, !memW_In. tauto. }
    intros r' Hr'. set (b := r_blp r').
    assert (X : In r' (of_blp b rows')) by (apply filter_In; split; [assumption | apply Z.eqb_refl]).
    apply In_nth_error in X. destruct X as [k Hk]. destruct (subtract_trace u1 u2 rows' S K r' k Hk) as (r1 & r2 & Hk1 & Hk2 & E1 & E2 & I1 & I2 & HB).
    fold v1 in Hk1, HB. fold v2 in Hk2. fold b in HB, Hk1, Hk2. exists r1, r2. do 4 (split; [assumption |]).
    intros w p Hw Hp. specialize (V w p b Hw Hp HB). rename V into V1.
    assert (N : nth_error (view rows' w p b) k = Some (r_cell r' w p)) by (rewrite nth_error_view, Hk; reflexivity).
    rewrite V1 in N. unfold new_cells in N.
    assert (M : nth_error (map2 (sub_cell (dostat v1 v2) (docov v1 v2) (s_hwin v1 && s_hwin v2)) (view (s_rows v1) w p b) (view (s_rows v2) w p b)) k
               = Some (sub_cell (dostat v1 v2) (docov v1 v2) (s_hwin v1 && s_hwin v2) (r_cell r1 w p) (r_cell r2 w p))).
    { apply map2_nth; rewrite nth_error_view; [rewrite Hk1 | rewrite Hk2]; reflexivity. }
    destruct (norm_nth _ _ _ M) as (c' & Nc & D1 & D2 & D3 & D4 & _). rewrite N in Nc. injection Nc as <-.
    unfold difference_of. rewrite D1, D2, D3, D4. cbn [sub_cell c_data c_ns c_int c_stat].
    split; [reflexivity |]. split; [apply invq_pos |]. split; [apply invq_pos |]. split.
    { unfold invq. intros [-> | ->]; [destruct (Req_EM_T 0 0); [reflexivity | lra] |]. destruct (Req_EM_T _ 0); [reflexivity |]. destruct (Req_EM_T 0 0); [reflexivity | lra]. }
    intros SS s d. change (dostat v1 v2) with (dostat u1 u2). rewrite SS. unfold quad2. cbn [fst snd].
    destruct (quad_sq (fst (c_stat (r_cell r1 w p) s d)) (fst (c_stat (r_cell r2 w p) s d))). destruct (quad_sq (snd (c_stat (r_cell r1 w p) s d)) (snd (c_stat (r_cell r2 w p) s d))). tauto.
Qed.

(** *** weights: 0 (flagged) or 1; the difference is unflagged exactly where both are *)
Definition binary (l : list R) : Prop := forall x, In x l -> x = 0 \/ x = 1.
Definition binary_weights (n : nat) (u : sobj) (w : W) (p : Z) : Prop :=
  forall r, In r (s_rows u) -> exists l, c_wgt (r_cell r w p) = Some l /\ length l = n /\ binary l.
(** some sample of the baseline-pair is unflagged in both objects *)
Definition shared_sample (u1 u2 : sobj) (w : W) (p b : Z) : Prop :=
  exists r1 r2 x y i, In r1 (s_rows u1) /\ In r2 (s_rows u2) /\ key r1 = key r2 /\ r_blp r1 = b /\
    c_wgt (r_cell r1 w p) = Some x /\ c_wgt (r_cell r2 w p) = Some y /\ nth_error x i = Some 1 /\ nth_error y i = Some 1.

Lemma invq_binary x y : (x = 0 \/ x = 1) -> (y = 0 \/ y = 1) -> invq x y = sqrt (1 / 2) * (x * y).
Proof.
  intros [-> | ->] [-> | ->]; unfold invq; repeat (destruct (Req_EM_T _ _); try lra).
  rewrite !Rmult_1_r. f_equal. field.
Qed.
Lemma maxl_nonneg l : 0 <= maxl l.
Proof. induction l; cbn; [lra |]. eapply Rle_trans; [exact IHl | apply Rmax_r]. Qed.
Lemma maxl_two s l : 0 < s -> (forall x, In x l -> x = 0 \/ x = s) -> (In s l -> maxl l = s) /\ (~ In s l -> maxl l = 0).
Proof.
  intros Hs. induction l as [| x l IH]; intros H; cbn; [split; [intros [] | reflexivity] |].
  destruct IH as [I1 I2]; [intros y Hy; apply H; right; assumption |].
  assert (B : maxl l <= s). { destruct (in_dec Req_EM_T s l) as [Q | Q]; [rewrite I1 by assumption; lra | rewrite I2 by assumption; lra]. }
  split.
  - intros [-> | Q]; [apply Rmax_left; assumption |]. rewrite I1 by assumption. destruct (H x (or_introl eq_refl)) as [-> | ->]; [apply Rmax_right; lra | apply Rmax_left; lra].
  - intros Q. rewrite I2 by tauto. destruct (H x (or_introl eq_refl)) as [-> | ->]; [apply Rmax_left; lra | tauto].
Qed.
Lemma all_wgts_in (l : list cell) : (forall c, In c l -> exists x, c_wgt c = Some x) ->
  exists ws, all_wgts l = Some ws /\ forall q, In q ws <-> exists c x, In c l /\ c_wgt c = Some x /\ In q x.
Proof.
  induction l as [| c l IH]; intros H.
  - exists []. split; [reflexivity |]. intros q. split; [intros [] | intros (c & x & [] & _)].
  - destruct (H c (or_introl eq_refl)) as [x Hx]. destruct IH as (ws & E & S); [intros; apply H; right; assumption |].
    exists (x ++ ws). cbn. rewrite Hx, E. split; [reflexivity |]. intros q. rewrite in_app_iff, S. split.
    + intros [Q | (c' & x' & Q1 & Q2 & Q3)]; [exists c, x; auto | exists c', x'; auto].
    + intros (c' & x' & [<- | Q1] & Q2 & Q3); [left; congruence | right; exists c', x'; auto].
Qed.
Lemma map2_In {A B C} (f : A -> B -> C) l : forall l' z, In z (map2 f l l') <-> exists k x y, nth_error l k = Some x /\ nth_error l' k = Some y /\ z = f x y.
Proof.
  induction l as [| a l IH]; intros [| b l'] z; cbn.
  - split; [intros [] | intros ([|] & x & y & H & _); discriminate].
  - split; [intros [] | intros ([|] & x & y & H & _); discriminate].
  - split; [intros [] | intros ([|] & x & y & _ & H & _); discriminate].
  - rewrite IH. split.
    + intros [<- | (k & x & y & Q)]; [exists 0%nat, a, b; auto | exists (S k), x, y; auto].
    + intros ([| k] & x & y & H1 & H2 & ->); cbn in *; [left; congruence | right; exists k, x, y; auto].
Qed.
Lemma nodup_key (l : list row) r r' : NoDup (map key l) -> In r l -> In r' l -> key r = key r' -> r = r'.
Proof.
  induction l as [| a l IH]; [intros _ [] |]. cbn [map]. intros ND H H' E. inversion ND as [| ? ? N1 N2]; subst.
  destruct H as [<- | H], H' as [<- | H']; auto; exfalso; apply N1; [rewrite E | rewrite <- E]; apply in_map; assumption.
Qed.
Lemma map2_map {A B C D} (g : C -> D) (f : A -> B -> C) l : forall l', map g (map2 f l l') = map2 (fun a b => g (f a b)) l l'.
Proof. induction l as [| a l IH]; intros [| b l']; cbn; f_equal; auto. Qed.
Lemma map2_ext {A B C} (f g : A -> B -> C) l : forall l', (forall a b, In a l -> In b l' -> f a b = g a b) -> map2 f l l' = map2 g l l'.
Proof. induction l as [| a l IH]; intros [| b l'] H; cbn; f_equal; [apply H; left; reflexivity | apply IH; intros; apply H; right; assumption]. Qed.

Theorem subtract_weights :
  forall u1 u2 u' w p n, subtractable u1 u2 -> NoDup (map key (s_rows u2)) -> subtract_uvp u1 u2 = Ok u' ->
    In w (s_wins u') -> In p (s_pols u') -> binary_weights n u1 w p -> binary_weights n u2 w p ->
    forall r', In r' (s_rows u') -> exists r1 r2 x y, In r1 (s_rows u1) /\ In r2 (s_rows u2) /\ key r1 = key r' /\ key r2 = key r' /\
      c_wgt (r_cell r1 w p) = Some x /\ c_wgt (r_cell r2 w p) = Some y /\
      (shared_sample u1 u2 w p (r_blp r') -> c_wgt (r_cell r' w p) = Some (map2 Rmult x y)) /\
      (~ shared_sample u1 u2 w p (r_blp r') -> c_wgt (r_cell r' w p) = None).
Proof.
  intros u1 u2 u' w p n S ND2 EU Hw Hp B1 B2 r' Hr'. pose proof (subtract_core u1 u2 S) as H. cbn zeta in H.
  set (v1 := restrict u1 u2 u1) in *. set (v2 := restrict u1 u2 u2) in *. destruct H as (rows' & E & K & V).
  rewrite E in EU. injection EU as <-. cbn [s_wins s_pols s_rows] in *. set (b := r_blp r') in *.
  assert (X : In r' (of_blp b rows')) by (apply filter_In; split; [assumption | apply Z.eqb_refl]).
  apply In_nth_error in X. destruct X as [k Hk]. destruct (subtract_trace u1 u2 rows' S K r' k Hk) as (r1 & r2 & Hk1 & Hk2 & E1 & E2 & I1 & I2 & HB).
  fold v1 in Hk1, HB. fold v2 in Hk2. fold b in HB, Hk1, Hk2. destruct (B1 r1 I1) as (x & Wx & Lx & Bx), (B2 r2 I2) as (y & Wy & Ly & By).
  exists r1, r2, x, y. do 6 (split; [assumption |]).
  specialize (V w p b Hw Hp HB). unfold new_cells in V. set (sc := sub_cell (dostat v1 v2) (docov v1 v2) (s_hwin v1 && s_hwin v2)) in *.
  set (A := view (s_rows v1) w p b) in *. set (B := view (s_rows v2) w p b) in *.
  assert (BA : forall j c, nth_error A j = Some c -> exists r l, nth_error (of_blp b (s_rows v1)) j = Some r /\ In r (s_rows u1) /\ r_blp r = b /\ c = r_cell r w p /\ c_wgt c = Some l /\ length l = n /\ binary l).
  { intros j c Hj. unfold A in Hj. rewrite nth_error_view in Hj. destruct (nth_error (of_blp b (s_rows v1)) j) as [r |] eqn:Er; [| discriminate]. cbn in Hj. injection Hj as <-.
    pose proof (nth_error_In _ _ Er) as Ir. apply filter_In in Ir. destruct Ir as [Ir Ib]. apply Z.eqb_eq in Ib. apply restrict_rows in Ir. destruct (B1 r (proj1 Ir)) as (l & Q). exists r, l. tauto. }
  assert (BB : forall j c, nth_error B j = Some c -> exists r l, nth_error (of_blp b (s_rows v2)) j = Some r /\ In r (s_rows u2) /\ r_blp r = b /\ c = r_cell r w p /\ c_wgt c = Some l /\ length l = n /\ binary l).
  { intros j c Hj. unfold B in Hj. rewrite nth_error_view in Hj. destruct (nth_error (of_blp b (s_rows v2)) j) as [r |] eqn:Er; [| discriminate]. cbn in Hj. injection Hj as <-.
    pose proof (nth_error_In _ _ Er) as Ir. apply filter_In in Ir. destruct Ir as [Ir Ib]. apply Z.eqb_eq in Ib. apply restrict_rows in Ir. destruct (B2 r (proj1 Ir)) as (l & Q). exists r, l. tauto. }
  assert (KEY : forall j q1 q2, nth_error (of_blp b (s_rows v1)) j = Some q1 -> nth_error (of_blp b (s_rows v2)) j = Some q2 -> key q1 = key q2).
  { intros j q1 q2 Q1 Q2. destruct S as (_ & _ & _ & _ & _ & _ & _ & _ & _ & AL). specialize (AL b). fold v1 v2 in AL.
    assert (Y : nth_error (map r_lst (of_blp b (s_rows v1))) j = nth_error (map r_lst (of_blp b (s_rows v2))) j) by (rewrite AL; reflexivity).
    rewrite !nth_error_map, Q1, Q2 in Y. cbn in Y. injection Y as Y. pose proof (nth_error_In _ _ Q1) as J1. pose proof (nth_error_In _ _ Q2) as J2. apply filter_In in J1, J2.
    destruct J1 as [_ J1], J2 as [_ J2]. apply Z.eqb_eq in J1, J2. unfold key. congruence. }
  destruct (all_wgts_in (map2 sc A B)) as (ws & EW & SW).
  { intros c Hc. apply map2_In in Hc. destruct Hc as (j & a & c2 & Ha & Hc2 & ->). destruct (BA _ _ Ha) as (_ & la & _ & _ & _ & _ & Qa & _), (BB _ _ Hc2) as (_ & lb & _ & _ & _ & _ & Qb & _).
    unfold sc, sub_cell. cbn [c_wgt]. rewrite Qa, Qb. eexists; reflexivity. }
  assert (SP : 0 < sqrt (1 / 2)) by (apply sqrt_lt_R0; lra).
  assert (IN : forall q, In q ws <-> exists j q1 q2 la lb i s t, nth_error (of_blp b (s_rows v1)) j = Some q1 /\ nth_error (of_blp b (s_rows v2)) j = Some q2 /\
     c_wgt (r_cell q1 w p) = Some la /\ c_wgt (r_cell q2 w p) = Some lb /\ nth_error la i = Some s /\ nth_error lb i = Some t /\ (s = 0 \/ s = 1) /\ (t = 0 \/ t = 1) /\ q = sqrt (1 / 2) * (s * t)).
  { intros q. rewrite SW. split.
    - intros (c & l & Hc & Hl & Hq). apply map2_In in Hc. destruct Hc as (j & a & c2 & Ha & Hc2 & ->). destruct (BA _ _ Ha) as (q1 & la & N1 & _ & _ & -> & Qa & _ & Ba), (BB _ _ Hc2) as (q2 & lb & N2 & _ & _ & -> & Qb & _ & Bb).
      unfold sc, sub_cell in Hl. cbn [c_wgt] in Hl. rewrite Qa, Qb in Hl. injection Hl as <-. apply map2_In in Hq. destruct Hq as (i & s & t & Hs & Ht & ->).
      pose proof (Ba s (nth_error_In _ _ Hs)). pose proof (Bb t (nth_error_In _ _ Ht)). exists j, q1, q2, la, lb, i, s, t. repeat (split; [assumption |]). apply invq_binary; assumption.
    - intros (j & q1 & q2 & la & lb & i & s & t & N1 & N2 & Qa & Qb & Hs & Ht & Bs & Bt & ->). exists (sc (r_cell q1 w p) (r_cell q2 w p)), (map2 invq la lb). split; [| split].
      + apply map2_In. exists j, (r_cell q1 w p), (r_cell q2 w p). split; [unfold A; rewrite nth_error_view, N1; reflexivity |]. split; [unfold B; rewrite nth_error_view, N2; reflexivity | reflexivity].
      + unfold sc, sub_cell. cbn [c_wgt]. rewrite Qa, Qb. reflexivity.
      + apply map2_In. exists i, s, t. split; [assumption |]. split; [assumption |]. symmetry. apply invq_binary; assumption. }
  assert (TWO : forall q, In q ws -> q = 0 \/ q = sqrt (1 / 2)).
  { intros q Hq. apply IN in Hq. destruct Hq as (_ & _ & _ & _ & _ & _ & s & t & _ & _ & _ & _ & _ & _ & Bs & Bt & ->). destruct Bs as [-> | ->]; [left; ring |]. destruct Bt as [-> | ->]; [left; ring | right; ring]. }
  assert (SH : shared_sample u1 u2 w p b <-> In (sqrt (1 / 2)) ws).
  { rewrite IN. split.
    - intros (q1 & q2 & la & lb & i & J1 & J2 & Ke & Kb & Qa & Qb & Hs & Ht).
      assert (C1 : In q1 (s_rows v1)).
      { apply restrict_rows. split; [assumption |]. intros u [-> | ->]; [split; apply in_map; assumption |]. unfold key in Ke. injection Ke as Ke1 Ke2. rewrite Ke1, Ke2. split; apply in_map; assumption. }
      assert (C2 : In q1 (of_blp b (s_rows v1))) by (apply filter_In; split; [assumption | apply Z.eqb_eq; assumption]).
      apply In_nth_error in C2. destruct C2 as [j Hj].
      destruct (nth_error (of_blp b (s_rows v2)) j) as [q3 |] eqn:Hj2.
      2: { exfalso. apply nth_error_None in Hj2. assert (HH : nth_error (of_blp b (s_rows v1)) j <> None) by congruence. apply nth_error_Some in HH.
           destruct S as (_ & _ & _ & _ & _ & _ & _ & _ & _ & AL). specialize (AL b). fold v1 v2 in AL. apply (f_equal (@length Z)) in AL. rewrite !map_length in AL. lia. }
      assert (q3 = q2).
      { apply (nodup_key (s_rows u2)); auto; [| rewrite <- (KEY j q1 q3 Hj Hj2); assumption]. pose proof (nth_error_In _ _ Hj2) as J. apply filter_In in J. apply (restrict_rows u1 u2 u2), J. }
      subst q3. exists j, q1, q2, la, lb, i, 1, 1. repeat (split; [first [assumption | right; reflexivity] |]). ring.
    - intros (j & q1 & q2 & la & lb & i & s & t & N1 & N2 & Qa & Qb & Hs & Ht & Bs & Bt & Eq).
      assert (s = 1 /\ t = 1) as [-> ->].
      { destruct Bs as [-> | ->]; [exfalso; rewrite Rmult_0_l, Rmult_0_r in Eq; lra |]. destruct Bt as [-> | ->]; [exfalso; rewrite !Rmult_0_r in Eq; lra | auto]. }
      assert (G : forall u q, nth_error (of_blp b (s_rows (restrict u1 u2 u))) j = Some q -> In q (s_rows u) /\ r_blp q = b).
      { intros u q N. pose proof (nth_error_In _ _ N) as J. apply filter_In in J. destruct J as [J Jb]. apply restrict_rows in J. apply Z.eqb_eq in Jb. tauto. }
      destruct (G u1 q1 N1), (G u2 q2 N2). exists q1, q2, la, lb, i. repeat (split; [first [assumption | eapply KEY; eassumption] |]). assumption. }
  assert (N : nth_error (view rows' w p b) k = Some (r_cell r' w p)) by (rewrite nth_error_view, Hk; reflexivity). rewrite V in N.
  assert (M : nth_error (map2 sc A B) k = Some (sc (r_cell r1 w p) (r_cell r2 w p))).
  { unfold A, B. apply map2_nth; rewrite nth_error_view; [rewrite Hk1 | rewrite Hk2]; reflexivity. }
  unfold norm_wgts in N. rewrite EW in N. destruct (maxl_two (sqrt (1 / 2)) ws SP TWO) as [M1 M2]. split; intros HS.
  - apply SH in HS. rewrite (M1 HS) in N. destruct (Req_EM_T (sqrt (1 / 2)) 0); [lra |]. rewrite nth_error_map, M in N. cbn [option_map] in N. injection N as <-. cbn [c_wgt].
    unfold sc, sub_cell. cbn [c_wgt]. rewrite Wx, Wy. cbn [option_map]. f_equal. rewrite map2_map. apply map2_ext. intros s t Hs Ht. rewrite (invq_binary s t (Bx s Hs) (By t Ht)). field. lra.
  - assert (HS' : ~ In (sqrt (1 / 2)) ws) by (intros Q; apply HS, SH, Q). rewrite (M2 HS') in N. destruct (Req_EM_T 0 0); [| lra]. rewrite nth_error_map, M in N. cbn [option_map] in N. injection N as <-. reflexivity.
Qed.

(** *** covariances and window functions *)
Theorem subtract_arrays : forall u1 u2 u', subtractable u1 u2 -> subtract_uvp u1 u2 = Ok u' ->
  forall r' w p, In r' (s_rows u') -> In w (s_wins u') -> In p (s_pols u') -> exists r1 r2, In r1 (s_rows u1) /\ In r2 (s_rows u2) /\ key r1 = key r' /\ key r2 = key r' /\
    (forall d d', c_covr (r_cell r' w p) d d' = if docov u1 u2 then quad (c_covr (r_cell r1 w p) d d') (c_covr (r_cell r2 w p) d d') else c_covr (r_cell r1 w p) d d') /\
    (forall d d', c_win (r_cell r' w p) d d' = if s_hwin u1 && s_hwin u2 then quad (c_win (r_cell r1 w p) d d') (c_win (r_cell r2 w p) d d') else c_win (r_cell r1 w p) d d') /\
    (forall d d', c_covi (r_cell r' w p) d d' = if docov u1 u2 then quad (c_covi (r_cell r1 w p) d d') (c_covi (r_cell r2 w p) d d') else c_covi (r_cell r1 w p) d d').
Proof.
  intros u1 u2 u' S EU r' w p Hr' Hw Hp. pose proof (subtract_core u1 u2 S) as H. cbn zeta in H.
  set (v1 := restrict u1 u2 u1) in *. set (v2 := restrict u1 u2 u2) in *. destruct H as (rows' & E & K & V).
  rewrite E in EU. injection EU as <-. cbn [s_wins s_pols s_rows] in *. set (b := r_blp r') in *.
  assert (X : In r' (of_blp b rows')) by (apply filter_In; split; [assumption | apply Z.eqb_refl]).
  apply In_nth_error in X. destruct X as [k Hk]. destruct (subtract_trace u1 u2 rows' S K r' k Hk) as (r1 & r2 & Hk1 & Hk2 & E1 & E2 & I1 & I2 & HB).
  fold v1 in Hk1, HB. fold v2 in Hk2. fold b in HB, Hk1, Hk2. exists r1, r2. do 4 (split; [assumption |]). specialize (V w p b Hw Hp HB).
  assert (N : nth_error (view rows' w p b) k = Some (r_cell r' w p)) by (rewrite nth_error_view, Hk; reflexivity). rewrite V in N. unfold new_cells in N.
  assert (M : nth_error (map2 (sub_cell (dostat v1 v2) (docov v1 v2) (s_hwin v1 && s_hwin v2)) (view (s_rows v1) w p b) (view (s_rows v2) w p b)) k
               = Some (sub_cell (dostat v1 v2) (docov v1 v2) (s_hwin v1 && s_hwin v2) (r_cell r1 w p) (r_cell r2 w p))).
  { apply map2_nth; rewrite nth_error_view; [rewrite Hk1 | rewrite Hk2]; reflexivity. }
  destruct (norm_nth _ _ _ M) as (c' & Nc & _ & _ & _ & _ & D1 & D3 & D2). rewrite N in Nc. injection Nc as <-. rewrite D1, D2, D3. cbn [sub_cell c_covr c_win c_covi].
  change (docov v1 v2) with (docov u1 u2). change (s_hwin v1 && s_hwin v2)%bool with (s_hwin u1 && s_hwin u2)%bool.
  split; [| split]; intros d d'; [destruct (docov u1 u2) | destruct (s_hwin u1 && s_hwin u2) | destruct (docov u1 u2)]; reflexivity.
Qed.

(** *** refusals *)
Lemma fold_err {A B} (f : A -> B -> result B) l x : In x l -> (forall s, exists e, f x s = Err e) -> forall s, exists e, fold_res f l s = Err e.
Proof.
  intros I H. induction l as [| y l IH]; [destruct I |]. intros s. cbn. destruct I as [-> | I].
  - destruct (H s) as [e ->]. exists e. reflexivity.
  - destruct (f y s) as [s' | e]; cbn; [apply IH, I | exists e; reflexivity].
Qed.
Lemma common2_inv u1 u2 v1 v2 : common2 eqW u1 u2 = Ok (v1, v2) -> v1 = restrict u1 u2 u1 /\ v2 = restrict u1 u2 u2 /\
  (exists w, In w (s_wins v1)) /\ (exists p, In p (s_pols v1)) /\ (exists r, In r (s_rows v1)).
Proof.
  unfold common2. intros H. destruct (some (filter (fun w => memW eqW w (s_wins u2)) (s_wins u1))) eqn:E1; [| discriminate]. cbn [require] in H.
  destruct (existsb (fun r => has_blp (r_blp r) u2) (s_rows u1)); [| discriminate]. cbn [require] in H.
  destruct (existsb (fun r => has_lst (r_lst r) u2) (s_rows u1)); [| discriminate]. cbn [require] in H.
  destruct (some (filter (fun p => memZ p (s_pols u2)) (s_pols u1))) eqn:E2; [| discriminate]. cbn [require] in H.
  destruct (some (s_rows (restrict u1 u2 u1))) eqn:E3; [| discriminate]. cbn [require] in H.
  destruct (some (s_rows (restrict u1 u2 u2))); [| discriminate]. cbn [require] in H. injection H as <- <-.
  split; [reflexivity |]. split; [reflexivity |].
  assert (G : forall (T : Type) (l : list T), some l = true -> exists x, In x l) by (intros T [| x l] Q; [discriminate | exists x; left; reflexivity]).
  split; [| split].
  - destruct (G _ _ E1) as [w Hw]. apply filter_In in Hw. exists w. cbn [restrict s_wins]. apply filter_In. rewrite andb_true_iff, !memW_In in *. tauto.
  - destruct (G _ _ E2) as [q Hq]. apply filter_In in Hq. exists q. apply Hq.
  - apply G, E3.
Qed.
(** A polarization pair of the first object that the second lacks is not removed: the call fails *)
Theorem subtract_polpairs_refuted :
  forall u1 u2 p, In p (s_pols u1) -> ~ In p (s_pols u2) -> exists e, subtract_uvp u1 u2 = Err e.
Proof.
  intros u1 u2 p H1 H2. unfold SubModel.subtract_uvp. destruct (common2 eqW u1 u2) as [[v1 v2] | e] eqn:C; [| exists e; reflexivity]. cbn [bind].
  destruct (common2_inv _ _ _ _ C) as (-> & -> & (w & Hw) & _ & (r & Hr)).
  set (todo := list_prod _ _). destruct (fold_err (fun '(w, p, b) rows => sub_one (restrict u1 u2 u1) (restrict u1 u2 u2) w p b rows) todo (w, p, r_blp r)) with (s := s_rows (restrict u1 u2 u1)) as [e E].
  - unfold todo. rewrite !in_prod_iff, nodup_In. split; [split; [exact Hw | exact H1] | apply in_map; assumption].
  - intros rows. unfold SubModel.sub_one. replace (memZ p (s_pols (restrict u1 u2 u2))) with false; [exists AssertionError; reflexivity |].
    symmetry. apply not_true_iff_false. rewrite memZ_In. exact H2.
  - rewrite E. exists e. reflexivity.
Qed.
(** Folded objects are never subtracted *)
Theorem subtract_folded_refuted : forall u1 u2, s_folded u2 = true -> exists e, subtract_uvp u1 u2 = Err e.
Proof.
  intros u1 u2 F. unfold SubModel.subtract_uvp. destruct (common2 eqW u1 u2) as [[v1 v2] | e] eqn:C; [| exists e; reflexivity]. cbn [bind].
  destruct (common2_inv _ _ _ _ C) as (-> & -> & (w & Hw) & (p & Hp) & (r & Hr)).
  set (todo := list_prod _ _). destruct (fold_err (fun '(w, p, b) rows => sub_one (restrict u1 u2 u1) (restrict u1 u2 u2) w p b rows) todo (w, p, r_blp r)) with (s := s_rows (restrict u1 u2 u1)) as [e E].
  - unfold todo. rewrite !in_prod_iff, nodup_In. split; [split; [exact Hw | exact Hp] | apply in_map; assumption].
  - intros rows. unfold SubModel.sub_one. destruct (memZ p _ && some _)%bool; cbn [require]; [| exists AssertionError; reflexivity].
    change (s_folded (restrict u1 u2 u2)) with (s_folded u2). rewrite F. exists ValueError. reflexivity.
  - rewrite E. exists e. reflexivity.
Qed.
End Sub.

(** *** concrete objects: one window, one polarization pair *)
Definition cc (v : R) : cell := mkcell (fun _ => (v, 0)) 1 1 (Some [1]) (fun _ _ => (1, 0)) (fun d d' => if Nat.eqb d d' then 1 else 0) (fun _ _ => 0) (fun d d' => if Nat.eqb d d' then 1 else 0).
Definition rr (b t : Z) (v : R) : row nat := mkrow b t (fun _ _ => cc v).
Definition oo (rows : list (row nat)) : sobj nat := mksobj false [0%nat] [7%Z] rows (Some ["bs_std"%string]) (Some "empirical"%string) true.
Definition subn := subtract_uvp Nat.eq_dec.
Example subtractable_ex : subtractable Nat.eq_dec (oo [rr 1 1 5; rr 2 1 6; rr 1 2 7; rr 3 9 8]) (oo [rr 4 1 0; rr 1 1 2; rr 1 2 3; rr 2 1 4]).
Proof.
  unfold subtractable. repeat match goal with |- _ /\ _ => split end; cbn; try reflexivity.
  - repeat constructor; cbn; tauto.
  - repeat constructor; cbn; tauto.
  - intros x H; exact H.
  - intros x H; exact H.
  - exists 0%nat. auto.
  - discriminate.
  - exists (rr 1 1 5). split; [left; reflexivity |]. intros u [-> | ->]; cbn; auto.
  - intros b. destruct b as [| q | q]; try reflexivity. destruct q as [q | q |]; try reflexivity. destruct q; reflexivity.
Qed.
Example subtract_weights_ex : let u1 := oo [rr 1 1 5; rr 2 1 6] in let u2 := oo [rr 1 1 2; rr 2 1 4] in
  subtractable Nat.eq_dec u1 u2 /\ NoDup (map key (s_rows u2)) /\ binary_weights 1 u1 0%nat 7 /\ binary_weights 1 u2 0%nat 7 /\ shared_sample u1 u2 0%nat 7 1.
Proof.
  cbn zeta. split; [| split; [| split; [| split]]].
  - unfold subtractable. repeat match goal with |- _ /\ _ => split end; cbn; try reflexivity.
    + repeat constructor; cbn; tauto.
    + repeat constructor; cbn; tauto.
    + intros x H; exact H.
    + intros x H; exact H.
    + exists 0%nat. auto.
    + discriminate.
    + exists (rr 1 1 5). split; [left; reflexivity |]. intros u [-> | ->]; cbn; auto.
    + intros b. destruct b as [| q | q]; try reflexivity. destruct q as [q | q |]; try reflexivity. destruct q; reflexivity.
  - cbn. repeat constructor; cbn; intuition discriminate.
  - intros r H. exists [1]. cbn in H. destruct H as [<- | [<- | []]]; cbn; (split; [reflexivity | split; [reflexivity | intros x [<- | []]; right; reflexivity]]).
  - intros r H. exists [1]. cbn in H. destruct H as [<- | [<- | []]]; cbn; (split; [reflexivity | split; [reflexivity | intros x [<- | []]; right; reflexivity]]).
  - exists (rr 1 1 5), (rr 1 1 2), [1], [1], 0%nat. cbn. auto 10.
Qed.

(** "matching blpair-lst keys are subtracted" fails: the baseline-pairs and the LSTs are selected independently, and the rows of a
    baseline-pair are then paired by position.  Here baseline-pair 1 has LST 1 in the first object and LST 2 in the second, and the row
    (1, LST 1) comes out as the difference of different LSTs.  *)
Theorem subtract_by_lst_refuted :
  ~ (forall (u1 u2 u' : sobj nat), NoDup (map key (s_rows u1)) -> NoDup (map key (s_rows u2)) -> s_pols u1 = s_pols u2 -> s_wins u1 = s_wins u2 ->
       subtract_uvp Nat.eq_dec u1 u2 = Ok u' -> forall r', In r' (s_rows u') -> exists r2, In r2 (s_rows u2) /\ key r2 = key r').
Proof.
  intros H. set (u1 := oo [rr 1 1 5; rr 2 2 6]). set (u2 := oo [rr 1 2 2; rr 2 1 4]).
  assert (E : exists u', subtract_uvp Nat.eq_dec u1 u2 = Ok u' /\ map key (s_rows u') = map key (s_rows u1)).
  { eexists. split.
    - unfold subtract_uvp, u1, u2. cbn -[norm_wgts sub_cell put of_blp]. unfold sub_one. cbn -[norm_wgts sub_cell put]. unfold broadcast. 
      rewrite !map_length. rewrite (of_blp_length_keys 2 (put _ _ _ _ _ _) [rr 1 1 5; rr 2 2 6]) by apply put_keys. cbn -[norm_wgts sub_cell put]. reflexivity.
    - cbn [s_rows]. rewrite !put_keys. reflexivity. }
  destruct E as (u' & E & K). assert (I : exists r', In r' (s_rows u') /\ key r' = (1, 1)%Z).
  { assert (Q : In (1, 1)%Z (map key (s_rows u'))) by (rewrite K; left; reflexivity). apply in_map_iff in Q. destruct Q as (r' & Q1 & Q2). exists r'. auto. }
  destruct I as (r' & I & Kr). destruct (H u1 u2 u') with (r' := r') as (r2 & I2 & K2); auto.
  - cbn. repeat constructor; cbn; intuition discriminate.
  - cbn. repeat constructor; cbn; intuition discriminate.
  - rewrite Kr in K2. cbn in I2. destruct I2 as [<- | [<- | []]]; discriminate.
Qed.

(** the same objects with the rows in another order give another difference, without any error *)
Theorem subtract_row_order_refuted :
  ~ (forall (u1 u2 u3 u' : sobj nat), s_rows u3 = rev (s_rows u2) -> s_pols u3 = s_pols u2 -> s_wins u3 = s_wins u2 -> s_folded u3 = s_folded u2 -> s_stats u3 = s_stats u2 ->
       s_cov u3 = s_cov u2 -> s_hwin u3 = s_hwin u2 -> subtract_uvp Nat.eq_dec u1 u2 = Ok u' -> exists u'', subtract_uvp Nat.eq_dec u1 u3 = Ok u'' /\
       forall r', In r' (s_rows u') -> exists r'', In r'' (s_rows u'') /\ key r'' = key r' /\ c_data (r_cell r'' 0%nat 7%Z) 0%nat = c_data (r_cell r' 0%nat 7%Z) 0%nat).
Proof.
  intros H. set (u1 := oo [rr 1 1 5; rr 1 2 6]). set (u2 := oo [rr 1 1 2; rr 1 2 4]). set (u3 := oo [rr 1 2 4; rr 1 1 2]).
  assert (G : forall a b t1 t2, exists u', subtract_uvp Nat.eq_dec u1 (oo [rr 1 t1 a; rr 1 t2 b]) = Ok u' /\ (map (fun r => (key r, c_data (r_cell r 0%nat 7%Z) 0%nat)) (s_rows u') = [((1, 1)%Z, (5 - a, 0 - 0)); ((1, 2)%Z, (6 - b, 0 - 0))]) \/ ~ ((t1 = 1 /\ t2 = 2) \/ (t1 = 2 /\ t2 = 1))%Z).
  { intros a b t1 t2. destruct (Z.eq_dec t1 1) as [-> | N1]; [destruct (Z.eq_dec t2 2) as [-> | N2] |].
    - eexists. left. split.
      + unfold subtract_uvp, u1. cbn -[norm_wgts sub_cell]. unfold sub_one. cbn -[norm_wgts sub_cell]. reflexivity.
      + cbn [s_rows]. unfold norm_wgts. cbn [all_wgts sub_cell c_wgt]. cbn -[sub_cell]. destruct (Req_EM_T _ 0); cbn; reflexivity.
    - exists u1. right. intros [[_ ?] | [? _]]; congruence.
    - destruct (Z.eq_dec t1 2) as [-> | N3]; [destruct (Z.eq_dec t2 1) as [-> | N2] |].
      + eexists. left. split.
        * unfold subtract_uvp, u1. cbn -[norm_wgts sub_cell]. unfold sub_one. cbn -[norm_wgts sub_cell]. reflexivity.
        * cbn [s_rows]. unfold norm_wgts. cbn [all_wgts sub_cell c_wgt]. cbn -[sub_cell]. destruct (Req_EM_T _ 0); cbn; reflexivity.
      + exists u1. right. intros [[? _] | [_ ?]]; congruence.
      + exists u1. right. intros [[? _] | [? _]]; congruence. }
  destruct (G 2 4 1%Z 2%Z) as (u' & [[E K] | N]); [| exfalso; apply N; auto].
  destruct (G 4 2 2%Z 1%Z) as (u3' & [[E3 K3] | N]); [| exfalso; apply N; auto].
  destruct (H u1 u2 u3 u') as (u'' & E'' & Q); auto.
  fold u3 in E3. rewrite E3 in E''. injection E'' as <-.
  assert (I : exists r', In r' (s_rows u') /\ (key r', c_data (r_cell r' 0%nat 7%Z) 0%nat) = ((1, 1)%Z, (5 - 2, 0 - 0))).
  { assert (X : In ((1, 1)%Z, (5 - 2, 0 - 0)) (map (fun r => (key r, c_data (r_cell r 0%nat 7%Z) 0%nat)) (s_rows u'))) by (rewrite K; left; reflexivity).
    apply in_map_iff in X. destruct X as (r' & X1 & X2). exists r'. auto. }
  destruct I as (r' & I & X). pose proof (f_equal fst X) as X1. pose proof (f_equal snd X) as X2. cbn [fst snd] in X1, X2. destruct (Q r' I) as (r'' & I'' & K'' & D'').
  assert (Y : In (key r'', c_data (r_cell r'' 0%nat 7%Z) 0%nat) [((1, 1)%Z, (5 - 4, 0 - 0)); ((1, 2)%Z, (6 - 2, 0 - 0))]) by (rewrite <- K3; apply (in_map (fun r => (key r, c_data (r_cell r 0%nat 7%Z) 0%nat))), I'').
  rewrite K'', D'', X1, X2 in Y. destruct Y as [Y | [Y | []]]; injection Y; intros; try discriminate; lra.
Qed.

Example sub1 : subtractable Nat.eq_dec (oo [rr 1 1 5]) (oo [rr 1 1 2]).
Proof.
  unfold subtractable. repeat match goal with |- _ /\ _ => split end; cbn; try reflexivity.
  - repeat constructor; cbn; tauto.
  - repeat constructor; cbn; tauto.
  - intros x H; exact H.
  - intros x H; exact H.
  - exists 0%nat. auto.
  - discriminate.
  - exists (rr 1 1 5). split; [left; reflexivity |]. intros u [-> | ->]; cbn; auto.
  - intros b. destruct b as [| q | q]; try reflexivity. destruct q as [q | q |]; reflexivity.
Qed.
(** covariances of independent spectra add; the code combines them in quadrature as if they were standard deviations, so the diagonal of
    the covariance is no longer the square of the errors that were combined from the same two objects *)
Theorem subtract_covariance_refuted :
  ~ (forall (u1 u2 u' : sobj nat) r' r1 r2, subtractable Nat.eq_dec u1 u2 -> docov u1 u2 = true -> NoDup (map key (s_rows u1)) -> NoDup (map key (s_rows u2)) ->
       subtract_uvp Nat.eq_dec u1 u2 = Ok u' -> In r' (s_rows u') -> In r1 (s_rows u1) -> In r2 (s_rows u2) -> key r1 = key r' -> key r2 = key r' ->
       forall d d', c_covr (r_cell r' 0%nat 7%Z) d d' = c_covr (r_cell r1 0%nat 7%Z) d d' + c_covr (r_cell r2 0%nat 7%Z) d d').
Proof.
  intros H. destruct (subtract_matches Nat.eq_dec _ _ sub1) as (u' & E & P & Wn & K & _).
  assert (I : exists r', In r' (s_rows u') /\ key r' = (1, 1)%Z).
  { assert (Q : In (1, 1)%Z (map key (s_rows u'))) by (rewrite K; left; reflexivity). apply in_map_iff in Q. destruct Q as (r' & Q1 & Q2). exists r'. auto. }
  destruct I as (r' & I & Kr). specialize (H _ _ u' r' (rr 1 1 5) (rr 1 1 2) sub1 eq_refl).
  assert (ND : forall v, NoDup (map key (s_rows (oo [rr 1 1 v])))) by (intros; cbn; repeat constructor; cbn; tauto).
  specialize (H (ND 5) (ND 2) E I (or_introl eq_refl) (or_introl eq_refl)). rewrite Kr in H. specialize (H eq_refl eq_refl 0%nat 0%nat).
  assert (W0 : In 0%nat (s_wins u')) by (apply Wn; cbn; auto). assert (P0 : In 7%Z (s_pols u')) by (rewrite P; cbn; auto).
  destruct (subtract_arrays Nat.eq_dec _ _ u' sub1 E r' 0%nat 7%Z I W0 P0) as (q1 & q2 & I1 & I2 & _ & _ & C & _).
  cbn in I1, I2. destruct I1 as [<- | []], I2 as [<- | []]. specialize (C 0%nat 0%nat). change (docov (oo [rr 1 1 5]) (oo [rr 1 1 2])) with true in C. cbn iota in C. rewrite H in C. cbn in C.
  destruct (quad_sq 1 1) as [_ Q]. rewrite <- C in Q. lra.
Qed.
(** the window function of the difference of two spectra with the same window function should be that window function; the code
    multiplies it by sqrt 2, so that its rows no longer sum to one *)
Theorem subtract_window_refuted :
  ~ (forall (u1 u2 u' : sobj nat) r', subtractable Nat.eq_dec u1 u2 -> s_hwin u1 = true -> s_hwin u2 = true ->
       (forall r, In r (s_rows u1) \/ In r (s_rows u2) -> forall d d', c_win (r_cell r 0%nat 7%Z) d d' = if Nat.eqb d d' then 1 else 0) ->
       subtract_uvp Nat.eq_dec u1 u2 = Ok u' -> In r' (s_rows u') -> forall d d', c_win (r_cell r' 0%nat 7%Z) d d' = if Nat.eqb d d' then 1 else 0).
Proof.
  intros H. destruct (subtract_matches Nat.eq_dec _ _ sub1) as (u' & E & P & Wn & K & _).
  assert (I : exists r', In r' (s_rows u') /\ key r' = (1, 1)%Z).
  { assert (Q : In (1, 1)%Z (map key (s_rows u'))) by (rewrite K; left; reflexivity). apply in_map_iff in Q. destruct Q as (r' & Q1 & Q2). exists r'. auto. }
  destruct I as (r' & I & Kr).
  assert (HW : forall r, In r (s_rows (oo [rr 1 1 5])) \/ In r (s_rows (oo [rr 1 1 2])) -> forall d d', c_win (r_cell r 0%nat 7%Z) d d' = if Nat.eqb d d' then 1 else 0).
  { cbn. intros r [[<- | []] | [<- | []]] d d'; reflexivity. }
  specialize (H _ _ u' r' sub1 eq_refl eq_refl HW E I 0%nat 0%nat). cbn in H.
  assert (W0 : In 0%nat (s_wins u')) by (apply Wn; cbn; auto). assert (P0 : In 7%Z (s_pols u')) by (rewrite P; cbn; auto).
  destruct (subtract_arrays Nat.eq_dec _ _ u' sub1 E r' 0%nat 7%Z I W0 P0) as (q1 & q2 & I1 & I2 & _ & _ & _ & C & _).
  cbn in I1, I2. destruct I1 as [<- | []], I2 as [<- | []]. specialize (C 0%nat 0%nat). cbn in C. rewrite H in C.
  destruct (quad_sq 1 1) as [_ Q]. rewrite <- C in Q. lra.
Qed.
(** the covariance of the first object is kept as that of the difference when the objects have no statistics *)
Theorem subtract_covariance_stale_refuted :
  ~ (forall (u1 u2 u' : sobj nat), subtractable Nat.eq_dec u1 u2 -> s_cov u1 = s_cov u2 -> s_cov u1 <> None -> subtract_uvp Nat.eq_dec u1 u2 = Ok u' ->
       forall r' r1, In r' (s_rows u') -> In r1 (s_rows u1) -> key r1 = key r' -> c_covr (r_cell r1 0%nat 7%Z) 0%nat 0%nat > 0 ->
       c_covr (r_cell r' 0%nat 7%Z) 0%nat 0%nat > c_covr (r_cell r1 0%nat 7%Z) 0%nat 0%nat).
Proof.
  intros H. pose (on := fun v => mksobj false [0%nat] [7%Z] [rr 1 1 v] None (Some "empirical"%string) true).
  assert (S : subtractable Nat.eq_dec (on 5) (on 2)).
  { unfold subtractable. repeat match goal with |- _ /\ _ => split end; cbn; try reflexivity.
    - repeat constructor; cbn; tauto.
    - repeat constructor; cbn; tauto.
    - intros x Hx; exact Hx.
    - exists 0%nat. auto.
    - discriminate.
    - exists (rr 1 1 5). split; [left; reflexivity |]. intros u [-> | ->]; cbn; auto.
    - intros b. destruct b as [| q | q]; try reflexivity. destruct q as [q | q |]; reflexivity. }
  destruct (subtract_matches Nat.eq_dec _ _ S) as (u' & E & P & Wn & K & _).
  assert (I : exists r', In r' (s_rows u') /\ key r' = (1, 1)%Z).
  { assert (Q : In (1, 1)%Z (map key (s_rows u'))) by (rewrite K; left; reflexivity). apply in_map_iff in Q. destruct Q as (r' & Q1 & Q2). exists r'. auto. }
  destruct I as (r' & I & Kr). assert (NN : s_cov (on 5) <> None) by discriminate.
  specialize (H _ _ u' S eq_refl NN E r' (rr 1 1 5) I (or_introl eq_refl)). rewrite Kr in H. specialize (H eq_refl). cbn in H.
  assert (W0 : In 0%nat (s_wins u')) by (apply Wn; cbn; auto). assert (P0 : In 7%Z (s_pols u')) by (rewrite P; cbn; auto).
  destruct (subtract_arrays Nat.eq_dec _ _ u' S E r' 0%nat 7%Z I W0 P0) as (q1 & q2 & I1 & I2 & _ & _ & C & _).
  cbn in I1, I2. destruct I1 as [<- | []], I2 as [<- | []]. specialize (C 0%nat 0%nat). cbn in C. rewrite C in H. assert (1 > 1) by (apply H; lra). lra.
Qed.
Example subtract_polpairs_ex : exists e, subn (mksobj false [0%nat] [7; 8]%Z [rr 1 1 5] None None false) (oo [rr 1 1 2]) = Err e.
Proof. apply (subtract_polpairs_refuted Nat.eq_dec) with (p := 8%Z); cbn; auto. intuition discriminate. Qed.
Print Assumptions subtract_matches.
Print Assumptions subtract_weights.
Print Assumptions subtract_by_lst_refuted.
Print Assumptions subtract_row_order_refuted.
Print Assumptions subtract_covariance_refuted.
Print Assumptions subtract_covariance_stale_refuted.
Print Assumptions subtract_window_refuted.
Print Assumptions subtract_polpairs_refuted.
Print Assumptions subtract_folded_refuted.
