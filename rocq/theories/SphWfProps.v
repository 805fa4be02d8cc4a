(** Exact spherical window functions of an object (spherical_wf_from_uvp). *)
From Coq Require Import Reals Lra.
From Verif Require Import Prelude WinModel WinCylProps SphWfModel.
From Verif Require AvgModel UvpModel.
Open Scope R_scope.

(** ** specification *)
Definition within (edges : list R) (m : nat) (k : R) : Prop := nth m edges 0 <= k < nth (S m) edges 0.
Lemma in_edges_within edges m k : in_edges edges m k = true <-> within edges m k.
Proof. unfold in_edges, within. destruct (Rle_dec (nth m edges 0) k); [destruct (Rlt_dec k (nth (S m) edges 0))|]; split; intro H; try discriminate; try lra; try reflexivity. Qed.
(** |k| of (group b, delay d) and of a cell *)
Definition mode_kmag (w : wwin) (b d : nat) : R := sqrt (nth b (x_kperps w) 0 ^ 2 + nth d (x_kparas w) 0 ^ 2).
(** weight that all modes of the bin give to a cell, the row of a group being [row b] *)
Definition given (w : wwin) (p : nat) (row : nat -> nat) (edges : list R) (m1 : nat) (c : cell) : R :=
  rsum (map (fun bd => if in_edges edges m1 (mode_kmag w (fst bd) (snd bd)) then x_wf w p (row (fst bd)) (snd bd) c else 0) (x_modes w)).
(** its mean over the cells of a theory bin *)
Definition cell_mean (w : wwin) (p : nat) (row : nat -> nat) (edges tedges : list R) (m1 m2 : nat) : R :=
  bin_mean tedges m2 (x_ktot w p) (given w p row edges m1) (x_cells w p).
Definition cell_total (w : wwin) (p : nat) (row : nat -> nat) (edges tedges : list R) (m1 : nat) : R :=
  rsum (map (cell_mean w p row edges tedges m1) (seq 0 (length tedges - 1))).

(** ** lemmas *)
Lemma rsum_filter {A} (q : A -> bool) (f : A -> R) l : rsum (map f (filter q l)) = rsum (map (fun a => if q a then f a else 0) l).
Proof. unfold rsum. induction l as [|a l IH]; [reflexivity|]. cbn. destruct (q a); cbn; rewrite IH; ring. Qed.
Lemma rsum_pos {A} (f : A -> R) l a : (forall x, In x l -> 0 <= f x) -> In a l -> 0 < f a -> 0 < rsum (map f l).
Proof.
  intros N. induction l as [|x l IH]; intros I P; [destruct I|]. cbn. fold (rsum (map f l)).
  assert (N' : 0 <= rsum (map f l)). { apply rsum_nonneg. intros y Hy. apply in_map_iff in Hy. destruct Hy as [z [<- Hz]]. apply N. right. exact Hz. }
  destruct I as [->|I]; [lra|]. pose proof (N x (or_introl eq_refl)). assert (0 < rsum (map f l)) by (apply IH; [intros; apply N; right; assumption | assumption | assumption]). lra.
Qed.
Lemma bin_mean_scale {A} edges m k (v : A -> R) n l : bin_mean edges m k (fun a => v a / n) l = bin_mean edges m k v l / n.
Proof. unfold bin_mean. destruct (filter _ l) as [|b s]; [unfold Rdiv; ring|]. unfold mean. rewrite !map_length, rsum_div. unfold Rdiv. ring. Qed.
Lemma bin_mean_ext {A} edges m k (v v' : A -> R) l : (forall a, v a = v' a) -> bin_mean edges m k v l = bin_mean edges m k v' l.
Proof. intro H. unfold bin_mean. destruct (filter _ l) as [|b s]; [reflexivity|]. unfold mean. rewrite !map_length. f_equal. f_equal. apply map_ext. exact H. Qed.
Lemma bin_mean_pos {A} edges m k (v : A -> R) l a : (forall x, In x l -> 0 <= v x) -> In a l -> in_edges edges m (k a) = true -> 0 < v a ->
  0 < bin_mean edges m k v l.
Proof.
  intros N I E P. unfold bin_mean.
  assert (I' : In a (filter (fun a => in_edges edges m (k a)) l)) by (apply filter_In; tauto).
  destruct (filter _ l) as [|b s] eqn:F; [destruct I'|]. rewrite <- F in *. unfold mean. apply Rdiv_lt_0_compat.
  - apply (rsum_pos v _ a); [|exact I'|exact P]. intros x Hx. apply filter_In in Hx. apply N. tauto.
  - apply lt_0_INR. rewrite map_length, F. cbn. lia.
Qed.
Lemma filter_map {A B} (q : B -> bool) (f : A -> B) l : filter q (map f l) = map f (filter (fun a => q (f a)) l).
Proof. induction l as [|a l IH]; [reflexivity|]. cbn. destruct (q (f a)); cbn; rewrite IH; reflexivity. Qed.
Lemma in_modes w b d : In (b, d) (x_modes w) <-> (b < length (x_kperps w))%nat /\ (d < length (x_kparas w))%nat.
Proof. unfold x_modes. rewrite in_prod_iff, !in_seq. lia. Qed.

Section Row.
Variables (w : wwin) (p : nat) (row : nat -> nat) (edges tedges : list R) (junk : nat -> R) (m1 : nat).
Let sel := filter (fun bd => in_edges edges m1 (mode_kmag w (fst bd) (snd bd))) (x_modes w).
Let ms := map (x_mode w p row) (x_modes w).
Let R1 := wf_row (x_cells w p) (x_ktot w p) edges tedges junk ms m1.
Lemma sel_eq : filter (fun e => in_edges edges m1 (m_k e)) ms = map (x_mode w p row) sel.
Proof. unfold ms, sel. rewrite filter_map. reflexivity. Qed.
Lemma avg_given c : avg_wf (map (x_mode w p row) sel) c = given w p row edges m1 c / INR (length sel).
Proof. unfold avg_wf, given. rewrite map_map, map_length. f_equal. unfold sel. rewrite rsum_filter. reflexivity. Qed.
Lemma row_none : (forall b d, (b < length (x_kperps w))%nat -> (d < length (x_kparas w))%nat -> ~ within edges m1 (mode_kmag w b d)) -> forall m, R1 m = 0.
Proof.
  intros H m. unfold R1, wf_row. rewrite sel_eq. assert (E : sel = []).
  { destruct sel as [|[b d] s] eqn:E; [reflexivity|]. exfalso. assert (I : In (b, d) sel) by (rewrite E; left; reflexivity).
    unfold sel in I. apply filter_In in I. destruct I as [I Q]. apply in_modes in I. apply in_edges_within in Q. apply (H b d); tauto. }
  rewrite E. reflexivity.
Qed.
Hypothesis nonneg : forall b d c, (b < length (x_kperps w))%nat -> (d < length (x_kparas w))%nat -> In c (x_cells w p) -> 0 <= x_wf w p (row b) d c.
Lemma given_nonneg c : In c (x_cells w p) -> 0 <= given w p row edges m1 c.
Proof.
  intro Hc. unfold given. apply rsum_nonneg. intros x Hx. apply in_map_iff in Hx. destruct Hx as [[b d] [<- I]]. cbn [fst snd]. apply in_modes in I.
  destruct (in_edges _ _ _); [apply nonneg; tauto | lra].
Qed.
Lemma row_zero : (forall c, In c (x_cells w p) -> given w p row edges m1 c = 0) -> forall m, R1 m = 0.
Proof.
  intros H m. unfold R1, wf_row. rewrite sel_eq. destruct (map (x_mode w p row) sel) as [|a s] eqn:E; [reflexivity|]. rewrite <- E.
  destruct (Rlt_dec _ _) as [L|]; [|reflexivity]. exfalso.
  rewrite (rsum_const (avg_wf (map (x_mode w p row) sel)) 0) in L; [lra|]. intros c Hc. rewrite avg_given, H by exact Hc. unfold Rdiv. ring.
Qed.
Lemma row_value : (exists m2 c, (m2 < length tedges - 1)%nat /\ In c (x_cells w p) /\ within tedges m2 (x_ktot w p c) /\ 0 < given w p row edges m1 c) ->
  0 < cell_total w p row edges tedges m1 /\ forall m, R1 m = cell_mean w p row edges tedges m1 m / cell_total w p row edges tedges m1.
Proof.
  intros [m2 [c [Hm [Hc [Hw Pc]]]]].
  assert (Ns : sel <> []).
  { intro E. assert (given w p row edges m1 c = 0); [|lra]. unfold given. rewrite <- rsum_filter. fold sel. rewrite E. reflexivity. }
  assert (Pn : 0 < INR (length sel)) by (apply lt_0_INR; destruct sel; [congruence | cbn; lia]).
  assert (Pm : forall m, 0 <= cell_mean w p row edges tedges m1 m) by (intro m; apply bin_mean_nonneg; intros; apply given_nonneg; assumption).
  assert (PT : 0 < cell_total w p row edges tedges m1).
  { unfold cell_total. apply (rsum_pos _ _ m2); [intros; apply Pm | apply in_seq; lia|]. apply (bin_mean_pos _ _ _ _ _ c); [apply given_nonneg | exact Hc | apply in_edges_within; exact Hw | exact Pc]. }
  split; [exact PT|]. intro m. unfold R1, wf_row. rewrite sel_eq.
  destruct (map (x_mode w p row) sel) as [|a s] eqn:E; [destruct sel; [congruence | discriminate E]|]. rewrite <- E.
  assert (Q : forall m, bin_mean tedges m (x_ktot w p) (avg_wf (map (x_mode w p row) sel)) (x_cells w p) = cell_mean w p row edges tedges m1 m / INR (length sel)).
  { intro m'. rewrite (bin_mean_ext _ _ _ _ (fun c => given w p row edges m1 c / INR (length sel))) by apply avg_given. apply bin_mean_scale. }
  destruct (Rlt_dec _ _) as [L|L].
  - assert (S : rsum (map (fun m => bin_mean tedges m (x_ktot w p) (avg_wf (map (x_mode w p row) sel)) (x_cells w p)) (seq 0 (length tedges - 1))) = cell_total w p row edges tedges m1 / INR (length sel)).
    { rewrite (map_ext _ (fun m => cell_mean w p row edges tedges m1 m / INR (length sel))) by apply Q. apply rsum_div. }
    rewrite S. destruct (Req_EM_T _ 0) as [Z|_]; [assert (0 < cell_total w p row edges tedges m1 / INR (length sel)) by (apply Rdiv_lt_0_compat; assumption); lra|].
    rewrite Q. field. split; lra.
  - exfalso. apply L. apply (rsum_pos _ _ c).
    + intros x Hx. rewrite avg_given. apply Rmult_le_pos; [apply given_nonneg; exact Hx | apply Rlt_le, Rinv_0_lt_compat; exact Pn].
    + exact Hc.
    + rewrite avg_given. apply Rdiv_lt_0_compat; assumption.
Qed.
End Row.

Lemma one_pol nt edges tedges junk w : x_npols w = 1%nat -> x_rows w = (nt * length (x_kperps w))%nat ->
  window_wf nt edges tedges junk w = Ok [map (time_wf edges tedges junk w 0) (seq 0 nt)].
Proof.
  intros Hp Hr. unfold window_wf. rewrite Hp, Hr. cbn [seq fold_left bind fst snd app]. rewrite Nat.eqb_refl. cbn [require].
  rewrite map_length, seq_length, Nat.eqb_refl. reflexivity.
Qed.

(** ** with one polarization and non-negative window functions each row is zero, or a distribution: the mean over the cells of each
    theory bin of what the modes of the bin give to them, normalised (the rows of a time being read in the order time, group) *)
Theorem sphwf_distribution : forall nt edges tedges junk w, x_npols w = 1%nat -> x_rows w = (nt * length (x_kperps w))%nat ->
  (forall r d c, 0 <= x_wf w 0 r d c) ->
  exists rows, window_wf nt edges tedges junk w = Ok [rows] /\ length rows = nt /\
  forall it m1, (it < nt)%nat ->
    let r := nth it rows (fun _ _ => 0) m1 in
    let row b := (it * length (x_kperps w) + b)%nat in
    ((forall b d, (b < length (x_kperps w))%nat -> (d < length (x_kparas w))%nat -> ~ within edges m1 (mode_kmag w b d)) -> forall m, r m = 0) /\
    ((forall c, In c (x_cells w 0) -> given w 0 row edges m1 c = 0) -> forall m, r m = 0) /\
    ((exists m2 c, (m2 < length tedges - 1)%nat /\ In c (x_cells w 0) /\ within tedges m2 (x_ktot w 0 c) /\ 0 < given w 0 row edges m1 c) ->
     rsum (map r (seq 0 (length tedges - 1))) = 1 /\
     (forall m, r m = cell_mean w 0 row edges tedges m1 m / cell_total w 0 row edges tedges m1) /\
     forall m, 0 <= r m /\ ((m < length tedges - 1)%nat -> r m <= 1)).
Proof.
  intros nt edges tedges junk w Hp Hr Hn. exists (map (time_wf edges tedges junk w 0) (seq 0 nt)).
  split; [apply one_pol; assumption|]. split; [rewrite map_length, seq_length; reflexivity|].
  intros it m1 Hit r row.
  assert (Er : r = time_wf edges tedges junk w 0 it m1).
  { unfold r. rewrite (nth_indep _ _ (time_wf edges tedges junk w 0 0)) by (rewrite map_length, seq_length; exact Hit). rewrite map_nth, seq_nth by exact Hit. reflexivity. }
  rewrite Er. unfold time_wf. change (x_row w it) with row.
  split; [apply row_none|]. split; [intro H; apply row_zero; exact H|].
  intro H. destruct (row_value w 0 row edges tedges junk m1 ltac:(intros; apply Hn) H) as [PT V].
  assert (Pm : forall m, 0 <= cell_mean w 0 row edges tedges m1 m) by (intro m; apply bin_mean_nonneg; intros; unfold given; apply rsum_nonneg; intros x Hx; apply in_map_iff in Hx; destruct Hx as [bd [<- _]]; destruct (in_edges _ _ _); [apply Hn | lra]).
  split; [|split; [exact V|]].
  - rewrite (map_ext _ _ V), rsum_div. fold (cell_total w 0 row edges tedges m1). field. lra.
  - intro m. rewrite V. split; [apply Rmult_le_pos; [apply Pm | apply Rlt_le, Rinv_0_lt_compat; exact PT]|]. intro Hm.
    apply (Rmult_le_reg_r (cell_total w 0 row edges tedges m1)); [exact PT|]. unfold Rdiv. rewrite Rmult_assoc, Rinv_l, Rmult_1_r, Rmult_1_l by lra.
    unfold cell_total. assert (I : In m (seq 0 (length tedges - 1))) by (apply in_seq; lia).
    revert I. generalize (seq 0 (length tedges - 1)). intro l. induction l as [|x l IH]; intro I; [destruct I|]. cbn. fold (rsum (map (cell_mean w 0 row edges tedges m1) l)).
    assert (0 <= rsum (map (cell_mean w 0 row edges tedges m1) l)). { apply rsum_nonneg. intros y Hy. apply in_map_iff in Hy. destruct Hy as [z [<- _]]. apply Pm. }
    pose proof (Pm x). destruct I as [->|I]; [lra|]. pose proof (IH I). lra.
Qed.
Print Assumptions sphwf_distribution.

(** ** several polarizations: always an error *)
Theorem sphwf_pols_refuted : forall nt edges tedges junk w, (2 <= x_npols w)%nat -> (0 < nt)%nat ->
  window_wf nt edges tedges junk w = Err ValueError.
Proof.
  intros nt edges tedges junk w Hp Hn. unfold window_wf. destruct (x_npols w) as [|[|n]]; [lia | lia|].
  change (seq 0 (S (S n))) with (0 :: 1 :: seq 2 n)%nat. cbn [fold_left].
  match goal with |- bind (fold_left ?f ?l ?i) ?k = _ => assert (E : i = Err ValueError) end.
  { cbn [bind fst snd]. destruct (Nat.eqb_spec (x_rows w) (nt * length (x_kperps w))) as [E|E]; cbn [require]; [|reflexivity].
    cbn [app]. rewrite map_length, seq_length, Nat.eqb_refl. cbn [orb require bind fst snd]. rewrite app_length, !map_length, !seq_length.
    assert (E1 : (nt + nt =? nt)%nat = false) by (apply Nat.eqb_neq; lia). assert (E2 : (nt + nt =? 1)%nat = false) by (apply Nat.eqb_neq; lia).
    rewrite E1, E2. reflexivity. }
  rewrite E. assert (F : forall (l : list nat) f, (forall e p, f (Err e) p = Err e) -> fold_left f l (@Err (list (nat -> nat -> R) * list (list (nat -> nat -> R))) ValueError) = (Err ValueError)).
  { induction l as [|x l IH]; intros f Hf; [reflexivity|]. cbn. rewrite Hf. apply IH. exact Hf. }
  rewrite F by (intros; reflexivity). reflexivity.
Qed.
Print Assumptions sphwf_pols_refuted.

(** ** rows and times *)
(** the averaged object holds all times of the first group, then those of the second, ... *)
Lemma averaged_order : forall (u : UvpModel.uvp R) groups nt,
  (forall g, In g groups -> exists idx, UvpModel.blpair_to_indices u (hd 0%Z (fst g)) = Ok idx /\ length idx = nt) ->
  AvgModel.blpair_rows u false groups = Ok (flat_map (fun g => repeat (hd 0%Z (fst g)) nt) groups).
Proof.
  intros u groups nt H. unfold AvgModel.blpair_rows.
  assert (E : map_res (fun g : list Z * list R => bind (UvpModel.blpair_to_indices u (hd 0%Z (fst g))) (fun idx => Ok (repeat (hd 0%Z (fst g)) (length idx)))) groups
              = Ok (map (fun g => repeat (hd 0%Z (fst g)) nt) groups)).
  { induction groups as [|g gs IH]; [reflexivity|]. cbn [map_res map]. destruct (H g (or_introl eq_refl)) as [idx [E L]]. rewrite E. cbn [bind]. rewrite L.
    rewrite IH by (intros; apply H; right; assumption). reflexivity. }
  rewrite E. cbn [bind]. rewrite flat_map_concat_map. reflexivity.
Qed.
Lemma nth_blocks {A} (f : A -> Z) nt gs b it (d : A) : (b < length gs)%nat -> (it < nt)%nat ->
  nth (b * nt + it) (flat_map (fun g => repeat (f g) nt) gs) 0%Z = f (nth b gs d).
Proof.
  revert b. induction gs as [|g gs IH]; intros b Hb Hi; [cbn in Hb; lia|]. cbn [flat_map length] in *. destruct b as [|b].
  - rewrite app_nth1 by (rewrite repeat_length; lia). cbn [nth Nat.mul Nat.add]. clear -Hi. revert nt Hi. induction it as [|i IHi]; intros [|nt] Hi; try lia; [reflexivity|]. cbn. apply IHi. lia.
  - rewrite app_nth2 by (rewrite repeat_length; nia). rewrite repeat_length. cbn [nth]. rewrite <- (IH b) by lia. f_equal. nia.
Qed.
(** so row b nt + it is time it of group b *)
Theorem sphwf_row_order : forall (u : UvpModel.uvp R) groups nt rows b it,
  (forall g, In g groups -> exists idx, UvpModel.blpair_to_indices u (hd 0%Z (fst g)) = Ok idx /\ length idx = nt) ->
  AvgModel.blpair_rows u false groups = Ok rows -> (b < length groups)%nat -> (it < nt)%nat ->
  nth (b * nt + it) rows 0%Z = hd 0%Z (fst (nth b groups ([], []))).
Proof.
  intros u groups nt rows b it H E Hb Hi. rewrite (averaged_order u groups nt H) in E. injection E as <-.
  apply (nth_blocks (fun g : list Z * list R => hd 0%Z (fst g)) nt groups b it ([], [])); assumption.
Qed.
Print Assumptions sphwf_row_order.
(** the window functions of a time come from the rows of this time if there is one time (as after time_avg) or one group *)
Theorem sphwf_times_partial : forall nt edges tedges junk w it, (nt = 1 \/ length (x_kperps w) = 1)%nat -> (it < nt)%nat ->
  time_wf edges tedges junk w 0 it = wf_row (x_cells w 0) (x_ktot w 0) edges tedges junk (map (x_mode w 0 (fun b => (b * nt + it)%nat)) (x_modes w)).
Proof.
  intros nt edges tedges junk w it H Hit. unfold time_wf. f_equal. apply map_ext_in. intros [b d] I. apply in_modes in I. unfold x_mode, x_row. cbn [fst snd].
  f_equal. f_equal. destruct H as [H|H]; nia.
Qed.
Print Assumptions sphwf_times_partial.
Lemma kmag_0 x : 0 <= x -> sqrt (x ^ 2 + 0 ^ 2) = x.
Proof. intro H. replace (x ^ 2 + 0 ^ 2) with (Rsqr x) by (unfold Rsqr; ring). apply sqrt_Rsqr. exact H. Qed.
(** two groups, two times, one delay; two cells. Group 0 is at |k| = 1 and its window function is in cell 0, group 1 at |k| = 2 and in cell 1 *)
Definition mix : wwin := mkwwin 4 [1; 2] [0] 1 (fun _ => [1; 2]) (fun _ => [0]) (fun _ row _ c => if Nat.eqb (fst c) (row / 2) then 1 else 0).
Definition mix_edges : list R := [/ 2; 3 / 2; 5 / 2].
Lemma mix_row row : (row < 4)%nat -> forall m, (m < 2)%nat ->
  wf_row (x_cells mix 0) (x_ktot mix 0) mix_edges mix_edges (fun _ => 0) (map (x_mode mix 0 (fun b => (row + b)%nat)) (x_modes mix)) 0 m = if Nat.eqb m (row / 2) then 1 else 0.
Proof.
  intros Hr m Hm. unfold wf_row, x_modes, x_cells. cbn [x_kperps x_kparas x_kperp_bins x_kpara_bins mix length seq list_prod map app].
  unfold x_mode. cbn [filter fst snd m_k x_kperps x_kparas mix nth]. rewrite (kmag_0 1), (kmag_0 2) by lra.
  assert (A : in_edges mix_edges 0 1 = true) by (unfold in_edges, mix_edges; cbn [nth]; destruct (Rle_dec _ _); [|lra]; destruct (Rlt_dec _ _); [reflexivity | lra]).
  assert (B : in_edges mix_edges 0 2 = false) by (unfold in_edges, mix_edges; cbn [nth]; destruct (Rle_dec _ _); [|lra]; destruct (Rlt_dec _ _); [lra | reflexivity]).
  rewrite A, B.
  assert (W : forall c, avg_wf [mkmode 1 (fun c : cell => x_wf mix 0 (row + 0) 0 c)] c = if Nat.eqb (fst c) (row / 2) then 1 else 0).
  { intro c. unfold avg_wf. cbn [map length rsum fold_right m_wf]. unfold mix. cbn [x_wf]. rewrite Nat.add_0_r. destruct (Nat.eqb _ _); cbn; field. }
  match goal with |- context [Rlt_dec 0 ?t] => assert (T : t = 1) end.
  { cbn [map]. rewrite !W. cbn [fst rsum fold_right]. assert (C : (row / 2 = 0 \/ row / 2 = 1)%nat) by (assert (row / 2 < 2)%nat by (apply Nat.div_lt_upper_bound; lia); lia).
    destruct C as [-> | ->]; cbn; ring. }
  rewrite T. destruct (Rlt_dec 0 1); [|lra].
  assert (K : forall i, In (i, 0%nat) [(0, 0); (1, 0)]%nat -> x_ktot mix 0 (i, 0%nat) = INR (S i)).
  { intros i [E|[E|[]]]; injection E as <-; unfold x_ktot; cbn [fst snd x_kperp_bins x_kpara_bins mix nth]; rewrite kmag_0 by lra; cbn; ring. }
  assert (D : forall m', (m' < 2)%nat -> bin_mean mix_edges m' (x_ktot mix 0) (avg_wf [mkmode 1 (fun c : cell => x_wf mix 0 (row + 0) 0 c)]) [(0, 0); (1, 0)]%nat = if Nat.eqb m' (row / 2) then 1 else 0).
  { intros m' H'. unfold bin_mean. cbn [filter]. rewrite (K 0%nat), (K 1%nat) by (cbn; tauto).
    assert (E : forall i, (i < 2)%nat -> in_edges mix_edges m' (INR (S i)) = Nat.eqb i m').
    { intros i Hi. unfold in_edges, mix_edges. destruct i as [|[|i]]; [| |lia]; destruct m' as [|[|m']]; try lia; cbn [nth INR Nat.eqb];
      repeat match goal with |- context [Rle_dec ?a ?b] => destruct (Rle_dec a b) | |- context [Rlt_dec ?a ?b] => destruct (Rlt_dec a b) end; try lra; reflexivity. }
    rewrite !E by lia. destruct m' as [|[|m']]; try lia; cbn [Nat.eqb map]; unfold mean; cbn [map length]; rewrite W; cbn [fst]; unfold rsum; cbn [fold_right];
      destruct (row / 2)%nat as [|[|q]]; cbn; field. }
  cbn [length mix_edges Nat.sub seq map]. rewrite !D by lia.
  match goal with |- context [Req_EM_T ?t 0] => assert (S1 : t = 1) end.
  { unfold rsum. cbn [fold_right]. assert (C : (row / 2 = 0 \/ row / 2 = 1)%nat) by (assert (row / 2 < 2)%nat by (apply Nat.div_lt_upper_bound; lia); lia).
    destruct C as [-> | ->]; cbn; ring. }
  rewrite S1. destruct (Req_EM_T 1 0); [lra|]. rewrite D by exact Hm. field.
Qed.
(** in general they do not: time 1 of the bin of group 0 has the window function of group 1 *)
Theorem sphwf_times_refuted :
  ~ (forall nt edges tedges junk w it m1 m2, x_npols w = 1%nat -> x_rows w = (nt * length (x_kperps w))%nat -> (it < nt)%nat ->
     (m1 < length edges - 1)%nat -> (m2 < length tedges - 1)%nat ->
     time_wf edges tedges junk w 0 it m1 m2 =
     wf_row (x_cells w 0) (x_ktot w 0) edges tedges junk (map (x_mode w 0 (fun b => (b * nt + it)%nat)) (x_modes w)) m1 m2).
Proof.
  intro H. specialize (H 2%nat mix_edges mix_edges (fun _ => 0) mix 1%nat 0%nat 0%nat eq_refl eq_refl ltac:(lia) ltac:(cbn; lia) ltac:(cbn; lia)).
  unfold time_wf in H.
  rewrite (map_ext (x_mode mix 0 (x_row mix 1)) (x_mode mix 0 (fun b => (2 + b)%nat))) in H by (intros [b d]; reflexivity).
  rewrite (mix_row 2) in H by lia.
  assert (E : wf_row (x_cells mix 0) (x_ktot mix 0) mix_edges mix_edges (fun _ => 0) (map (x_mode mix 0 (fun b => (b * 2 + 1)%nat)) (x_modes mix)) 0 0 =
              wf_row (x_cells mix 0) (x_ktot mix 0) mix_edges mix_edges (fun _ => 0) (map (x_mode mix 0 (fun b => (1 + b)%nat)) (x_modes mix)) 0 0).
  { unfold wf_row, x_modes. cbn [x_kperps x_kparas mix length seq list_prod map app]. unfold x_mode. cbn [filter fst snd m_k x_kperps x_kparas mix nth].
    rewrite (kmag_0 1), (kmag_0 2) by lra.
    assert (A : in_edges mix_edges 0 1 = true) by (unfold in_edges, mix_edges; cbn [nth]; destruct (Rle_dec _ _); [|lra]; destruct (Rlt_dec _ _); [reflexivity | lra]).
    assert (B : in_edges mix_edges 0 2 = false) by (unfold in_edges, mix_edges; cbn [nth]; destruct (Rle_dec _ _); [|lra]; destruct (Rlt_dec _ _); [lra | reflexivity]).
    rewrite A, B. reflexivity. }
  rewrite E, (mix_row 1) in H by lia. cbn in H. lra.
Qed.
Print Assumptions sphwf_times_refuted.

(** ** rows without any theory bin: whatever is in memory *)
Definition stray : wwin := mkwwin 1 [1] [0] 1 (fun _ => [1]) (fun _ => [0]) (fun _ _ _ _ => 1).
Theorem sphwf_uninitialised_refuted :
  ~ (forall nt edges tedges junk w it m1, x_npols w = 1%nat -> x_rows w = (nt * length (x_kperps w))%nat -> (forall r d c, 0 <= x_wf w 0 r d c) -> (it < nt)%nat ->
     let r := time_wf edges tedges junk w 0 it m1 in
     rsum (map r (seq 0 (length tedges - 1))) = 1 \/ forall m, r m = 0).
Proof.
  intro H. specialize (H 1%nat [0; 2] [5; 6] (fun _ => 7) stray 0%nat 0%nat eq_refl eq_refl ltac:(intros; cbn; lra) ltac:(lia)).
  assert (E : time_wf [0; 2] [5; 6] (fun _ => 7) stray 0 0 0 = fun _ => 7).
  { unfold time_wf, wf_row, x_modes, x_cells. cbn [x_kperps x_kparas x_kperp_bins x_kpara_bins stray length seq list_prod map app]. unfold x_mode. cbn [filter fst snd m_k x_kperps x_kparas stray nth].
    rewrite (kmag_0 1) by lra.
    assert (A : in_edges [0; 2] 0 1 = true) by (unfold in_edges; cbn [nth]; destruct (Rle_dec _ _); [|lra]; destruct (Rlt_dec _ _); [reflexivity | lra]). rewrite A.
    unfold avg_wf. cbn [map length rsum fold_right m_wf x_wf stray]. destruct (Rlt_dec _ _) as [_|L]; [|exfalso; apply L; cbn; lra].
    cbn [Nat.sub seq map]. unfold bin_mean. cbn [filter]. unfold x_ktot. cbn [fst snd x_kperp_bins x_kpara_bins stray nth]. rewrite (kmag_0 1) by lra.
    assert (B : in_edges [5; 6] 0 1 = false) by (unfold in_edges; cbn [nth]; destruct (Rle_dec _ _); [lra | reflexivity]). rewrite B. cbn [rsum fold_right].
    destruct (Req_EM_T _ 0) as [_|N]; [reflexivity | exfalso; apply N; ring]. }
  rewrite E in H. cbn in H. destruct H as [H|H]; [lra | specialize (H 0%nat); lra].
Qed.
Print Assumptions sphwf_uninitialised_refuted.

(** ** units of the bin edges *)
(** the edges used are those given, in the units of the object, and arrays of other types than float are left alone *)
Theorem edge_units_converted : forall little_h norm_h h k t, t <> TSame -> h <> 0 ->
  let e := edge_units little_h norm_h h k t in
  let conv x := if little_h then (if norm_h then x else x * h) else (if norm_h then x / h else x) in
  used e = map conv (e_values k) /\
  used_theory e = map conv (match t with TOwn a => e_values a | _ => e_values k end) /\
  (e_float k = false -> caller e = e_values k) /\
  (little_h = norm_h -> caller e = e_values k /\ forall a, t = TOwn a -> caller_theory e = Some (e_values a)).
Proof.
  intros little_h norm_h h k t Ht Hh.
  assert (I : forall l : list R, map (fun x => x) l = l) by apply map_id.
  destruct t as [|a|]; [| |congruence]; destruct little_h, norm_h; cbn; destruct (e_float k); (repeat split); intros; try discriminate; rewrite ?I; try reflexivity;
  try (match goal with H : TOwn _ = TOwn _ |- _ => injection H as <- end; destruct (e_float a); rewrite ?I; reflexivity).
Qed.
Print Assumptions edge_units_converted.
(** the caller's arrays change *)
Theorem edge_args_kept_refuted :
  ~ (forall little_h norm_h h k t, caller (edge_units little_h norm_h h k t) = e_values k).
Proof. intro H. specialize (H true false 2 (mkedge [1] true) TNone). cbn in H. injection H. intro. lra. Qed.
Print Assumptions edge_args_kept_refuted.
(** one array for both arguments is converted twice *)
Theorem edge_same_array_refuted :
  ~ (forall little_h norm_h h k, used (edge_units little_h norm_h h k TSame) = used (edge_units little_h norm_h h k (TOwn k))).
Proof. intro H. specialize (H true false 2 (mkedge [1] true)). cbn in H. injection H. intro. lra. Qed.
Print Assumptions edge_same_array_refuted.

(** ** refusals *)
Theorem sphwf_refusals : forall nt little_h norm_h h k t exact windows asked junk,
  let e := edge_units little_h norm_h h k t in
  (~ (forall i, (S i < length (used e))%nat -> nth i (used e) 0 < nth (S i) (used e) 0) -> spherical_wf nt little_h norm_h h k t exact windows asked junk = Err AssertionError) /\
  (~ (forall i, (S i < length (used_theory e))%nat -> nth i (used_theory e) 0 < nth (S i) (used_theory e) 0) -> spherical_wf nt little_h norm_h h k t exact windows asked junk = Err AssertionError) /\
  (exact = false -> spherical_wf nt little_h norm_h h k t exact windows asked junk = Err AssertionError) /\
  (forall l s, asked = Some l -> In s l -> ~ In s (map fst windows) -> spherical_wf nt little_h norm_h h k t exact windows asked junk = Err AssertionError).
Proof.
  assert (A : forall l, ascending l = true -> forall i, (S i < length l)%nat -> nth i l 0 < nth (S i) l 0).
  { induction l as [|x [|y r] IH]; cbn [length]; intros H i Hi; [lia | lia|]. cbn [ascending] in H. apply andb_true_iff in H. destruct H as [H1 H2].
    destruct i as [|i]; [cbn; destruct (Rlt_dec x y); [assumption | discriminate]|]. change (nth i (y :: r) 0 < nth (S i) (y :: r) 0). apply IH; [exact H2 | cbn [length]; lia]. }
  intros nt little_h norm_h h k t exact windows asked junk e. unfold spherical_wf. fold e.
  destruct (ascending (used e)) eqn:E1; cbn [require].
  2:{ repeat split; intros; reflexivity. }
  destruct (ascending (used_theory e)) eqn:E2; cbn [require].
  2:{ repeat split; intros; reflexivity. }
  split; [intro H; exfalso; apply H, A; exact E1|]. split; [intro H; exfalso; apply H, A; exact E2|].
  destruct (forallb _ _) eqn:E3; cbn [require]; [|split; intros; reflexivity].
  split; [intros ->; reflexivity|]. intros l s -> Hs N. exfalso. rewrite forallb_forall in E3. specialize (E3 s Hs). apply existsb_exists in E3. destruct E3 as [x [Hx Q]].
  apply Nat.eqb_eq in Q. subst x. contradiction.
Qed.
Print Assumptions sphwf_refusals.
(** otherwise one entry per window asked for (all by default), each computed from its own arrays *)
Theorem sphwf_windows : forall nt little_h norm_h h k t windows asked junk res,
  spherical_wf nt little_h norm_h h k t true windows asked junk = Ok res ->
  map fst res = match asked with None => map fst windows | Some l => l end /\
  forall s r, In (s, r) res -> exists w, In (s, w) windows /\
    window_wf nt (used (edge_units little_h norm_h h k t)) (used_theory (edge_units little_h norm_h h k t)) junk w = Ok r.
Proof.
  intros nt little_h norm_h h k t windows asked junk res H. unfold spherical_wf in H.
  destruct (ascending _); cbn [require] in H; [|discriminate H]. destruct (ascending _); cbn [require] in H; [|discriminate H].
  destruct (forallb _ _); cbn [require] in H; [|discriminate H].
  set (spws := match asked with None => map fst windows | Some l => l end) in *. clearbody spws. revert res H.
  induction spws as [|s l IH]; intros res H; cbn [map_res] in H.
  - injection H as <-. split; [reflexivity | intros s r []].
  - destruct (find _ windows) as [[s' w]|] eqn:F; cbn [bind] in H; [|discriminate H]. cbn [snd] in H.
    destruct (window_wf nt _ _ junk w) as [r|] eqn:E; cbn [bind] in H; [|discriminate H].
    match type of H with bind ?m _ = _ => destruct m as [rs|] eqn:Em; cbn [bind] in H; [|discriminate H] end. injection H as <-.
    destruct (IH rs eq_refl) as [I1 I2]. split; [cbn; rewrite I1; reflexivity|]. intros s0 r0 [Q|Q]; [|apply I2; exact Q].
    injection Q as <- <-. exists w. split; [|exact E]. pose proof (find_some _ _ F) as [F1 F2]. cbn in F2. apply Nat.eqb_eq in F2. subst s'. exact F1.
Qed.
Print Assumptions sphwf_windows.

(** a case of the distribution theorem: the object [mix] *)
Example mix_case : x_npols mix = 1%nat /\ x_rows mix = (2 * length (x_kperps mix))%nat /\ (forall r d c, 0 <= x_wf mix 0 r d c).
Proof. repeat split. intros r d c. cbn. destruct (Nat.eqb _ _); lra. Qed.

(** nothing else is refused: ascending edges, exact window functions and windows that exist and can be computed *)
Theorem sphwf_accepts : forall nt little_h norm_h h k t windows asked junk,
  let e := edge_units little_h norm_h h k t in
  (forall i, (S i < length (used e))%nat -> nth i (used e) 0 < nth (S i) (used e) 0) ->
  (forall i, (S i < length (used_theory e))%nat -> nth i (used_theory e) 0 < nth (S i) (used_theory e) 0) ->
  (forall l s, asked = Some l -> In s l -> In s (map fst windows)) ->
  (forall s w, In (s, w) windows -> exists r, window_wf nt (used e) (used_theory e) junk w = Ok r) ->
  exists res, spherical_wf nt little_h norm_h h k t true windows asked junk = Ok res.
Proof.
  assert (A : forall l, (forall i, (S i < length l)%nat -> nth i l 0 < nth (S i) l 0) -> ascending l = true).
  { induction l as [|x [|y r] IH]; intro H; [reflexivity | reflexivity|]. cbn [ascending]. pose proof (H 0%nat ltac:(cbn [length]; lia)) as H0. cbn in H0.
    destruct (Rlt_dec x y); [|contradiction]. cbn [andb]. apply IH. intros i Hi. apply (H (S i)). cbn [length] in *. lia. }
  intros nt little_h norm_h h k t windows asked junk e H1 H2 H3 H4. unfold spherical_wf. fold e. rewrite (A _ H1), (A _ H2). cbn [require].
  set (spws := match asked with None => map fst windows | Some l => l end).
  assert (S0 : forall s, In s spws -> In s (map fst windows)) by (intros s Hs; unfold spws in Hs; destruct asked as [l|]; [apply (H3 l s eq_refl Hs) | exact Hs]).
  assert (F : forallb (fun s => existsb (Nat.eqb s) (map fst windows)) spws = true).
  { apply forallb_forall. intros s Hs. apply existsb_exists. exists s. split; [apply S0, Hs|apply Nat.eqb_refl]. }
  rewrite F. cbn [require]. clear F. clearbody spws. induction spws as [|s l IH]; [eexists; reflexivity|]. cbn [map_res].
  destruct (find (fun x => Nat.eqb (fst x) s) windows) as [[s' w]|] eqn:Fd.
  - apply find_some in Fd. destruct Fd as [I _]. destruct (H4 s' w I) as [r Er]. cbn [snd]. rewrite Er. cbn [bind].
    destruct (IH ltac:(intros; apply S0; right; assumption)) as [res Eres]. rewrite Eres. eexists; reflexivity.
  - exfalso. pose proof (S0 s (or_introl eq_refl)) as I. apply in_map_iff in I. destruct I as [[s' w] [Q I]]. cbn in Q. subst s'.
    pose proof (find_none _ _ Fd _ I) as Q. cbn in Q. rewrite Nat.eqb_refl in Q. discriminate Q.
Qed.
Print Assumptions sphwf_accepts.
