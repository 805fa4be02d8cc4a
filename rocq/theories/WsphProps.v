(** Properties of cylindrical_to_spherical and get_spherical_wf: C294-C302. *)
From Coq Require Import Reals Lra Permutation.
From Verif Require Import Prelude WinModel WinCylProps WsphModel.
Open Scope R_scope.

(** ** the bins *)
Fixpoint ascending (l : list R) : Prop := match l with x :: (y :: _) as t => x < y /\ ascending t | _ => True end.
Lemma diffs_length l : length (diffs l) = (length l - 1)%nat.
Proof. induction l as [|x [|y t] IH]; [reflexivity|reflexivity|]. cbn [diffs length] in *. lia. Qed.
Lemma diffs_sum x t : rsum (diffs (x :: t)) = last t x - x.
Proof.
  revert x; induction t as [|y t IH]; intro x; [cbn; ring|]. change (diffs (x :: y :: t)) with ((y - x) :: diffs (y :: t)).
  unfold rsum in *. cbn [fold_right]. rewrite IH. cbn [last]. destruct t as [|z t']; [cbn; ring|].
  assert (last (z :: t') y = last (z :: t') x) as ->; [|ring]. clear. revert z; induction t' as [|w t IH]; intro z; [reflexivity|]. exact (IH w).
Qed.
Lemma asc_head x t : ascending (x :: t) -> forall y, In y t -> x < y.
Proof.
  revert x; induction t as [|z t IH]; intros x H y; [intros []|]. destruct H as [H1 H2]. intros [<-|Hy]; [exact H1|].
  specialize (IH z H2 y Hy). lra.
Qed.
Lemma asc_min x t : ascending (x :: t) -> minl (x :: t) = x.
Proof.
  intro H. unfold minl. cbn [hd fold_right].
  assert (Q : x <= fold_right Rmin x t). { pose proof (asc_head x t H) as A. clear H. induction t as [|y t IH]; cbn; [lra|]. apply Rmin_glb; [apply Rlt_le, A; left; reflexivity|apply IH; intros; apply A; right; assumption]. }
  apply Rmin_left. exact Q.
Qed.
Lemma asc_max x t : ascending (x :: t) -> maxl (x :: t) = last t x.
Proof.
  intro H. unfold maxl. cbn [hd].
  assert (Q : forall l y, ascending (y :: l) -> x <= y -> fold_right Rmax x (y :: l) = last l y).
  { induction l as [|z l IH]; intros y A L; [cbn; apply Rmax_left; exact L|]. destruct A as [A1 A2].
    change (fold_right Rmax x (y :: z :: l)) with (Rmax y (fold_right Rmax x (z :: l))). rewrite IH; [|exact A2|lra].
    assert (Lz : last (z :: l) y = last l z). { clear. destruct l as [|w l]; [reflexivity|]. cbn [last]. revert w; induction l as [|v l IH]; intro w; [reflexivity|]. exact (IH v). }
    rewrite Lz. apply Rmax_right.
    assert (y <= last l z); [|assumption]. clear -A1 A2. revert z A1 A2; induction l as [|w l IH]; intros z A1 A2; [cbn; lra|].
    destruct A2 as [B1 B2]. assert (Lw : last (w :: l) z = last l w). { clear. destruct l as [|v l]; [reflexivity|]. cbn [last]. revert v; induction l as [|u l IH]; intro v; [reflexivity|]. exact (IH u). }
    rewrite Lw. apply IH; [lra|exact B2]. }
  apply Q; [exact H|lra].
Qed.
Lemma asc_last x t : ascending (x :: t) -> t <> [] -> x < last t x.
Proof.
  intros H N. destruct t as [|y t]; [congruence|]. apply (asc_head x (y :: t) H). clear. revert y; induction t as [|z t IH]; intro y; [left; reflexivity|].
  right. exact (IH z).
Qed.

(** spacing: the mean difference of ascending centres *)
Definition spacing (ks : list R) : R := (last ks 0 - hd 0 ks) / INR (length ks - 1).
Lemma spacing_mean x y t : mean (diffs (x :: y :: t)) = spacing (x :: y :: t).
Proof.
  unfold mean, spacing. rewrite diffs_sum, diffs_length. cbn [hd]. f_equal. f_equal. clear. 
  change (last (y :: t) x = last (x :: y :: t) 0). cbn [last]. destruct t; [reflexivity|]. revert r; induction t as [|z t IH]; intro r; [reflexivity|exact (IH z)].
Qed.
(** ** C294-C295: the edges of the k bins *)
Theorem spherical_edges : forall ks edges, ascending ks -> edges_of ks = Ok edges ->
  (2 <= length ks)%nat /\ 0 < spacing ks /\ edges = bin_edges (hd 0 ks) (spacing ks) (length ks) /\
  length edges = (length ks + 1)%nat /\
  (forall i, (i <= length ks)%nat -> nth i edges 0 = hd 0 ks + (INR i - 1 / 2) * spacing ks).
Proof.
  intros ks edges A E. destruct ks as [|x [|y t]]; [discriminate|discriminate|].
  assert (EE : edges = arange (minl (x :: y :: t) - mean (diffs (x :: y :: t)) / 2) (maxl (x :: y :: t) + mean (diffs (x :: y :: t))) (mean (diffs (x :: y :: t)))).
  { unfold edges_of in E. change (diffs (x :: y :: t)) with ((y - x) :: diffs (y :: t)) in E.
    unfold require in E. destruct (forallb _ _); [|discriminate]. cbv zeta in E. apply (f_equal (fun r => match r with Ok a => a | Err _ => [] end)) in E. symmetry. exact E. }
  clear E. subst edges. rewrite spacing_mean.
  assert (L2 : (2 <= length (x :: y :: t))%nat) by (cbn; lia).
  assert (LL : last (x :: y :: t) 0 = last (y :: t) x).
  { symmetry. cbn [last]. destruct t; [reflexivity|]. clear. revert r; induction t as [|z t IH]; intro r; [reflexivity|exact (IH z)]. }
  assert (N1 : 0 < INR (length (x :: y :: t) - 1)) by (apply lt_0_INR; cbn; lia).
  assert (S0 : 0 < spacing (x :: y :: t)).
  { unfold spacing. rewrite LL. cbn [hd]. pose proof (asc_last x (y :: t) A ltac:(discriminate)). apply Rdiv_lt_0_compat; [lra|exact N1]. }
  assert (B : arange (minl (x :: y :: t) - spacing (x :: y :: t) / 2) (maxl (x :: y :: t) + spacing (x :: y :: t)) (spacing (x :: y :: t)) =
              bin_edges (hd 0 (x :: y :: t)) (spacing (x :: y :: t)) (length (x :: y :: t))).
  { unfold bin_edges. rewrite asc_min, asc_max by exact A. cbn [hd]. f_equal.
    assert (last (y :: t) x = x + INR (length (x :: y :: t) - 1) * spacing (x :: y :: t)) as ->; [|reflexivity].
    unfold spacing at 1. rewrite LL. cbn [hd]. field. lra. }
  rewrite B. split; [exact L2|]. split; [exact S0|]. split; [reflexivity|]. split.
  - rewrite bin_edges_exact by (try exact S0; lia). rewrite map_length, seq_length. reflexivity.
  - intros i Hi. apply edge_nth; [exact S0|exact Hi|lia].
Qed.
(** evenly spaced ascending centres are accepted, each bin is its centre plus or minus half the spacing *)
Lemma diffs_linspace k0 dk n j : diffs (map (fun i => k0 + INR i * dk) (seq j n)) = repeat dk (n - 1).
Proof.
  revert j; induction n as [|n IH]; intro j; [reflexivity|]. destruct n as [|n]; [reflexivity|].
  change (diffs (map (fun i => k0 + INR i * dk) (seq j (S (S n))))) with
    ((k0 + INR (S j) * dk - (k0 + INR j * dk)) :: diffs (map (fun i => k0 + INR i * dk) (seq (S j) (S n)))).
  rewrite IH. rewrite S_INR. replace (S n - 1)%nat with n by lia. replace (S (S n) - 1)%nat with (S n) by lia. cbn [repeat]. f_equal. ring.
Qed.
Lemma ascending_linspace k0 dk n j : 0 < dk -> ascending (map (fun i => k0 + INR i * dk) (seq j n)).
Proof.
  intro H. revert j; induction n as [|n IH]; intro j; [exact I|]. destruct n as [|n]; [exact I|]. split; [rewrite S_INR; lra|]. exact (IH (S j)).
Qed.
Theorem linear_bins_accepted : forall k0 dk n, 0 < dk -> (2 <= n)%nat ->
  edges_of (linspace k0 dk n) = Ok (bin_edges k0 dk n).
Proof.
  intros k0 dk n Hd Hn. destruct (edges_of (linspace k0 dk n)) as [e|e] eqn:E.
  - destruct (spherical_edges _ _ (ascending_linspace k0 dk n 0 Hd) E) as [_ [_ [-> _]]]. do 2 f_equal.
    + destruct n; [lia|]. cbn. ring.
    + destruct n as [|[|n]]; [lia|lia|]. change (map (fun i => k0 + INR i * dk) (seq 0 (S (S n)))) with ((k0 + INR 0 * dk) :: (k0 + INR 1 * dk) :: map (fun i => k0 + INR i * dk) (seq 2 n)).
      rewrite <- spacing_mean. change ((k0 + INR 0 * dk) :: (k0 + INR 1 * dk) :: map (fun i => k0 + INR i * dk) (seq 2 n)) with (map (fun i => k0 + INR i * dk) (seq 0 (S (S n)))).
      rewrite diffs_linspace. unfold mean. rewrite repeat_length. replace (S (S n) - 1)%nat with (S n) by lia.
      assert (Q : forall m, rsum (repeat dk m) = INR m * dk). { induction m as [|m IH]; [cbn; ring|]. rewrite S_INR. change (rsum (repeat dk (S m))) with (dk + rsum (repeat dk m)). rewrite IH. ring. }
      rewrite Q. field. apply not_0_INR. lia.
    + rewrite map_length, seq_length. reflexivity.
  - exfalso. unfold edges_of, linspace in E. rewrite diffs_linspace in E. destruct (n - 1)%nat as [|k] eqn:K; [lia|].
    cbn [repeat] in E. unfold require in E.
    assert (F : forallb (close_to dk) (dk :: repeat dk k) = true).
    { apply forallb_forall. intros x Hx. assert (x = dk) as ->. { destruct Hx as [Hx|Hx]; [auto|apply repeat_spec in Hx; exact Hx]. }
      unfold close_to. destruct (Rle_dec _ _) as [|C]; [reflexivity|]. exfalso; apply C. rewrite Rminus_diag_eq, Rabs_R0 by reflexivity.
      pose proof (Rabs_pos dk). assert (0 < 1 / 10 ^ 8) by lra. assert (0 < 1 / 10 ^ 5) by lra. nra. }
    rewrite F in E. discriminate.
  Unshelve.
Qed.
(** "must be linearly spaced": one difference that is off by more than the tolerance is an error *)
Theorem uneven_bins_refused : forall ks d0 ds d, diffs ks = d0 :: ds -> In d ds -> 1 / 10 ^ 8 + 1 / 10 ^ 5 * Rabs d0 < Rabs (d - d0) -> edges_of ks = Err ValueError.
Proof.
  intros ks d0 ds d D I H. unfold edges_of. rewrite D. unfold require.
  destruct (forallb (close_to d0) (d0 :: ds)) eqn:F; [|reflexivity]. exfalso. rewrite forallb_forall in F. specialize (F d (or_intror I)).
  unfold close_to in F. destruct (Rle_dec _ _); [lra|discriminate].
Qed.
(** descending centres are accepted by the test of the spacing but have too few edges *)
Theorem descending_bins_refuted :
  ~ (forall ks e, (2 <= length ks)%nat -> edges_of ks = Ok e -> length e = (length ks + 1)%nat).
Proof.
  intro H. set (ks := [3; 2; 1]). 
  assert (F : forallb (close_to (2 - 3)) [2 - 3; 1 - 2] = true).
  { cbn. replace (1 - 2) with (2 - 3) by ring. unfold close_to. rewrite Rminus_diag_eq, Rabs_R0 by reflexivity.
    destruct (Rle_dec 0 _) as [|C]; [reflexivity|]. exfalso. apply C. pose proof (Rabs_pos (2 - 3)). assert (0 < 1 / 10 ^ 8) by lra. assert (0 < 1 / 10 ^ 5) by lra. nra. }
  assert (E : edges_of ks = Ok (arange (minl ks - mean [2 - 3; 1 - 2] / 2) (maxl ks + mean [2 - 3; 1 - 2]) (mean [2 - 3; 1 - 2]))).
  { unfold edges_of. change (diffs ks) with [2 - 3; 1 - 2]. unfold require. rewrite F. reflexivity. }
  specialize (H ks _ ltac:(cbn; lia) E).
  assert (M : mean [2 - 3; 1 - 2] = -1). { unfold mean, rsum. cbn. field. }
  assert (Mi : minl ks = 1). { unfold minl, ks. cbn. rewrite (Rmin_left 1 3) by lra. rewrite (Rmin_right 2 1) by lra. apply Rmin_right; lra. }
  assert (Ma : maxl ks = 3). { unfold maxl, ks. cbn. rewrite (Rmax_right 1 3) by lra. rewrite (Rmax_right 2 3) by lra. apply Rmax_left; lra. }
  rewrite M, Mi, Ma in H. unfold arange in H. replace ((3 + -1 - (1 - -1 / 2)) / -1) with (-1 / 2) in H by field.
  rewrite (rceil_eq _ 0) in H by (cbn; lra). cbn in H. discriminate.
Qed.
Print Assumptions spherical_edges.
Print Assumptions linear_bins_accepted.
Print Assumptions uneven_bins_refused.
Print Assumptions descending_bins_refuted.

Section Sph.
Context (kmag : R -> nat -> R) (ndly : nat) (little_h : bool).
Notation c2s := (cylindrical_to_spherical kmag ndly little_h).
Definition ws_of (lens : list R) (weights : option (list R)) : list R := match weights with None => repeat 1 (length lens) | Some w => w end.
Lemma c2s_inv c u kb ksh kt lens ws r : c2s c u kb ksh kt lens ws = Ok r ->
  exists edges, edges_of kb = Ok edges /\ (length kb < length edges)%nat /\ c_ndly c = ndly /\
    length (ws_of lens ws) = length lens /\ length lens = match c_nbl c with None => 1%nat | Some n => n end /\
    fst ksh = c_nperp c /\ snd ksh = c_npara c /\ (2 <= length kb)%nat /\ check_kunits little_h u = Ok tt /\
    r = (sph_row (cells (c_nperp c) (c_npara c)) kt edges (length kb) (entries kmag ndly (c_val c) lens (ws_of lens ws)),
         mean_k edges (entries kmag ndly (c_val c) lens (ws_of lens ws))).
Proof.
  unfold cylindrical_to_spherical. fold (ws_of lens ws). unfold require. intro H.
  destruct (Nat.eqb_spec (length (ws_of lens ws)) (length lens)) as [E1|]; [|discriminate].
  destruct (match c_nbl c with None => Nat.eqb (length lens) 1 | Some _ => true end); [|discriminate].
  destruct (Nat.eqb_spec (length lens) (match c_nbl c with None => 1%nat | Some n => n end)) as [E2|]; [|discriminate].
  destruct (Nat.eqb_spec (fst ksh) (c_nperp c)) as [E3|]; [|discriminate]. destruct (Nat.eqb_spec (snd ksh) (c_npara c)) as [E4|]; [|discriminate].
  cbn [andb] in H. destruct (Nat.ltb_spec 1 (length kb)) as [E5|]; [|discriminate].
  destruct (check_kunits little_h u) as [[]|] eqn:E6; cbn [bind] in H; [|discriminate].
  destruct (edges_of kb) as [edges|] eqn:E7; cbn [bind] in H; [|discriminate].
  destruct (Nat.ltb_spec (length kb) (length edges)) as [E8|]; [|discriminate].
  destruct (Nat.eqb_spec (c_ndly c) ndly) as [E9|]; [|discriminate].
  injection H as <-. exists edges. repeat split; auto.
Qed.
(** ** C296: what cylindrical_to_spherical accepts, for ascending bins *)
Theorem spherical_accepts : forall c u kb ksh kt lens ws, ascending kb ->
  ((exists r, c2s c u kb ksh kt lens ws = Ok r) <->
   length (ws_of lens ws) = length lens /\ length lens = match c_nbl c with None => 1%nat | Some n => n end /\
   ksh = (c_nperp c, c_npara c) /\ (2 <= length kb)%nat /\ check_kunits little_h u = Ok tt /\
   (exists e, edges_of kb = Ok e) /\ c_ndly c = ndly).
Proof.
  intros c u kb ksh kt lens ws A. split.
  - intros [r H]. destruct (c2s_inv _ _ _ _ _ _ _ _ H) as [e [E [_ [N [L1 [L2 [K1 [K2 [L3 [U _]]]]]]]]]].
    repeat split; auto; [destruct ksh; cbn in *; congruence | exists e; exact E].
  - intros [L1 [L2 [-> [L3 [U [[e E] N]]]]]]. destruct (spherical_edges _ _ A E) as [_ [_ [_ [Le _]]]].
    unfold cylindrical_to_spherical. fold (ws_of lens ws). unfold require. rewrite (proj2 (Nat.eqb_eq _ _) L1).
    assert ((match c_nbl c with None => Nat.eqb (length lens) 1 | Some _ => true end) = true) as ->.
    { destruct (c_nbl c); [reflexivity|]. apply Nat.eqb_eq. exact L2. }
    rewrite (proj2 (Nat.eqb_eq _ _) L2). cbn [fst snd]. rewrite !Nat.eqb_refl. cbn [andb].
    rewrite (proj2 (Nat.ltb_lt 1 (length kb)) L3), U. cbn [bind]. rewrite E. cbn [bind]. rewrite (proj2 (Nat.ltb_lt _ _)) by lia.
    rewrite (proj2 (Nat.eqb_eq _ _) N). eexists. reflexivity.
Qed.

(** ** C297: the rows of the result *)
Theorem spherical_rows : forall c u kb ksh kt lens ws wf wk, c2s c u kb ksh kt lens ws = Ok (wf, wk) ->
  (forall b t p q, 0 <= c_val c b t p q) -> Forall (Rle 0) (ws_of lens ws) ->
  forall m1, (forall m, 0 <= wf m1 m) /\
    (rsum (map (wf m1) (seq 0 (length kb))) = 1 \/ forall m, (m < length kb)%nat -> wf m1 m = 0).
Proof.
  intros c u kb ksh kt lens ws wf wk H P W m1. destruct (c2s_inv _ _ _ _ _ _ _ _ H) as [edges [_ [_ [_ [_ [_ [_ [_ [_ [_ E]]]]]]]]]].
  injection E as -> ->. apply spherical_rows_nonneg. intros e cc He. unfold entries in He. apply in_flat_map in He. destruct He as [b [_ He]].
  apply in_map_iff in He. destruct He as [t [<- _]]. cbn [ewt ewf]. split; [|apply P].
  destruct (nth_in_or_default b (ws_of lens ws) 0) as [I| ->]; [|lra]. rewrite Forall_forall in W. exact (W _ I).
Qed.
(** ** The value of each row: the cylindrical window functions of the modes (b, t) in bin m1, averaged over those modes with the weights of
    the baselines, then over the cells (p, q) of each bin m, and normalised *)
Lemma rsum_filter {A} (f : A -> bool) (g : A -> R) l : rsum (map g (filter f l)) = rsum (map (fun a => if f a then g a else 0) l).
Proof. unfold rsum. induction l as [|a l IH]; [reflexivity|]. cbn [filter map fold_right]. destruct (f a); cbn [map fold_right]; rewrite IH; ring. Qed.
Lemma rsum_app' l1 l2 : rsum (l1 ++ l2) = rsum l1 + rsum l2.
Proof. unfold rsum. induction l1 as [|a l IH]; cbn; [ring|rewrite IH; ring]. Qed.
Lemma rsum_flat {A B} (h : A -> list B) (g : B -> R) l : rsum (map g (flat_map h l)) = rsum (map (fun a => rsum (map g (h a))) l).
Proof. induction l as [|a l IH]; [reflexivity|]. cbn [flat_map map]. rewrite map_app, rsum_app', IH. reflexivity. Qed.
Lemma rsum_prod {A B} (g : A * B -> R) l1 l2 : rsum (map g (list_prod l1 l2)) = rsum (map (fun a => rsum (map (fun b => g (a, b)) l2)) l1).
Proof. induction l1 as [|a l IH]; [reflexivity|]. cbn [list_prod map]. rewrite map_app, rsum_app', IH, map_map. reflexivity. Qed.
Lemma rsum_len {A} (l : list A) : INR (length l) = rsum (map (fun _ => 1) l).
Proof. unfold rsum. induction l as [|a l IH]; [reflexivity|]. change (length (a :: l)) with (S (length l)). rewrite S_INR. cbn [map fold_right]. rewrite <- IH. ring. Qed.
Theorem spherical_value : forall c u kb ksh kt lens ws wf wk, ascending kb -> c2s c u kb ksh kt lens ws = Ok (wf, wk) ->
  forall m1, (m1 < length kb)%nat ->
  let total n f := rsum (map f (seq 0 n)) in
  let lo m := hd 0 kb + (INR m - 1 / 2) * spacing kb in
  let within m k x := if Rle_dec (lo m) k then if Rlt_dec k (lo m + spacing kb) then x else 0 else 0 in
  let modes f := total (length lens) (fun b => total ndly (fun t => within m1 (kmag (nth b lens 0) t) (f b t))) in
  let over_cells f := total (c_nperp c) (fun p => total (c_npara c) (fun q => f p q)) in
  let w b := nth b (ws_of lens ws) 0 in
  let avg p q := modes (fun b t => c_val c b t p q * w b) / modes (fun b t => w b) in
  let binned m := over_cells (fun p q => within m (kt (p, q)) (avg p q)) / over_cells (fun p q => within m (kt (p, q)) 1) in
  (modes (fun _ _ => 1) = 0 \/ over_cells avg <= 0 -> forall m, (m < length kb)%nat -> wf m1 m = 0) /\
  (modes (fun _ _ => 1) <> 0 -> 0 < over_cells avg -> forall m, (m < length kb)%nat ->
     total (length kb) binned <> 0 -> wf m1 m = binned m / total (length kb) binned).
Proof.
  intros c u kb ksh kt lens ws wf wk A H m1 Hm1 total lo within modes over_cells w avg binned.
  destruct (c2s_inv _ _ _ _ _ _ _ _ H) as [edges [E [_ [_ [_ [_ [_ [_ [_ [_ R0]]]]]]]]]].
  injection R0 as -> _. destruct (spherical_edges _ _ A E) as [_ [_ [_ [_ En]]]].
  assert (IE : forall m k x, (m < length kb)%nat -> (if in_edges edges m k then x else 0) = within m k x).
  { intros m k x Hm. unfold in_edges, within. rewrite !En by lia. rewrite S_INR. fold (lo m).
    replace (hd 0 kb + (INR m + 1 - 1 / 2) * spacing kb) with (lo m + spacing kb) by (unfold lo; ring).
    destruct (Rle_dec (lo m) k); [|reflexivity]. destruct (Rlt_dec k _); reflexivity. }
  set (es := entries kmag ndly (c_val c) lens (ws_of lens ws)).
  set (sel := filter (fun e => in_edges edges m1 (ekmag e)) es).
  assert (SM : forall g : entry (nat * nat) -> R, rsum (map g sel) = modes (fun b t => g (mkentry (kmag (nth b lens 0) t) (w b) (fun pq => c_val c b t (fst pq) (snd pq))))).
  { intro g. unfold sel. rewrite rsum_filter. unfold es, entries. rewrite rsum_flat. unfold modes, total. f_equal. apply map_ext. intro b. rewrite map_map. f_equal. apply map_ext. intro t. cbn [ekmag]. apply IE, Hm1. }
  assert (WT : forall p q, wf_temp sel (p, q) = avg p q).
  { intros p q. unfold wf_temp. rewrite !SM. reflexivity. }
  assert (LEN : INR (length sel) = modes (fun _ _ => 1)) by (rewrite rsum_len, SM; reflexivity).
  assert (TOT : rsum (map (wf_temp sel) (cells (c_nperp c) (c_npara c))) = over_cells avg).
  { unfold cells. rewrite rsum_prod. unfold over_cells, total. f_equal. apply map_ext. intro p. f_equal. apply map_ext. intro q. apply WT. }
  assert (BM : forall m, (m < length kb)%nat -> bin_mean edges m kt (wf_temp sel) (cells (c_nperp c) (c_npara c)) = binned m).
  { intros m Hm. unfold bin_mean. set (s := filter _ _).
    assert (Q : forall g : nat * nat -> R, rsum (map g s) = over_cells (fun p q => within m (kt (p, q)) (g (p, q)))).
    { intro g. unfold s. rewrite rsum_filter. unfold cells. rewrite rsum_prod. unfold over_cells, total. f_equal. apply map_ext. intro p. f_equal. apply map_ext. intro q. apply IE, Hm. }
    assert (V : rsum (map (wf_temp sel) s) / INR (length s) = binned m).
    { rewrite rsum_len, !Q. unfold binned. f_equal. unfold over_cells, total. f_equal. apply map_ext. intro p. f_equal. apply map_ext. intro q. rewrite WT. reflexivity. }
    rewrite <- V. destruct s as [|x s']; [cbn; unfold Rdiv; ring|]. unfold mean. rewrite map_length. reflexivity. }
  assert (SUM : rsum (map (fun m => bin_mean edges m kt (wf_temp sel) (cells (c_nperp c) (c_npara c))) (seq 0 (length kb))) = total (length kb) binned).
  { unfold total. f_equal. apply map_ext_in. intros m Hm. apply BM. apply in_seq in Hm. lia. }
  unfold sph_row. fold sel. split.
  - intros D m Hm. destruct sel as [|e s] eqn:Es; [reflexivity|]. rewrite <- Es in *. destruct (Rlt_dec 0 _) as [P|]; [|reflexivity]. exfalso. rewrite TOT in P. destruct D as [D|D]; [|lra].
    rewrite <- LEN in D. rewrite Es in D. cbn [length] in D. rewrite S_INR in D. pose proof (pos_INR (length s)). lra.
  - intros N P m Hm NZ. destruct sel as [|e s] eqn:Es; [cbn in LEN; exfalso; apply N; rewrite <- LEN; reflexivity|]. rewrite <- Es in *. destruct (Rlt_dec 0 _) as [P'|]; [|exfalso; rewrite TOT in *; lra].
    cbv zeta. rewrite SUM. unfold normalise. destruct (Req_EM_T _ 0); [contradiction|]. rewrite BM by exact Hm. reflexivity.
Qed.
Print Assumptions spherical_value.
(** ** C298-C301: the second result, the mean k of each bin *)
Lemma entries_In c lens ws e : In e (entries kmag ndly c lens ws) <->
  exists b t, (b < length lens)%nat /\ (t < ndly)%nat /\ e = mkentry (kmag (nth b lens 0) t) (nth b ws 0) (fun pq => c b t (fst pq) (snd pq)).
Proof.
  unfold entries. rewrite in_flat_map. split.
  - intros [b [Hb H]]. apply in_map_iff in H. destruct H as [t [<- Ht]]. apply in_seq in Hb, Ht. exists b, t. repeat split; lia.
  - intros [b [t [Hb [Ht ->]]]]. exists b. split; [apply in_seq; lia|]. apply in_map_iff. exists t. split; [reflexivity|apply in_seq; lia].
Qed.
Lemma mean_between (l : list R) lo hi : l <> [] -> (forall x, In x l -> lo <= x < hi) -> lo <= mean l < hi.
Proof.
  intros N H. unfold mean. assert (P : 0 < INR (length l)) by (apply lt_0_INR; destruct l; [congruence|cbn; lia]).
  assert (Q : INR (length l) * lo <= rsum l /\ (rsum l < INR (length l) * hi)).
  { clear P. induction l as [|x l IH]; [congruence|]. destruct l as [|y l].
    - cbn. specialize (H x (or_introl eq_refl)). lra.
    - specialize (IH ltac:(discriminate) ltac:(intros; apply H; right; assumption)). specialize (H x (or_introl eq_refl)).
      change (length (x :: y :: l)) with (S (length (y :: l))). rewrite S_INR. change (rsum (x :: y :: l)) with (x + rsum (y :: l)). lra. }
  split; [apply (Rmult_le_reg_r (INR (length l))) | apply (Rmult_lt_reg_r (INR (length l)))]; try exact P; unfold Rdiv; rewrite Rmult_assoc, Rinv_l by lra; lra.
Qed.
(** it lies in its bin if the bin contains a mode, and is 0 otherwise *)
Theorem mean_k_in_bin : forall c u kb ksh kt lens ws wf wk, ascending kb -> c2s c u kb ksh kt lens ws = Ok (wf, wk) ->
  forall m, (m < length kb)%nat ->
  let lo := hd 0 kb + (INR m - 1 / 2) * spacing kb in
  let inbin k := lo <= k < lo + spacing kb in
  ((exists b t, (b < length lens)%nat /\ (t < ndly)%nat /\ inbin (kmag (nth b lens 0) t)) -> inbin (wk m)) /\
  (~ (exists b t, (b < length lens)%nat /\ (t < ndly)%nat /\ inbin (kmag (nth b lens 0) t)) -> wk m = 0).
Proof.
  intros c u kb ksh kt lens ws wf wk A H m Hm lo inbin. destruct (c2s_inv _ _ _ _ _ _ _ _ H) as [edges [E [_ [_ [_ [_ [_ [_ [_ [_ R0]]]]]]]]]].
  injection R0 as -> ->. destruct (spherical_edges _ _ A E) as [_ [S0 [_ [_ En]]]].
  assert (IE : forall k, in_edges edges m k = true <-> inbin k).
  { intro k. unfold in_edges, inbin. rewrite !En by lia. rewrite S_INR. fold lo.
    destruct (Rle_dec lo k); [|split; [discriminate|intros; exfalso; lra]]. destruct (Rlt_dec k _); split; intros; try reflexivity; try discriminate; unfold lo in *; lra. }
  unfold mean_k. set (es := entries _ _ _ _ _). set (sel := filter _ es).
  assert (I : forall e, In e sel <-> In e es /\ inbin (ekmag e)). { intro e. unfold sel. rewrite filter_In, IE. reflexivity. }
  split.
  - intros [b [t [Hb [Ht Hk]]]]. assert (N : sel <> []).
    { intro C. assert (In (mkentry (kmag (nth b lens 0) t) (nth b (ws_of lens ws) 0) (fun pq : nat * nat => c_val c b t (fst pq) (snd pq))) sel) as Q.
      { apply I. split; [apply entries_In; exists b, t; auto|exact Hk]. } rewrite C in Q. destruct Q. }
    destruct sel as [|e s]; [congruence|]. apply mean_between; [discriminate|]. intros x Hx. apply in_map_iff in Hx. destruct Hx as [e' [<- He']]. apply I in He'. apply He'.
  - intro N. destruct sel as [|e s] eqn:Es; [reflexivity|]. exfalso. apply N. destruct (proj1 (I e) (or_introl eq_refl)) as [He Hk].
    apply entries_In in He. destruct He as [b [t [Hb [Ht ->]]]]. exists b, t. auto.
Qed.
(** "weighted k-modes": the weights of the baselines are not used *)
Theorem weighted_k_ignores_weights : forall c u kb ksh kt lens ws ws' wf wk wf' wk',
  c2s c u kb ksh kt lens ws = Ok (wf, wk) -> c2s c u kb ksh kt lens ws' = Ok (wf', wk') -> forall m, wk m = wk' m.
Proof.
  intros c u kb ksh kt lens ws ws' wf wk wf' wk' H H' m.
  destruct (c2s_inv _ _ _ _ _ _ _ _ H) as [e [E [_ [_ [_ [_ [_ [_ [_ [_ R0]]]]]]]]]]. destruct (c2s_inv _ _ _ _ _ _ _ _ H') as [e' [E' [_ [_ [_ [_ [_ [_ [_ [_ R0']]]]]]]]]].
  rewrite E in E'. injection E' as <-. injection R0 as -> ->. injection R0' as -> ->. unfold mean_k.
  assert (M : forall w, map ekmag (filter (fun x => in_edges e m (ekmag x)) (entries kmag ndly (c_val c) lens w)) =
                        filter (in_edges e m) (flat_map (fun b => map (kmag (nth b lens 0)) (seq 0 ndly)) (seq 0 (length lens)))).
  { intro w. unfold entries. induction (seq 0 (length lens)) as [|b l IH]; [reflexivity|]. cbn [flat_map]. rewrite !filter_app, map_app, IH. clear IH. f_equal.
    induction (seq 0 ndly) as [|t ts IHt]; [reflexivity|]. cbn [map filter ekmag]. destruct (in_edges e m _); cbn [map ekmag]; rewrite IHt; reflexivity. }
  pose proof (M (ws_of lens ws)) as M1. pose proof (M (ws_of lens ws')) as M2. rewrite <- M2 in M1.
  destruct (filter _ (entries kmag ndly (c_val c) lens (ws_of lens ws))), (filter _ (entries kmag ndly (c_val c) lens (ws_of lens ws'))); try discriminate; [reflexivity|].
  rewrite M1. reflexivity.
Qed.
End Sph.
Print Assumptions spherical_accepts.
Print Assumptions spherical_rows.
Print Assumptions mean_k_in_bin.
Print Assumptions weighted_k_ignores_weights.

(** a case: two baseline lengths in one bin with weights 1 and 3 *)
Definition xkmag (l : R) (t : nat) : R := l.
Definition xcwf (n : nat) : cwf := mkcwf (Some n) 1 1 1 (fun _ _ _ _ => 1).
Lemma x_edges : edges_of (linspace 1 1 2) = Ok (bin_edges 1 1 2).
Proof. apply linear_bins_accepted; [lra|lia]. Qed.
Lemma x_sph ws : length ws = 2%nat ->
  exists wf wk, cylindrical_to_spherical xkmag 1 false (xcwf 2) (Some (mkunit 0 1)) (linspace 1 1 2) (1%nat, 1%nat) (fun _ => 1) [1; 5/4] (Some ws) = Ok (wf, wk).
Proof.
  intro L. destruct (proj2 (spherical_accepts xkmag 1 false (xcwf 2) (Some (mkunit 0 1)) (linspace 1 1 2) (1%nat, 1%nat) (fun _ => 1) [1; 5/4] (Some ws) (ascending_linspace 1 1 2 0 ltac:(lra)))) as [[wf wk] E].
  - cbn [ws_of xcwf c_nbl c_nperp c_npara c_ndly length]. repeat split; auto. exists (bin_edges 1 1 2). exact x_edges.
  - exists wf, wk. exact E.
Qed.
(** the documented weighted mean *)
Definition weighted_mean (l : list (R * R)) : R := rsum (map (fun x => fst x * snd x) l) / rsum (map snd l).
Theorem weighted_k_refuted :
  ~ (forall kmag lens ws wf wk kb u kt, length lens = 2%nat ->
      cylindrical_to_spherical kmag 1 false (xcwf 2) u kb (1%nat, 1%nat) kt lens (Some ws) = Ok (wf, wk) -> ascending kb ->
      (forall l, In l lens -> hd 0 kb - spacing kb / 2 <= kmag l 0%nat < hd 0 kb + spacing kb / 2) ->
      wk 0%nat = weighted_mean (combine (map (fun l => kmag l 0%nat) lens) ws)).
Proof.
  intro H.
  assert (SP : spacing (linspace 1 1 2) = 1) by (unfold spacing, linspace; cbn; field).
  assert (V : forall ws, length ws = 2%nat -> exists x : R, weighted_mean (combine [1; 5/4] ws) = x /\ exists wf wk, cylindrical_to_spherical xkmag 1 false (xcwf 2) (Some (mkunit 0 1)) (linspace 1 1 2) (1%nat, 1%nat) (fun _ => 1) [1; 5/4] (Some ws) = Ok (wf, wk) /\ wk 0%nat = x).
  { intros ws L. destruct (x_sph ws L) as [wf [wk E]]. eexists. split; [reflexivity|]. exists wf, wk. split; [exact E|].
    apply (H xkmag [1; 5/4] ws wf wk (linspace 1 1 2) _ _ eq_refl E (ascending_linspace 1 1 2 0 ltac:(lra))).
    intros l Hl. unfold xkmag. rewrite SP. cbn [linspace map seq hd INR]. destruct Hl as [<-|[<-|[]]]; lra. }
  destruct (V [1; 1] eq_refl) as [x [X [wf [wk [E K]]]]]. destruct (V [1; 3] eq_refl) as [x' [X' [wf' [wk' [E' K']]]]].
  pose proof (weighted_k_ignores_weights _ _ _ _ _ _ _ _ _ _ _ _ _ _ _ E E' 0%nat) as Q. rewrite K, K', <- X, <- X' in Q.
  unfold weighted_mean, rsum in Q. cbn in Q. lra.
Qed.
(** the warning on empty bins counts the weights as integers: bins of total weight below one count as empty *)
Theorem empty_warning_refuted :
  ~ (forall edges n (es : list (entry (nat * nat))), warns_empty edges n es = true ->
       (forall e, In e es -> 0 < ewt e) -> exists m, (m < n)%nat /\ forall e, In e es -> in_edges edges m (ekmag e) = false).
Proof.
  intro H. set (e := mkentry 1 (1 / 2) (fun _ : nat * nat => 1)).
  assert (IN : in_edges (bin_edges 1 1 1) 0 1 = true) by (apply in_edges_iff; [lra|lia|cbn; lra]).
  destruct (H (bin_edges 1 1 1) 1%nat [e]) as [m [Hm K]].
  - unfold warns_empty. cbn [seq existsb]. unfold bin_weight. cbn [filter]. change (ekmag e) with 1. rewrite IN. cbn [map]. change (ewt e) with (1 / 2).
    unfold rsum. cbn [fold_right]. destruct (Rle_dec 0 (1 / 2 + 0)) as [|C]; [|exfalso; apply C; lra].
    assert (Int_part (1 / 2 + 0) = 0%Z) as ->; [|reflexivity]. destruct (base_Int_part (1 / 2 + 0)) as [B1 B2].
    assert (IZR (-1) < IZR (Int_part (1 / 2 + 0)) < IZR 1) as [Q1 Q2] by lra. apply lt_IZR in Q1, Q2. lia.
  - intros e' [<-|[]]. cbn. lra.
  - assert (m = 0%nat) as -> by lia. specialize (K e (or_introl eq_refl)). change (ekmag e) with 1 in K. congruence.
Qed.
Theorem empty_bin_warns : forall edges n (es : list (entry (nat * nat))) m, (m < n)%nat ->
  (forall e, In e es -> in_edges edges m (ekmag e) = false) -> warns_empty edges n es = true.
Proof.
  intros edges n es m Hm H. unfold warns_empty. apply existsb_exists. exists m. split; [apply in_seq; lia|]. unfold bin_weight.
  assert (filter (fun e => in_edges edges m (ekmag e)) es = []) as ->. { clear -H. induction es as [|e es IH]; [reflexivity|]. cbn [filter]. rewrite (H e (or_introl eq_refl)). apply IH. intros; apply H; right; assumption. }
  cbn. destruct (Rle_dec 0 0) as [|C]; [|exfalso; apply C; lra]. destruct (base_Int_part 0) as [B1 B2]. assert (IZR (-1) < IZR (Int_part 0) < IZR 1) as [Q1 Q2] by lra. apply lt_IZR in Q1, Q2. apply Z.eqb_eq. lia.
Qed.
Print Assumptions weighted_k_refuted.
Print Assumptions empty_warning_refuted.
Print Assumptions empty_bin_warns.

(** ** C302: get_spherical_wf *)
Section Full.
Context (kmag : R -> nat -> R) (ndly : nat) (little_h : bool) (cyl : R -> list R -> list R -> result (nat -> nat -> nat -> R)) (dperp : list R -> result (list R)) (dpara : result (list R)).
Notation gsw := (get_spherical_wf kmag ndly little_h cyl dperp dpara).
(** the entries of a list of (length, weight) *)
Definition row_entries (kp kq : list R) (lw : R * R) : list (entry (nat * nat)) :=
  map (fun t => mkentry (kmag (fst lw) t) (snd lw) (fun pq => (match cyl (fst lw) kp kq with Ok f => f | Err _ => fun _ _ _ => 0 end) t (fst pq) (snd pq))) (seq 0 ndly).
Definition kcell (kp kq : list R) (pq : nat * nat) : R := sqrt (nth (fst pq) kp 0 ^ 2 + nth (snd pq) kq 0 ^ 2).
Lemma flat_map_seq {A B} (d : A) (F : A -> list B) (G : nat -> list B) (l : list A) j :
  (forall b, (b < length l)%nat -> G (b + j)%nat = F (nth b l d)) -> flat_map G (seq j (length l)) = flat_map F l.
Proof.
  revert j; induction l as [|x l IH]; intros j H; [reflexivity|]. cbn [length seq flat_map]. f_equal; [apply (H 0%nat); cbn; lia|].
  apply IH. intros b Hb. specialize (H (S b) ltac:(cbn; lia)). replace (b + S j)%nat with (S b + j)%nat by lia. exact H.
Qed.
Lemma map_res_nth' {A B} (f : A -> result B) (d : A) (d' : B) l r b : map_res f l = Ok r -> (b < length l)%nat -> f (nth b l d) = Ok (nth b r d').
Proof.
  revert r b; induction l as [|x l IH]; intros r b H Hb; [cbn in Hb; lia|]. cbn [map_res] in H.
  destruct (f x) as [y|] eqn:Fx; [|discriminate]. cbn [bind] in H. destruct (map_res f l) as [ys|] eqn:M; [|discriminate]. cbn [bind] in H. injection H as <-.
  destruct b as [|b]; [exact Fx|]. cbn [nth]. apply IH; [reflexivity|cbn in Hb; lia].
Qed.
Lemma gsw_inv u kb lens ws kp0 kq0 r : gsw u kb lens ws kp0 kq0 = Ok r ->
  exists kp kq edges, given_bins little_h kp0 (dperp lens) = Ok kp /\ given_bins little_h kq0 dpara = Ok kq /\ edges_of kb = Ok edges /\
    length (ws_of lens ws) = length lens /\ lens <> [] /\ (2 <= length kb)%nat /\
    r = (sph_row (cells (length kp) (length kq)) (kcell kp kq) edges (length kb) (flat_map (row_entries kp kq) (combine lens (ws_of lens ws))),
         mean_k edges (flat_map (row_entries kp kq) (combine lens (ws_of lens ws)))).
Proof.
  unfold get_spherical_wf. unfold require at 1. intro H.
  destruct (match ws with Some w => Nat.eqb (length w) (length lens) | None => true end) eqn:E1; [|discriminate].
  fold (ws_of lens ws) in H. cbv zeta in H.
  destruct (given_bins little_h kp0 (dperp lens)) as [kp|] eqn:E2; cbn [bind] in H; [|discriminate]. destruct (edges_of kp) as [pe|] eqn:E3; cbn [bind] in H; [|discriminate].
  unfold require at 1 in H. destruct (_ && _) eqn:E4; [|discriminate].
  destruct (given_bins little_h kq0 dpara) as [kq|] eqn:E5; cbn [bind] in H; [|discriminate]. destruct (edges_of kq) as [qe|] eqn:E6; cbn [bind] in H; [|discriminate].
  unfold require at 1 in H. destruct (match qe with [] => false | _ => true end); [|discriminate].
  destruct (check_kunits little_h u) as [[]|] eqn:E7; cbn [bind] in H; [|discriminate].
  unfold require at 1 in H. destruct (Nat.ltb 1 (length kb)); [|discriminate].
  destruct (edges_of kb) as [ke|] eqn:E8; cbn [bind] in H; [|discriminate].
  unfold require at 1 in H. destruct (match ke with [] => false | _ => true end); [|discriminate].
  destruct (map_res (fun l => cyl l kp kq) lens) as [wfs|] eqn:E9; cbn [bind] in H; [|discriminate].
  destruct (c2s_inv _ _ _ _ _ _ _ _ _ _ _ H) as [edges [Ee [_ [_ [L1 [_ [_ [_ [L2 [_ R0]]]]]]]]]]. cbn [ws_of c_nperp c_npara c_val] in *.
  assert (EN : entries kmag ndly (fun b => nth b wfs (fun _ _ _ => 0)) lens (ws_of lens ws) = flat_map (row_entries kp kq) (combine lens (ws_of lens ws))).
  { unfold entries. replace (length lens) with (length (combine lens (ws_of lens ws))) by (rewrite combine_length; lia).
    apply (flat_map_seq (0, 0)). intros b Hb. rewrite combine_length in Hb. rewrite combine_nth by lia. unfold row_entries. cbn [fst snd].
    rewrite (map_res_nth' _ 0 (fun _ _ _ => 0) _ _ b E9) by lia. replace (b + 0)%nat with b by lia. reflexivity. }
  rewrite EN in R0. exists kp, kq, edges. split; [reflexivity|]. split; [reflexivity|]. split; [congruence|]. split; [exact L1|]. split; [|split; [exact L2|exact R0]].
  apply andb_prop in E4. destruct lens; [destruct E4; discriminate|discriminate].
Qed.
Lemma perm_filter {A} (p : A -> bool) l l' : Permutation l l' -> Permutation (filter p l) (filter p l').
Proof.
  induction 1; cbn; [constructor| destruct (p x); [apply perm_skip|]; assumption | | eapply perm_trans; eassumption].
  destruct (p x), (p y); try apply perm_swap; apply Permutation_refl.
Qed.
Lemma sph_row_perm {C} (cs : list C) kt edges nb es es' m1 m : Permutation es es' -> sph_row cs kt edges nb es m1 m = sph_row cs kt edges nb es' m1 m.
Proof.
  intro P. apply sph_row_ext.
  - pose proof (perm_filter (fun e => in_edges edges m1 (ekmag e)) _ _ P) as Q. split; intro E; rewrite E in Q; [apply Permutation_nil in Q|apply Permutation_sym, Permutation_nil in Q]; exact Q.
  - intro c. pose proof (perm_filter (fun e => in_edges edges m1 (ekmag e)) _ _ P) as Q. unfold wf_temp.
    rewrite (rsum_perm _ _ (Permutation_map (fun e => ewf e c * ewt e) Q)), (rsum_perm _ _ (Permutation_map ewt Q)). reflexivity.
Qed.
Lemma mean_k_perm edges es es' m : Permutation es es' -> mean_k edges es m = mean_k edges es' m.
Proof.
  intro P. unfold mean_k. pose proof (perm_filter (fun e => in_edges edges m (ekmag e)) _ _ P) as Q.
  destruct (filter _ es) as [|a s] eqn:F; [apply Permutation_nil in Q; rewrite Q; reflexivity|].
  destruct (filter _ es') as [|a' s']; [apply Permutation_sym, Permutation_nil in Q; discriminate|].
  unfold mean. rewrite !map_length, (Permutation_length Q), (rsum_perm _ _ (Permutation_map ekmag Q)). reflexivity.
Qed.
(** the order in which the baseline lengths are listed does not matter *)
Theorem spherical_order : forall u kb lens ws lens' ws' kp kq wf wk wf' wk',
  gsw u kb lens ws kp kq = Ok (wf, wk) -> gsw u kb lens' ws' kp kq = Ok (wf', wk') -> dperp lens = dperp lens' ->
  Permutation (combine lens (ws_of lens ws)) (combine lens' (ws_of lens' ws')) -> forall m1 m, wf m1 m = wf' m1 m /\ wk m = wk' m.
Proof.
  intros u kb lens ws lens' ws' kp0 kq0 wf wk wf' wk' H H' D P m1 m.
  destruct (gsw_inv _ _ _ _ _ _ _ H) as [kp [kq [e [A1 [A2 [A3 [_ [_ [_ R0]]]]]]]]]. destruct (gsw_inv _ _ _ _ _ _ _ H') as [kp' [kq' [e' [B1 [B2 [B3 [_ [_ [_ R0']]]]]]]]].
  rewrite <- D, A1 in B1. injection B1 as <-. rewrite A2 in B2. injection B2 as <-. rewrite A3 in B3. injection B3 as <-.
  injection R0 as -> ->. injection R0' as -> ->. pose proof (Permutation_flat_map (row_entries kp kq) P) as Q. split; [apply sph_row_perm; exact Q|apply mean_k_perm; exact Q].
Qed.
(** a length listed twice, with weights w1 and w2, is the same as once with w1 + w2; only ratios of weights matter *)
Lemma rsum_rows kp kq edges m1 (g : entry (nat * nat) -> R) l w : 
  (forall k v f, g (mkentry k v f) = v * g (mkentry k 1 f)) ->
  rsum (map g (filter (fun e => in_edges edges m1 (ekmag e)) (row_entries kp kq (l, w)))) =
  w * rsum (map g (filter (fun e => in_edges edges m1 (ekmag e)) (row_entries kp kq (l, 1)))).
Proof.
  intro G. unfold row_entries. cbn [fst snd]. induction (seq 0 ndly) as [|t ts IH]; [cbn; ring|]. cbn [map filter ekmag].
  destruct (in_edges edges m1 (kmag l t)); [|exact IH]. cbn [map]. change (rsum (?a :: ?b)) with (a + rsum b).
  unfold rsum in *. cbn [fold_right]. rewrite IH, G. ring.
Qed.
Theorem spherical_weight_counts : forall u kb lens ws l w1 w2 kp kq wf wk wf' wk', length ws = length lens ->
  gsw u kb (l :: lens) (Some (w1 + w2 :: ws)) kp kq = Ok (wf, wk) -> gsw u kb (l :: l :: lens) (Some (w1 :: w2 :: ws)) kp kq = Ok (wf', wk') ->
  dperp (l :: lens) = dperp (l :: l :: lens) -> forall m1 m, wf m1 m = wf' m1 m.
Proof.
  intros u kb lens ws l w1 w2 kp0 kq0 wf wk wf' wk' L H H' D m1 m.
  destruct (gsw_inv _ _ _ _ _ _ _ H) as [kp [kq [e [A1 [A2 [A3 [_ [_ [_ R0]]]]]]]]]. destruct (gsw_inv _ _ _ _ _ _ _ H') as [kp' [kq' [e' [B1 [B2 [B3 [_ [_ [_ R0']]]]]]]]].
  rewrite <- D, A1 in B1. injection B1 as <-. rewrite A2 in B2. injection B2 as <-. rewrite A3 in B3. injection B3 as <-.
  injection R0 as -> ->. injection R0' as -> ->. cbn [ws_of combine flat_map].
  set (rest := flat_map _ (combine lens ws)). rewrite !app_assoc_reverse || idtac.
  assert (NE : forall w, filter (fun x => in_edges e m1 (ekmag x)) (row_entries kp kq (l, w)) = [] <-> filter (fun x => in_edges e m1 (ekmag x)) (row_entries kp kq (l, 1)) = []).
  { intro w. unfold row_entries. cbn [fst snd]. induction (seq 0 ndly) as [|t ts IH]; [tauto|]. cbn [map filter ekmag]. destruct (in_edges e m1 (kmag l t)); [split; discriminate|exact IH]. }
  apply sph_row_ext; rewrite !filter_app.
  - pose proof (NE w1) as N1. pose proof (NE w2) as N2. pose proof (NE (w1 + w2)) as N3. split; intro Q.
    + apply app_eq_nil in Q. destruct Q as [Q1 Q2]. rewrite Q2, (proj2 N1 (proj1 N3 Q1)), (proj2 N2 (proj1 N3 Q1)). reflexivity.
    + apply app_eq_nil in Q. destruct Q as [Q1 Q2]. apply app_eq_nil in Q2. destruct Q2 as [Q2 Q3]. rewrite Q3, (proj2 N3 (proj1 N1 Q1)). reflexivity.
  - intro c. unfold wf_temp. rewrite !map_app, !rsum_app.
    rewrite (rsum_rows kp kq e m1 (fun x => ewf x c * ewt x) l w1), (rsum_rows kp kq e m1 (fun x => ewf x c * ewt x) l w2), (rsum_rows kp kq e m1 (fun x => ewf x c * ewt x) l (w1 + w2)) by (intros; cbn; ring).
    rewrite (rsum_rows kp kq e m1 ewt l w1), (rsum_rows kp kq e m1 ewt l w2), (rsum_rows kp kq e m1 ewt l (w1 + w2)) by (intros; cbn; ring).
    f_equal; ring.
Qed.
(** what it refuses *)
Theorem get_spherical_refuses : forall u kb lens ws kp kq,
  (forall w, ws = Some w -> length w <> length lens -> gsw u kb lens ws kp kq = Err ValueError) /\
  (gsw u kb lens None kp kq = gsw u kb lens (Some (repeat 1 (length lens))) kp kq) /\
  (forall r, gsw u kb lens ws kp kq = Ok r -> lens <> [] /\ (2 <= length kb)%nat /\ length (ws_of lens ws) = length lens).
Proof.
  intros u kb lens ws kp kq. split; [|split].
  - intros w -> N. unfold get_spherical_wf. unfold require at 1. destruct (Nat.eqb_spec (length w) (length lens)); [contradiction|reflexivity].
  - transitivity (require (Nat.eqb (length (repeat 1 (length lens))) (length lens)) ValueError (gsw u kb lens None kp kq)).
    + rewrite repeat_length, Nat.eqb_refl. reflexivity.
    + reflexivity.
  - intros r H. destruct (gsw_inv _ _ _ _ _ _ _ H) as [kp' [kq' [e [_ [_ [_ [A [B [C _]]]]]]]]]. auto.
Qed.
End Full.
Print Assumptions spherical_order.
Print Assumptions spherical_weight_counts.
Print Assumptions get_spherical_refuses.
Example spherical_case : exists r, get_spherical_wf xkmag 1 false (fun _ _ _ => Ok (fun _ _ _ => 1)) (fun _ => Ok (linspace 1 1 2)) (Ok (linspace 1 1 2))
  (Some (mkunit 0 1)) (linspace 1 1 2) [1; 5/4] (Some [1; 3]) None None = Ok r.
Proof.
  unfold get_spherical_wf, given_bins. cbn [bind]. rewrite x_edges. cbn [bind].
  assert (NE : bin_edges 1 1 2 <> []). { rewrite (bin_edges_exact 1 1 2) by (lra || lia). discriminate. }
  destruct (bin_edges 1 1 2) as [|e0 el] eqn:B; [congruence|].
  assert (C : check_kunits false (Some (mkunit 0 1)) = Ok tt) by reflexivity. rewrite C. cbn [bind map_res require length Nat.eqb andb].
  destruct (proj2 (spherical_accepts xkmag 1 false (mkcwf (Some 2%nat) 1 2 2 (fun b => nth b [(fun _ _ _ => 1); (fun _ _ _ => 1)] (fun _ _ _ => 0))) (Some (mkunit 0 1)) (linspace 1 1 2) (2%nat, 2%nat)
     (fun pq => sqrt (nth (fst pq) (linspace 1 1 2) 0 ^ 2 + nth (snd pq) (linspace 1 1 2) 0 ^ 2)) [1; 5/4] (Some [1; 3]) (ascending_linspace 1 1 2 0 ltac:(lra)))) as [r E].
  - cbn [ws_of c_nbl c_nperp c_npara c_ndly length]. repeat split; auto. exists (bin_edges 1 1 2). exact x_edges.
  - exists r. exact E.
Qed.

(** the warning is given exactly if the weights of some bin add up to less than 1 in modulus *)
Theorem warning_exact : forall edges n (es : list (entry (nat * nat))),
  warns_empty edges n es = true <-> exists m, (m < n)%nat /\ Rabs (rsum (map ewt (filter (fun e => in_edges edges m (ekmag e)) es))) < 1.
Proof.
  intros edges n es.
  assert (Z : forall x, 0 <= x -> (Int_part x = 0%Z <-> x < 1)).
  { intros x Hx. destruct (base_Int_part x) as [B1 B2]. split; intro H; [rewrite H in B2; cbn in B2; lra|]. assert (IZR (-1) < IZR (Int_part x) < IZR 1) as [Q1 Q2] by lra. apply lt_IZR in Q1, Q2. lia. }
  unfold warns_empty. rewrite existsb_exists. split.
  - intros (m & Im & E). apply in_seq in Im. exists m. split; [lia|]. apply Z.eqb_eq in E. unfold bin_weight in E. set (s := rsum _) in *. destruct (Rle_dec 0 s) as [P|P].
    + rewrite Rabs_right by lra. apply Z; [exact P|exact E].
    + rewrite Rabs_left by lra. apply Z; [lra|]. lia.
  - intros (m & Hm & H). exists m. split; [apply in_seq; lia|]. apply Z.eqb_eq. unfold bin_weight. set (s := rsum _) in *. destruct (Rle_dec 0 s) as [P|P].
    + rewrite Rabs_right in H by lra. apply Z; assumption.
    + rewrite Rabs_left in H by lra. assert (Int_part (- s) = 0%Z) as -> by (apply Z; lra). reflexivity.
Qed.
(** bins that are given (and not empty, with a unit that fits) take the place of the default ones *)
Theorem given_bins_used : forall kmag ndly little_h cyl dperp dpara u kb lens ws uk kp uq kq, kp <> [] -> kq <> [] ->
  check_kunits little_h uk = Ok tt -> check_kunits little_h uq = Ok tt ->
  get_spherical_wf kmag ndly little_h cyl dperp dpara u kb lens ws (Some (uk, kp)) (Some (uq, kq)) =
  get_spherical_wf kmag ndly little_h cyl (fun _ => Ok kp) (Ok kq) u kb lens ws None None.
Proof.
  intros kmag ndly little_h cyl dperp dpara u kb lens ws uk kp uq kq Np Nq C1 C2. unfold get_spherical_wf, given_bins. rewrite C1, C2. destruct kp; [congruence|]. destruct kq; [congruence|]. reflexivity.
Qed.
Print Assumptions warning_exact.
Print Assumptions given_bins_used.
(** the tolerance: differences that are all within 1e-8 + 1e-5 |d0| of the first one are accepted *)
Theorem even_bins_accepted : forall ks d0 ds, diffs ks = d0 :: ds -> (forall d, In d ds -> Rabs (d - d0) <= / 10 ^ 8 + / 10 ^ 5 * Rabs d0) -> exists e, edges_of ks = Ok e.
Proof.
  intros ks d0 ds D H. unfold edges_of. rewrite D. unfold require.
  destruct (forallb (close_to d0) (d0 :: ds)) eqn:F; [eexists; reflexivity |]. exfalso. rewrite <- not_true_iff_false in F. apply F. apply forallb_forall.
  intros d [<- | I]; unfold close_to.
  - destruct (Rle_dec _ _) as [| C]; [reflexivity |]. exfalso. apply C. rewrite Rminus_diag_eq, Rabs_R0 by reflexivity. pose proof (Rabs_pos d0). assert (0 < 1 / 10 ^ 8) by lra. assert (0 < 1 / 10 ^ 5) by lra. nra.
  - specialize (H d I). destruct (Rle_dec _ _) as [| C]; [reflexivity |]. exfalso. apply C. unfold Rdiv. rewrite !Rmult_1_l. exact H.
Qed.
(** a spacing that is off by 1e-8 is still accepted *)
Example even_bins_ex : exists e, edges_of [0; 1; 2 + / 10 ^ 8] = Ok e.
Proof.
  apply (even_bins_accepted [0; 1; 2 + / 10 ^ 8] (1 - 0) [2 + / 10 ^ 8 - 1] eq_refl). intros d [<- | []]. replace (2 + / 10 ^ 8 - 1 - (1 - 0)) with (/ 10 ^ 8) by ring.
  rewrite Rabs_pos_eq by lra. pose proof (Rabs_pos (1 - 0)). assert (0 < / 10 ^ 5) by lra. nra.
Qed.
Print Assumptions even_bins_accepted.
