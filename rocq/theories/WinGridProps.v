(** C227-C233: grids of window functions. *)
From Coq Require Import Reals Lra.
From Verif Require Import Prelude ListLemmas ConvModel WinModel WinProps WinCylProps WinGridModel.
Open Scope R_scope.

(** ** arange *)
Lemma rceil_spec x : IZR (rceil x) - 1 < x <= IZR (rceil x).
Proof. unfold rceil. destruct (base_Int_part (- x)) as [B1 B2]. rewrite opp_IZR. lra. Qed.
Lemma arange_spec a b s : 0 < s -> a < b -> exists n, arange a b s = map (fun i => a + INR i * s) (seq 0 n) /\ (0 < n)%nat /\ a + INR (n - 1) * s < b <= a + INR n * s.
Proof.
  intros S L. unfold arange. set (q := (b - a) / s). assert (Q : q * s = b - a) by (unfold q; field; lra). assert (Q0 : 0 < q) by (apply Rmult_lt_reg_r with s; [exact S |]; lra).
  destruct (rceil_spec q) as [C1 C2]. assert (Z : (0 < rceil q)%Z) by (apply lt_IZR; lra). exists (Z.to_nat (rceil q)). split; [reflexivity |]. split; [lia |]. assert (E : INR (Z.to_nat (rceil q)) = IZR (rceil q)) by (rewrite INR_IZR_INZ, Z2Nat.id by lia; reflexivity).
  rewrite minus_INR by lia. rewrite E. change (INR 1) with 1. nra.
Qed.
Lemma nth_grid a s n i : (i < n)%nat -> nth i (map (fun i => a + INR i * s) (seq 0 n)) 0 = a + INR i * s.
Proof. intros H. set (f := fun i : nat => a + INR i * s). rewrite (nth_indep _ 0 (f 0%nat)) by (rewrite map_length, seq_length; exact H). rewrite map_nth, seq_nth by exact H. reflexivity. Qed.

(** The grid starts [width] below the central value, has spacing dk, and ends less than one spacing before [width] above it; a width that is not larger than the
    spacing is refused *)
Theorem kgrid_spec :
  forall kfac dk width bl, 0 < dk ->
    match get_kgrid kfac dk width bl with
    | Ok g => dk < width /\ (3 <= length g)%nat /\ (forall i, (i < length g)%nat -> nth i g 0 = kfac * bl / sqrt 2 - width + INR i * dk) /\
        kfac * bl / sqrt 2 + width - dk <= nth (length g - 1) g 0 < kfac * bl / sqrt 2 + width /\ (exists i, (i < length g)%nat /\ Rabs (nth i g 0 - kfac * bl / sqrt 2) <= dk / 2)
    | Err e => e = ValueError /\ width <= dk
    end.
Proof.
  intros kfac dk width bl D. unfold get_kgrid, require. destruct (Rle_dec width dk) as [W | W]; [auto |]. apply Rnot_le_lt in W. unfold kp_centre. set (c := kfac * bl / sqrt 2). destruct (arange_spec (c - width) (c + width) dk D ltac:(lra)) as (n & E & N & B). rewrite E, map_length, seq_length.
  split; [exact W |]. assert (N3 : (3 <= n)%nat). { assert (2 < INR n) by nra. change 2 with (INR 2) in H. apply INR_lt in H. lia. } split; [exact N3 |]. split; [intros i Hi; apply nth_grid, Hi |]. split.
  - rewrite nth_grid by lia. rewrite minus_INR in * by lia. change (INR 1) with 1 in *. lra.
  - (* nearest index *)
    set (y := width / dk). assert (Y : y * dk = width) by (unfold y; field; lra). set (k := Int_part (y + 1 / 2)). destruct (base_Int_part (y + 1 / 2)) as [B1 B2]. fold k in B1, B2. assert (y1 : 1 < y) by (apply Rmult_lt_reg_r with dk; lra).
    assert (K0 : (0 < k)%Z) by (apply lt_IZR; lra). assert (EI : INR (Z.to_nat k) = IZR k) by (rewrite INR_IZR_INZ, Z2Nat.id by lia; reflexivity). exists (Z.to_nat k).
    assert (L : (Z.to_nat k < n)%nat). { apply INR_lt. rewrite EI. assert (2 * y <= INR n) by (apply Rmult_le_reg_r with dk; lra). lra. }
    split; [exact L |]. rewrite nth_grid by exact L. rewrite EI. replace (c - width + IZR k * dk - c) with ((IZR k - y) * dk) by lra. rewrite Rabs_mult, (Rabs_right dk) by lra. assert (Rabs (IZR k - y) <= 1 / 2) by (apply Rabs_le; lra). nra.
Qed.
(** with the spacing of the code the grid has the steps of the k_perp values of the pixels of the beam at that redshift *)
Theorem kgrid_spacing : forall kfac width bl mapsize DM g, 0 < mapsize -> 0 < DM -> get_kgrid kfac (fourier_dk mapsize DM) width bl = Ok g ->
  forall i fr b n p, (S i < length g)%nat -> (S p < n)%nat -> nth (S i) g 0 - nth i g 0 = kperp4bl DM fr b mapsize n (S p) - kperp4bl DM fr b mapsize n p.
Proof.
  intros kfac width bl mapsize DM g M D G i fr b n p Hi Hp. pose proof PI_RGT_0 as P.
  assert (K : 0 < fourier_dk mapsize DM) by (unfold fourier_dk; repeat apply Rdiv_lt_0_compat; lra).
  pose proof (kgrid_spec kfac (fourier_dk mapsize DM) width bl K) as S. rewrite G in S. destruct S as (_ & _ & X & _). rewrite !X by lia. rewrite S_INR.
  replace (kfac * bl / sqrt 2 - width + (INR i + 1) * fourier_dk mapsize DM - (kfac * bl / sqrt 2 - width + INR i * fourier_dk mapsize DM)) with (fourier_dk mapsize DM) by ring.
  unfold fourier_dk, kperp4bl, fourier_dual. replace (n - 1 - p)%nat with (Datatypes.S (n - 1 - Datatypes.S p)) by lia. rewrite S_INR. field. repeat split; try lra; try (unfold u_c; lra); apply Rgt_not_eq, sqrt_lt_R0; lra.
Qed.
Print Assumptions kgrid_spacing.
Example kgrid_nonvacuous : exists g, get_kgrid 1 1 2 10 = Ok g.
Proof. unfold get_kgrid. destruct (Rle_dec 2 1); [lra |]. eexists. reflexivity. Qed.
(** "must include all the kperp covered by the spectral window": the width is fixed, so for long baselines it does not.  A frequency with bl_to_kperp kf has centre kf * bl / sqrt 2 *)
Theorem kgrid_covers_partial :
  forall kfac kf dk width bl g, 0 < dk -> get_kgrid kfac dk width bl = Ok g -> Rabs (kf * bl / sqrt 2 - kfac * bl / sqrt 2) <= width - dk ->
    nth 0 g 0 <= kf * bl / sqrt 2 <= nth (length g - 1) g 0.
Proof.
  intros kfac kf dk width bl g D G H. pose proof (kgrid_spec kfac dk width bl D) as S. rewrite G in S. destruct S as (W & N & X & Y & _). rewrite (X 0%nat) by lia. cbn [INR]. unfold Rabs in H. destruct (Rcase_abs _); lra.
Qed.
Theorem kgrid_covers_refuted :
  forall dk width kfac kf, 0 < dk -> dk < width -> 0 < kfac -> kfac < kf -> exists bl g, 0 < bl /\ get_kgrid kfac dk width bl = Ok g /\ nth (length g - 1) g 0 < kf * bl / sqrt 2.
Proof.
  intros dk width kfac kf D W K F. assert (S2 : 0 < sqrt 2) by (apply sqrt_lt_R0; lra). exists (width * sqrt 2 / (kf - kfac)). set (bl := width * sqrt 2 / (kf - kfac)). assert (B : 0 < bl) by (apply Rdiv_lt_0_compat; [apply Rmult_lt_0_compat |]; lra).
  destruct (get_kgrid kfac dk width bl) as [g |] eqn:G; [| pose proof (kgrid_spec kfac dk width bl D) as S; rewrite G in S; lra]. exists g. split; [exact B |]. split; [reflexivity |]. pose proof (kgrid_spec kfac dk width bl D) as S. rewrite G in S. destruct S as (_ & _ & _ & Y & _). assert (E : kf * bl / sqrt 2 = kfac * bl / sqrt 2 + width) by (unfold bl; field; lra). lra.
Qed.

(** ** k_perp values of the pixels of the beam *)
(** Frequencies outside of the window and below 1 MHz are refused; otherwise the values ascend in steps of 2 pi / (2 mapsize DM), as many as there are pixels *)
Theorem kperp4bl_spec :
  forall fmin fmax DMz freq bl mapsize n,
    match kperp4bl_freq fmin fmax DMz freq bl mapsize n with
    | Ok k => fmin <= freq <= fmax /\ 10 ^ 6 <= freq /\ length k = n /\ (0 < DMz freq -> 0 < mapsize -> forall i, (S i < n)%nat -> nth (S i) k 0 - nth i k 0 = 2 * PI / DMz freq / (2 * mapsize) /\ nth i k 0 < nth (S i) k 0)
    | Err e => e = ValueError /\ (freq < 10 ^ 6 \/ freq < fmin \/ fmax < freq)
    end.
Proof.
  intros fmin fmax DMz freq bl mapsize n. unfold kperp4bl_freq, require. destruct (Rlt_dec (freq / 10 ^ 6) 1) as [H | H]; [split; [reflexivity | left; lra] |]. destruct (Rle_dec fmin freq) as [A | A]; [| split; [reflexivity | right; left; lra]]. destruct (Rle_dec freq fmax) as [B | B]; [| split; [reflexivity | right; right; lra]].
  split; [lra |]. split; [lra |]. split; [rewrite map_length, seq_length; reflexivity |]. intros D M i Hi. set (f := kperp4bl (DMz freq) freq bl mapsize n). assert (X : forall j, (j < n)%nat -> nth j (map f (seq 0 n)) 0 = f j) by (intros j Hj; rewrite (nth_indep _ 0 (f 0%nat)) by (rewrite map_length, seq_length; exact Hj); rewrite map_nth, seq_nth by exact Hj; reflexivity).
  rewrite !X by lia. assert (E : f (S i) - f i = 2 * PI / DMz freq / (2 * mapsize)). { unfold f, kperp4bl, fourier_dual. replace (n - 1 - i)%nat with (S (n - 1 - S i)) by lia. rewrite S_INR. field. repeat split; try lra; try (unfold u_c; lra); apply Rgt_not_eq, sqrt_lt_R0; lra. }
  split; [exact E |]. assert (0 < 2 * PI / DMz freq / (2 * mapsize)) by (pose proof PI_RGT_0; repeat apply Rdiv_lt_0_compat; lra). lra.
Qed.
(** The centre of the beam (pixel n/2 of a Fourier transform) is at the k_perp of the baseline for an odd number of pixels *)
Theorem beam_centre_odd_partial :
  forall DMz freq bl mapsize n, Nat.odd n = true -> DMz <> 0 -> mapsize <> 0 -> kperp4bl DMz freq bl mapsize n (n / 2) = 2 * PI / DMz * (freq * bl / u_c / sqrt 2).
Proof.
  intros DMz freq bl mapsize n O D M. unfold kperp4bl, fourier_dual. apply Nat.odd_spec in O as [m ->]. replace ((2 * m + 1) / 2)%nat with m by (rewrite Nat.mul_comm, Nat.div_add_l by lia; cbn; lia). replace (2 * m + 1 - 1 - m)%nat with m by lia. unfold Rminus at 2. rewrite Rplus_opp_r. unfold Rdiv at 4. rewrite Rmult_0_l. ring.
Qed.
(** ... and one pixel beyond for an even number *)
Theorem beam_centre_even_refuted :
  forall DMz freq bl mapsize n, Nat.even n = true -> (0 < n)%nat -> 0 < DMz -> 0 < mapsize ->
    kperp4bl DMz freq bl mapsize n (n / 2) = 2 * PI / DMz * (freq * bl / u_c / sqrt 2) + 2 * PI / DMz / (2 * mapsize) /\ kperp4bl DMz freq bl mapsize n (n / 2) <> 2 * PI / DMz * (freq * bl / u_c / sqrt 2).
Proof.
  intros DMz freq bl mapsize n O N D M. assert (E : kperp4bl DMz freq bl mapsize n (n / 2) = 2 * PI / DMz * (freq * bl / u_c / sqrt 2) + 2 * PI / DMz / (2 * mapsize)).
  { unfold kperp4bl, fourier_dual. apply Nat.even_spec in O as [m ->]. assert (m <> 0)%nat by lia. replace ((2 * m) / 2)%nat with m by (rewrite Nat.mul_comm, Nat.div_mul by lia; reflexivity). replace (2 * m - 1 - m)%nat with (m - 1)%nat by lia. rewrite minus_INR by lia. cbn [INR]. field. repeat split; try lra; try (unfold u_c; lra); apply Rgt_not_eq, sqrt_lt_R0; lra. }
  split; [exact E |]. rewrite E. pose proof PI_RGT_0. assert (0 < 2 * PI / DMz / (2 * mapsize)) by (repeat apply Rdiv_lt_0_compat; lra). lra.
Qed.

(** ** interpolation onto the grid *)
Lemma hat_0 : hat 0 = 1.
Proof. unfold hat. rewrite Rabs_R0, Rminus_0_r. apply Rmax_right. lra. Qed.
Lemma hat_out t : 1 <= Rabs t -> hat t = 0.
Proof. intros H. unfold hat. apply Rmax_left. lra. Qed.
Lemma sumn_single n i (f : nat -> R) : (i < n)%nat -> (forall j, (j < n)%nat -> j <> i -> f j = 0) -> sumn n f = f i.
Proof.
  unfold sumn. revert i f. induction n as [| n IH]; intros i f H Z; [lia |]. rewrite seq_S, map_app. cbn [map Nat.add]. unfold rsum in *. rewrite fold_right_app. cbn [fold_right].
  assert (A : forall l x, fold_right Rplus x l = fold_right Rplus 0 l + x) by (induction l as [| y l IHl]; intros x; cbn; [ring | rewrite IHl; ring]). rewrite A. destruct (Nat.eq_dec i n) as [-> | Ne].
  - assert (E : fold_right Rplus 0 (map f (seq 0 n)) = 0). { assert (G : forall j, In j (seq 0 n) -> f j = 0) by (intros j J; apply in_seq in J; apply Z; lia). clear -G. induction (seq 0 n) as [| j l IH]; cbn; [reflexivity |]. rewrite G by (left; reflexivity). rewrite IH by (intros; apply G; right; assumption). ring. } rewrite E. ring.
  - rewrite (IH i f) by (try lia; intros j J Nj; apply Z; lia). rewrite (Z n) by lia. ring.
Qed.
Lemma hat_node h i j : 0 < h -> hat ((INR i * h - INR j * h) / h) = if Nat.eqb i j then 1 else 0.
Proof.
  intros H. replace ((INR i * h - INR j * h) / h) with (INR i - INR j) by (field; lra). destruct (Nat.eqb_spec i j) as [-> | N]; [rewrite Rminus_eq_0; apply hat_0 |]. apply hat_out. destruct (Nat.lt_ge_cases i j) as [L | L].
  - assert (INR i + 1 <= INR j) by (rewrite <- S_INR; apply le_INR; lia). rewrite Rabs_left1; lra.
  - assert (INR j + 1 <= INR i) by (rewrite <- S_INR; apply le_INR; lia). rewrite Rabs_right; lra.
Qed.
(** the interpolator gives the values of the beam at its own points *)
Theorem rgi_nodes : forall k0 h n v a b, 0 < h -> (a < n)%nat -> (b < n)%nat -> rgi k0 h n v (k0 + INR a * h) (k0 + INR b * h) = v a b.
Proof.
  intros k0 h n v a b H A B. unfold rgi. assert (I : forall c, (c < n)%nat -> inside k0 h n (k0 + INR c * h) = true).
  { intros c C. unfold inside. pose proof (pos_INR c). assert (INR c <= INR (n - 1)) by (apply le_INR; lia). destruct (Rle_dec k0 (k0 + INR c * h)); [| exfalso; nra]. destruct (Rle_dec _ _); [reflexivity | exfalso; nra]. }
  rewrite !I by assumption. cbn [andb]. rewrite (sumn_single n a).
  - rewrite (sumn_single n b); [| exact B |]; intros; replace (k0 + INR a * h - (k0 + INR a * h)) with (INR a * h - INR a * h) by ring; rewrite (hat_node h a a H), Nat.eqb_refl.
    + replace (k0 + INR b * h - (k0 + INR b * h)) with (INR b * h - INR b * h) by ring. rewrite (hat_node h b b H), Nat.eqb_refl. ring.
    + replace (k0 + INR b * h - (k0 + INR j * h)) with (INR b * h - INR j * h) by ring. rewrite (hat_node h b j H). destruct (Nat.eqb_spec b j); [congruence | ring].
  - exact A.
  - intros j J N. unfold sumn. replace (k0 + INR a * h - (k0 + INR j * h)) with (INR a * h - INR j * h) by ring. rewrite (hat_node h a j H). destruct (Nat.eqb_spec a j); [congruence |].
    clear. unfold rsum. induction (seq 0 n) as [| i l IH]; [reflexivity |]. cbn [map fold_right]. rewrite IH. ring.
Qed.
(** Each row of the interpolated beam is its diagonal: right only at equal indices *)
Theorem interp_ft_partial : forall A g a b, (forall a', interp_ft A g a b = interp_ft A g a' b) /\ interp_ft A g a a = A (nth a g 0) (nth a g 0).
Proof. intros A g a b. split; reflexivity. Qed.
Theorem interp_ft_refuted :
  ~ (forall k0 h n v g a b, 0 < h -> (a < length g)%nat -> (b < length g)%nat -> interp_ft (rgi k0 h n v) g a b = rgi k0 h n v (nth a g 0) (nth b g 0)).
Proof.
  intros H. specialize (H 0 1 2%nat (fun i j => if Nat.eqb i 0 then if Nat.eqb j 1 then 1 else 0 else 0) [0 + INR 0 * 1; 0 + INR 1 * 1] 0%nat 1%nat ltac:(lra) ltac:(cbn; lia) ltac:(cbn; lia)). unfold interp_ft in H. cbn [nth] in H. rewrite !rgi_nodes in H by (lra || lia). cbn in H. lra.
Qed.

(** ** k_perp bins *)
Lemma rsum_app l m : rsum (l ++ m) = rsum l + rsum m.
Proof. unfold rsum. induction l as [| a l IH]; cbn; [ring | rewrite IH; ring]. Qed.
Lemma telescope (f : nat -> R) n : rsum (map (fun b => f (S b) - f b) (seq 0 n)) = f n - f 0%nat.
Proof. induction n as [| n IH]; [unfold rsum; cbn; ring |]. rewrite seq_S, map_app, rsum_app, IH. unfold rsum. cbn. ring. Qed.
Lemma rsum_pos l : l <> [] -> (forall x, In x l -> 0 < x) -> 0 < rsum l.
Proof. intros N H. destruct l as [| a l]; [congruence |]. clear N. revert a H. unfold rsum. induction l as [| b l IH]; intros a H; cbn in *; [specialize (H a (or_introl eq_refl)); lra |]. specialize (IH b ltac:(intros x I; apply H; right; exact I)). specialize (H a (or_introl eq_refl)). cbn in IH. lra. Qed.
Lemma rsum_flat {A} (F : A -> list R) l : rsum (flat_map F l) = rsum (map (fun a => rsum (F a)) l).
Proof. induction l as [| a l IH]; [reflexivity |]. cbn [flat_map map]. rewrite rsum_app, IH. reflexivity. Qed.
Lemma mean_step_eq g : mean_step g = rsum (map (fun a => kperp_norm g a (length g - 1) - kperp_norm g a 0) (seq 0 (length g))) / (INR (length g) * INR (length g - 1)).
Proof. unfold mean_step. rewrite rsum_flat. f_equal. f_equal. apply map_ext. intros a. apply (telescope (kperp_norm g a)). Qed.
Lemma dk_bins_pos kfac dk width bl g : 0 < dk -> get_kgrid kfac dk width bl = Ok g -> dk / 2 < kfac * bl / sqrt 2 -> 0 < dk_bins g.
Proof.
  intros D G C. pose proof (kgrid_spec kfac dk width bl D) as S. rewrite G in S. destruct S as (W & N & X & Y & _). unfold dk_bins. rewrite mean_step_eq. apply Rmult_lt_0_compat; [| lra]. apply Rdiv_lt_0_compat.
  - apply rsum_pos; [destruct (length g); [lia | discriminate] |]. intros x I. apply in_map_iff in I as (a & <- & _). unfold kperp_norm. assert (X0 : nth 0 g 0 = kfac * bl / sqrt 2 - width) by (rewrite (X 0%nat) by lia; cbn; ring). apply Rlt_Rminus. apply sqrt_lt_1_alt. split; [nra |]. rewrite X0. set (c := kfac * bl / sqrt 2) in *. set (l := nth (length g - 1) g 0) in *. assert (0 < (l - (c - width)) * (l + (c - width))) by (apply Rmult_lt_0_compat; lra). nra.
  - apply Rmult_lt_0_compat; apply lt_0_INR; lia.
Qed.
Lemma bins_of_eq d kmax : 0 < d -> 0 <= kmax -> exists n, bins_of d kmax = linspace (3 / 2 * d) d n /\ (1 <= n)%nat /\ kmax + 9 * d <= d + INR n * d < kmax + 10 * d.
Proof.
  intros D K. destruct (arange_spec d (kmax + 10 * d) d D ltac:(lra)) as (m & E & M & B). assert (M1 : (2 <= m)%nat). { assert (1 < INR m) by nra. change 1 with (INR 1) in H. apply INR_lt in H. lia. } exists (m - 1)%nat. split; [| split; [lia | rewrite minus_INR in * by lia; cbn [INR] in *; lra]].
  unfold bins_of. rewrite E. destruct m as [| M']; [lia |]. replace (S M' - 1)%nat with M' by lia. set (g := fun i => d + INR i * d). assert (TL : tl (map g (seq 0 (S M'))) = map g (seq 1 M')) by reflexivity. rewrite TL.
  assert (RL : removelast (map g (seq 0 (S M'))) = map g (seq 0 M')) by (rewrite seq_S, map_app; cbn [map app]; apply removelast_last). rewrite RL. unfold linspace. rewrite <- seq_shift, map_map. clear. generalize (seq 0 M'). induction l as [| i l IH]; [reflexivity |]. cbn [map combine fst snd]. rewrite IH. f_equal. unfold g. rewrite S_INR. field.
Qed.
Lemma maxl_ge l x : In x l -> x <= maxl l.
Proof. unfold maxl. generalize (hd 0 l). induction l as [| a l IH]; intros r; [intros [] |]. cbn [fold_right]. intros [<- | I]; [apply Rmax_l | eapply Rle_trans; [apply IH, I | apply Rmax_r]]. Qed.
Lemma minl_le l x : In x l -> minl l <= x.
Proof. unfold minl. generalize (hd 0 l). induction l as [| a l IH]; intros r; [intros [] |]. cbn [fold_right]. intros [<- | I]; [apply Rmin_l | eapply Rle_trans; [apply Rmin_r | apply IH, I]]. Qed.
Lemma minl_in l : l <> [] -> In (minl l) l.
Proof.
  intros N. unfold minl. destruct l as [| a l]; [congruence |]. cbn [hd]. assert (G : forall m r, In r (a :: l) -> (forall x, In x m -> In x (a :: l)) -> In (fold_right Rmin r m) (a :: l)).
  { induction m as [| y m IH]; intros r Hr Hm; cbn [fold_right]; [exact Hr |]. unfold Rmin at 1. destruct (Rle_dec y _); [apply Hm; left; reflexivity | apply IH; [exact Hr | intros x I; apply Hm; right; exact I]]. }
  apply G; [left; reflexivity | auto].
Qed.
(** If the shortest baseline has a k_perp above sqrt 2 / 2 of the Fourier spacing, the bins are equally spaced and positive, and the k_perp of every baseline that is at least one
    bin width lies in exactly one of them *)
Theorem kperp_bins_spec :
  forall kfac dk width lens bins, 0 < dk -> 0 < kfac -> (forall b, In b lens -> 0 <= b) -> (forall b, In b lens -> dk / 2 < kfac * b / sqrt 2) -> kperp_bins kfac dk width lens = Ok bins ->
    exists d n, 0 < d /\ (1 <= n)%nat /\ bins = linspace (3 / 2 * d) d n /\
      forall b, In b lens -> d <= kfac * b -> exists m, (m < n)%nat /\ in_edges (bin_edges (3 / 2 * d) d n) m (kfac * b) = true /\ forall m', (m' < n)%nat -> in_edges (bin_edges (3 / 2 * d) d n) m' (kfac * b) = true -> m' = m.
Proof.
  intros kfac dk width lens bins D K Pos C H. unfold kperp_bins in H. destruct lens as [| b0 lens']; [discriminate |]. set (lens := b0 :: lens') in *. assert (NE : lens <> []) by discriminate. destruct (get_kgrid kfac dk width (minl lens)) as [g |] eqn:G; [| discriminate]. cbn [bind] in H. injection H as <-.
  pose proof (dk_bins_pos kfac dk width (minl lens) g D G (C _ (minl_in lens NE))) as Dp. set (d := dk_bins g) in *. assert (Kp : 0 <= kfac * maxl lens). { apply Rmult_le_pos; [lra |]. eapply Rle_trans; [apply Pos; left; reflexivity | apply maxl_ge; left; reflexivity]. }
  destruct (bins_of_eq d (kfac * maxl lens) Dp Kp) as (n & E & N & B). exists d, n. split; [exact Dp |]. split; [exact N |]. split; [exact E |]. intros b I L. destruct (bins_partition (3 / 2 * d) d n (kfac * b) Dp N) as (P1 & P2 & _).
  assert (U : kfac * b <= kfac * maxl lens) by (apply Rmult_le_compat_l; [lra | apply maxl_ge, I]). destruct (proj1 P1) as (m & Hm & Em). { rewrite minus_INR by lia. cbn [INR]. lra. } exists m. split; [exact Hm |]. split; [exact Em |]. intros m' Hm' Em'. apply (P2 m' m); assumption.
Qed.
(** Autocorrelations: the step is not positive, and k_perp = 0 is in no bin *)
Lemma sqrt_mono x y : 0 <= x -> x <= y -> sqrt x <= sqrt y.
Proof. intros. apply sqrt_le_1_alt. assumption. Qed.
Theorem kperp_bins_refuted :
  (forall kfac dk width g, 0 < dk -> get_kgrid kfac dk width 0 = Ok g -> dk_bins g <= 0) /\
  (forall d n m, 0 < d -> (m < n)%nat -> in_edges (bin_edges (3 / 2 * d) d n) m 0 = false).
Proof.
  split.
  - intros kfac dk width g D G. pose proof (kgrid_spec kfac dk width 0 D) as S. rewrite G in S. destruct S as (W & N & X & Y & _). rewrite Rmult_0_r in *. unfold Rdiv in X at 1. unfold Rdiv in Y. rewrite Rmult_0_l in *. unfold dk_bins. rewrite mean_step_eq.
    assert (P : 0 < INR (length g) * INR (length g - 1)) by (apply Rmult_lt_0_compat; apply lt_0_INR; lia). assert (L : rsum (map (fun a => kperp_norm g a (length g - 1) - kperp_norm g a 0) (seq 0 (length g))) <= 0).
    { generalize (seq 0 (length g)). intros l. unfold rsum. induction l as [| a l IH]; cbn [map fold_right]; [lra |]. assert (kperp_norm g a (length g - 1) <= kperp_norm g a 0); [| lra]. unfold kperp_norm. apply sqrt_mono; [nra |]. assert (X0 : nth 0 g 0 = 0 - width) by (rewrite (X 0%nat) by lia; cbn; ring). rewrite X0. set (e := nth (length g - 1) g 0) in *. nra. }
    unfold Rdiv. assert (0 < / (INR (length g) * INR (length g - 1))) by (apply Rinv_0_lt_compat, P). nra.
  - intros d n m D M. destruct (in_edges _ m 0) eqn:E; [| reflexivity]. apply in_edges_iff in E; [| exact D | exact M]. pose proof (pos_INR m). assert (0 <= INR m * d) by (apply Rmult_le_pos; lra). lra.
Qed.
Example kperp_nonvacuous : exists bins, kperp_bins 1 1 3 [10; 20] = Ok bins /\ 1 / 2 < 1 * 10 / sqrt 2.
Proof.
  unfold kperp_bins, get_kgrid. destruct (Rle_dec 3 1); [lra |]. cbn [require bind]. eexists. split; [reflexivity |]. assert (S : sqrt 2 * sqrt 2 = 2) by (apply sqrt_sqrt; lra). assert (0 < sqrt 2) by (apply sqrt_lt_R0; lra). apply Rmult_lt_reg_r with (sqrt 2); [assumption |]. replace (1 * 10 / sqrt 2 * sqrt 2) with 10 by (field; lra). nra.
Qed.
Print Assumptions kgrid_spec. Print Assumptions kgrid_covers_refuted. Print Assumptions kperp4bl_spec. Print Assumptions beam_centre_odd_partial. Print Assumptions beam_centre_even_refuted. Print Assumptions rgi_nodes. Print Assumptions interp_ft_refuted. Print Assumptions kperp_bins_spec. Print Assumptions kperp_bins_refuted.
(** points outside the grid get the fill value 0, in either coordinate *)
Theorem rgi_outside : forall k0 h n v x y, (x < k0 \/ k0 + INR (n - 1) * h < x \/ y < k0 \/ k0 + INR (n - 1) * h < y) -> rgi k0 h n v x y = 0.
Proof.
  intros k0 h n v x y H. unfold rgi. assert (I : (inside k0 h n x && inside k0 h n y)%bool = false); [| rewrite I; reflexivity].
  unfold inside. destruct (Rle_dec k0 x), (Rle_dec x (k0 + INR (n - 1) * h)), (Rle_dec k0 y), (Rle_dec y (k0 + INR (n - 1) * h)); try reflexivity. exfalso. lra.
Qed.
Example rgi_outside_ex : rgi 0 1 2 (fun _ _ => 1) 3 0 = 0.
Proof. apply rgi_outside. right. left. cbn. lra. Qed.
Print Assumptions rgi_outside.
