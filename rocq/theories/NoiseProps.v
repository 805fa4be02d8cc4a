(** C41, C43, C45 and further error-bar properties. *)
From Coq Require Import String.
From Coq Require Import Reals Lra.
From Verif Require Import Prelude ListLemmas PyDict CNum NoiseModel.
Open Scope R_scope.

(** ** The thermal noise power *)
(** the radiometer-equation noise of one spectrum: brightness error T^2 per unit time, averaged over n independent spectra *)
Definition radiometer (scalar T_mK time n : R) : R := scalar * T_mK ^ 2 / time / sqrt n.
Definition is_form f := f = "Pk"%string \/ f = "DelSq"%string.
Definition is_part c := c = "real"%string \/ c = "imag"%string.
Ltac strdec := repeat match goal with |- context [string_dec ?a ?b] => destruct (string_dec a b); subst; try congruence; try discriminate end.
Theorem P_N_value :
  forall s T t nc ni k c, 0 < t -> 0 < nc -> (forall n, ni = Some n -> 0 < n) ->
    let base := radiometer s (1000 * T) (t * nc) (match ni with Some n => n | None => 1 end) in
    (c = "abs"%string -> calc_P_N s T t nc ni "Pk" k c = Ok base) /\
    (is_part c -> calc_P_N s T t nc ni "Pk" k c = Ok (base / sqrt 2)) /\
    (forall p kk, calc_P_N s T t nc ni "Pk" k c = Ok p -> calc_P_N s T t nc ni "DelSq" (Some kk) c = Ok (p * kk ^ 3 / (2 * PI ^ 2))).
Proof.
  intros s T t nc ni k c Ht Hn Hi base.
  assert (B : (match ni with Some n => s * (T * 1000) ^ 2 / (t * nc) / sqrt n | None => s * (T * 1000) ^ 2 / (t * nc) end) = base).
  { unfold base, radiometer. destruct ni as [n |]; [| rewrite sqrt_1]; unfold Rdiv; ring_simplify; [ring | rewrite Rinv_1; ring]. }
  split; [| split].
  - intros ->. unfold calc_P_N. cbn. rewrite <- B. reflexivity.
  - intros [-> | ->]; unfold calc_P_N; cbn; rewrite <- B; reflexivity.
  - intros p kk H. unfold calc_P_N in *. apply require_ok in H. destruct H as [_ H]. apply require_ok in H. destruct H as [E H].
    cbn [require string_dec] in *. rewrite E. cbn in *. injection H as <-. reflexivity.
Qed.
(** what is refused *)
Theorem P_N_accepts :
  forall s T t nc ni form k c,
    (exists p, calc_P_N s T t nc ni form k c = Ok p) <->
    (is_form form /\ (c = "abs"%string \/ is_part c) /\ (form = "DelSq"%string -> k <> None)).
Proof.
  intros. unfold calc_P_N, is_form, is_part. split.
  - intros (p & H). apply require_ok in H. destruct H as [E1 H]. apply require_ok in H. destruct H as [E2 H]. revert E1 E2 H.
    destruct (string_dec form "Pk"), (string_dec form "DelSq"); try congruence; intros; try discriminate;
      (split; [auto |]; split; [revert E2; destruct (string_dec c "abs"), (string_dec c "real"), (string_dec c "imag"); auto; discriminate |]);
      [congruence |]. intros _ ->. discriminate.
  - intros (F & C & K). destruct (string_dec form "Pk") as [-> | N1]; [| destruct (string_dec form "DelSq") as [-> | N2]; [| destruct F; congruence]]; cbn [require];
      destruct (string_dec c "abs"), (string_dec c "real"), (string_dec c "imag"); try (destruct C as [? | [? | ?]]; congruence); cbn [require];
      try (destruct k; [| exfalso; apply K; reflexivity]); eexists; reflexivity.
Qed.
Lemma real_P_N s T t nc n k : 0 < t -> 0 < nc -> 0 < n -> calc_P_N s T t nc (Some n) "Pk" k "real" = Ok (radiometer s (1000 * T) (t * nc) n / sqrt 2).
Proof. intros. apply (P_N_value s T t nc (Some n) k "real"); auto; [intros m E; injection E as <-; assumption | left; reflexivity]. Qed.
(** scaling laws *)
Theorem P_N_scaling :
  forall s T t nc n a, 0 < t -> 0 < nc -> 0 < n -> 0 < a ->
    let P s T t nc n := radiometer s (1000 * T) (t * nc) n / sqrt 2 in
    (forall s' T' t' nc' n', 0 < t' -> 0 < nc' -> 0 < n' -> calc_P_N s' T' t' nc' (Some n') "Pk" None "real" = Ok (P s' T' t' nc' n')) /\
    P (a * s) T t nc n = a * P s T t nc n /\ P s (a * T) t nc n = a ^ 2 * P s T t nc n /\
    P s T (a * t) nc n = P s T t nc n / a /\ P s T t (a * nc) n = P s T t nc n / a /\ P s T t nc (a * n) = P s T t nc n / sqrt a.
Proof.
  intros s T t nc n a Ht Hc Hn Ha P. pose proof (sqrt_lt_R0 _ Ha). pose proof (sqrt_lt_R0 _ Hn). assert (0 < sqrt 2) by (apply sqrt_lt_R0; lra).
  split; [intros; apply real_P_N; assumption |]. unfold P, radiometer. rewrite (sqrt_mult a n) by lra. repeat split; field; lra.
Qed.
(** Averaging n spectra of independent errors sigma gives error sqrt(n sigma^2)/n: what nsample = n reports. *)
Theorem P_N_incoherent_average :
  forall s T t n, 0 < t -> 0 < n ->
    exists sigma p, calc_P_N s T t 1 (Some 1) "Pk" None "real" = Ok sigma /\ calc_P_N s T t 1 (Some n) "Pk" None "real" = Ok p /\
      (0 <= s -> p = sqrt (n * sigma ^ 2) / n).
Proof.
  intros s T t n Ht Hn. do 2 eexists. split; [apply real_P_N; lra |]. split; [apply real_P_N; lra |]. intros Hs.
  set (g := radiometer s (1000 * T) (t * 1) 1 / sqrt 2). assert (S2 : 0 < sqrt 2) by (apply sqrt_lt_R0; lra).
  assert (G : 0 <= g).
  { unfold g, radiometer. rewrite sqrt_1. pose proof (pow2_ge_0 (1000 * T)) as Q. assert (0 <= s * (1000 * T) ^ 2) by (apply Rmult_le_pos; assumption).
    unfold Rdiv. apply Rmult_le_pos; [| apply Rlt_le, Rinv_0_lt_compat; assumption]. apply Rmult_le_pos; [| rewrite Rinv_1; lra]. apply Rmult_le_pos; [assumption |]. apply Rlt_le, Rinv_0_lt_compat; lra. }
  rewrite sqrt_mult by (try lra; apply pow2_ge_0). rewrite sqrt_pow2 by assumption. unfold g, radiometer. rewrite sqrt_1. pose proof (sqrt_lt_R0 _ Hn) as Sn.
  replace (sqrt n * (s * (1000 * T) ^ 2 / (t * 1) / 1 / sqrt 2) / n) with (sqrt n * (s * (1000 * T) ^ 2 / (t * 1) / 1 / sqrt 2) / (sqrt n * sqrt n)) by (rewrite (sqrt_sqrt n); lra).
  field. lra.
Qed.
(** real and imaginary parts add in quadrature to the error of the complex spectrum *)
Theorem P_N_components :
  forall s T t nc ni pa pr pi, 0 < t -> 0 < nc -> (forall n, ni = Some n -> 0 < n) ->
    calc_P_N s T t nc ni "Pk" None "abs" = Ok pa -> calc_P_N s T t nc ni "Pk" None "real" = Ok pr -> calc_P_N s T t nc ni "Pk" None "imag" = Ok pi ->
    pr ^ 2 + pi ^ 2 = pa ^ 2 /\ pr = pi.
Proof.
  intros s T t nc ni pa pr pi Ht Hn Hi A B C.
  destruct (P_N_value s T t nc ni None "abs" Ht Hn Hi) as (A' & _). destruct (P_N_value s T t nc ni None "real" Ht Hn Hi) as (_ & B' & _). destruct (P_N_value s T t nc ni None "imag" Ht Hn Hi) as (_ & C' & _).
  rewrite A' in A by reflexivity. rewrite B' in B by (left; reflexivity). rewrite C' in C by (right; reflexivity). injection A as <-. injection B as <-. injection C as <-.
  split; [| reflexivity]. assert (S2 : 0 < sqrt 2) by (apply sqrt_lt_R0; lra). set (b := radiometer _ _ _ _).
  replace ((b / sqrt 2) ^ 2 + (b / sqrt 2) ^ 2) with (2 * b ^ 2 / (sqrt 2 * sqrt 2)) by (field; lra). rewrite sqrt_sqrt by lra. field.
Qed.

(** ** generate_noise_spectra *)
(** the value for one delay bin of one row *)
Definition row_noise (scalar T : R) (r : nrow) : R := radiometer scalar (1000 * T) (ntint r) (nnsamp r).
Lemma noise_rows_spec scalar form c nd rs : forall Ts xs, noise_rows scalar form c nd Ts rs = Ok xs ->
  (length rs <= length Ts)%nat /\ length xs = length rs /\
  forall j r T, nth_error rs j = Some r -> nth_error Ts j = Some T -> exists x, nth_error xs j = Some x /\ noise_row scalar form c nd T r = Ok x.
Proof.
  induction rs as [| r rs IH]; intros Ts xs H; cbn in H.
  - injection H as <-. split; [cbn; lia |]. split; [reflexivity |]. intros [|] r T E; discriminate.
  - destruct Ts as [| T Ts]; [discriminate |]. apply bind_ok in H. destruct H as (x & Hx & H). apply bind_ok in H. destruct H as (xs' & Hxs & H). injection H as <-.
    destruct (IH Ts xs' Hxs) as (A & B & C). split; [cbn; lia |]. split; [cbn; lia |]. intros [| j] r0 T0 E E0; cbn in *; [injection E as <-; injection E0 as <-; eauto | eauto].
Qed.
Theorem noise_spectra_rows :
  forall o scalar l blps form c out, generate_noise_spectra o scalar (AVal (TArr l)) blps form c = Ok out ->
    (forall r, In r (nrows o) -> 0 < ntint r /\ 0 < nnsamp r) -> is_part c -> length l = nNtpairs o ->
    map fst out = blps /\
    forall blp xs, In (blp, xs) out -> length xs = length (rows_of o blp) /\
      forall j r T, nth_error (rows_of o blp) j = Some r -> nth_error l j = Some T ->
        exists x, nth_error xs j = Some x /\
          (form = "Pk"%string -> x = repeat (row_noise scalar T r / sqrt 2) (nNdlys o)) /\
          (form = "DelSq"%string -> x = map (fun k => row_noise scalar T r / sqrt 2 * k ^ 3 / (2 * PI ^ 2)) (nk r)).
Proof.
  intros o scalar l blps form c out H Pos Part Len. unfold generate_noise_spectra in H. apply map_res_spec in H.
  assert (One : forall blp y, noise_blp o scalar (AVal (TArr l)) form c blp = Ok y -> exists xs, y = (blp, xs) /\ noise_rows scalar form c (nNdlys o) l (rows_of o blp) = Ok xs).
  { intros blp y E. unfold noise_blp in E. apply require_ok in E. destruct E as [_ E]. cbn [tsys_of bind] in E. apply require_ok in E. destruct E as [_ E].
    apply bind_ok in E. destruct E as (xs & Hx & E). injection E as <-. eauto. }
  split.
  - induction H as [| b y bs ys E H IH]; [reflexivity |]. cbn. destruct (One b y E) as (xs & -> & _). cbn. rewrite IH. reflexivity.
  - intros blp xs Hin. assert (E : noise_rows scalar form c (nNdlys o) l (rows_of o blp) = Ok xs).
    { induction H as [| b y bs ys E H IH]; [destruct Hin |]. destruct Hin as [Ey | Hin]; [subst y | apply IH; assumption]. destruct (One b _ E) as (xs' & E' & Hx). injection E' as -> ->. assumption. }
    destruct (noise_rows_spec _ _ _ _ _ _ _ E) as (_ & L & N). split; [assumption |]. intros j r T Hr HT. destruct (N j r T Hr HT) as (x & Hx & Ex). exists x. split; [assumption |].
    assert (HrIn : In r (nrows o)) by (apply nth_error_In in Hr; apply filter_In in Hr; tauto). destruct (Pos r HrIn) as [P1 P2].
    assert (V : calc_P_N scalar T (ntint r) 1 (Some (nnsamp r)) "Pk" None c = Ok (row_noise scalar T r / sqrt 2)).
    { destruct (P_N_value scalar T (ntint r) 1 (Some (nnsamp r)) None c P1 ltac:(lra)) as (_ & V & _); [intros n En; injection En as <-; assumption |].
      rewrite V by assumption. unfold row_noise. rewrite Rmult_1_r. reflexivity. }
    unfold noise_row in Ex. split; intros ->.
    + cbn [string_dec] in Ex. destruct (string_dec "Pk" "DelSq"); [discriminate |]. rewrite V in Ex. cbn [bind] in Ex. injection Ex as <-. rewrite Rmult_1_l. reflexivity.
    + destruct (string_dec "DelSq" "DelSq") as [_ | C]; [| congruence].
      assert (VD : forall k, calc_P_N scalar T (ntint r) 1 (Some (nnsamp r)) "DelSq" (Some k) c = Ok (row_noise scalar T r / sqrt 2 * k ^ 3 / (2 * PI ^ 2))).
      { intros k. destruct (P_N_value scalar T (ntint r) 1 (Some (nnsamp r)) None c P1 ltac:(lra)) as (_ & _ & D); [intros n En; injection En as <-; assumption |]. apply D. exact V. }
      apply map_res_spec in Ex. clear - Ex VD. induction Ex as [| k y ks ys E _ IH]; [reflexivity |]. cbn. rewrite VD in E. injection E as <-. rewrite IH. reflexivity.
Qed.
(** When a call with one temperature succeeds: known baseline-pairs with at most Ntpairs rows and known options. *)
Theorem noise_spectra_accepts_float :
  forall o scalar T blps c, is_part c ->
    ((exists out, generate_noise_spectra o scalar (AVal (TFloat T)) blps "Pk" c = Ok out) <->
     forall blp, In blp blps -> (0 < length (rows_of o blp) <= nNtpairs o)%nat).
Proof.
  intros o scalar T blps c Part. assert (OK : forall t r, exists x, noise_row scalar "Pk" c (nNdlys o) t r = Ok x).
  { intros t r. unfold noise_row. destruct (string_dec "Pk" "DelSq"); [discriminate |].
    destruct (proj2 (P_N_accepts scalar t (ntint r) 1 (Some (nnsamp r)) "Pk" None c)) as [p Hp]; [split; [left; reflexivity | split; [right; assumption | discriminate]] |].
    rewrite Hp. cbn. eauto. }
  assert (NR : forall rs Ts, (length rs <= length Ts)%nat -> exists xs, noise_rows scalar "Pk" c (nNdlys o) Ts rs = Ok xs).
  { induction rs as [| r rs IH]; intros Ts L; [eexists; reflexivity |]. destruct Ts as [| t Ts]; [cbn in L; lia |]. cbn [noise_rows]. destruct (OK t r) as [x ->]. cbn [bind].
    destruct (IH Ts) as [xs ->]; [cbn in L; lia |]. cbn. eauto. }
  split.
  - intros (out & H) blp Hin. unfold generate_noise_spectra in H. apply map_res_spec in H.
    assert (E : exists y, noise_blp o scalar (AVal (TFloat T)) "Pk" c blp = Ok y) by (induction H as [| b y bs ys E H IH]; [destruct Hin |]; destruct Hin as [-> | Hin]; [eauto | auto]).
    destruct E as [y E]. unfold noise_blp in E. apply require_ok in E. destruct E as [E0 E]. cbn [tsys_of bind] in E. apply require_ok in E. destruct E as [_ E].
    apply bind_ok in E. destruct E as (xs & Hx & _). destruct (noise_rows_spec _ _ _ _ _ _ _ Hx) as (L & _). rewrite repeat_length in L.
    destruct (rows_of o blp) as [| r0 rs0]; [discriminate |]. cbn [length] in *. lia.
  - intros H. apply map_res_total, Forall_forall. intros blp Hin. specialize (H blp Hin). unfold noise_blp. destruct (rows_of o blp) as [| r rs] eqn:E; [cbn in H; lia |]. rewrite <- E in *.
    replace (Nat.eqb (length (rows_of o blp)) 0) with false by (symmetry; apply Nat.eqb_neq; lia). cbn [negb require tsys_of bind]. rewrite repeat_length, Nat.eqb_refl. cbn [require].
    destruct (NR (rows_of o blp) (repeat T (nNtpairs o))) as [xs ->]; [rewrite repeat_length; lia |]. cbn. eauto.
Qed.
(** Documented inputs that fail: a dictionary of numbers, and an array with one value per row of a baseline-pair that lacks some times. *)
Theorem noise_spectra_dict_refuted :
  exists o d, generate_noise_spectra o 1 (ADict d) [7%Z] "Pk" "real" = Err TypeError /\ d = [(7%Z, TFloat 100)] /\ rows_of o 7 <> [].
Proof. exists (mknobj [mknrow 7 1 1 []] 1 1). eexists. split; [| split; [reflexivity | discriminate]]. reflexivity. Qed.
Theorem noise_spectra_missing_times_refuted :
  exists o l, length l = length (rows_of o 7) /\ generate_noise_spectra o 1 (AVal (TArr l)) [7%Z] "Pk" "real" = Err AssertionError.
Proof. exists (mknobj [mknrow 7 1 1 []; mknrow 8 1 1 []; mknrow 8 1 1 []] 2 1), [100]. split; reflexivity. Qed.
(** the documented extra factor 1/2 for pseudo-Stokes polarizations is not applied: the noise does not depend on the polarization *)
Definition documented_noise (stokes : bool) (scalar T : R) (r : nrow) : R := row_noise scalar T r / sqrt 2 / (if stokes then 2 else 1).
Theorem noise_spectra_stokes_refuted :
  exists o scalar T r x, generate_noise_spectra o scalar (AVal (TFloat T)) [7%Z] "Pk" "real" = Ok [(7%Z, [[x]])] /\ nrows o = [r] /\ x <> documented_noise true scalar T r.
Proof.
  set (r := mknrow 7 1 1 []). assert (V : calc_P_N 1 1 1 1 (Some 1) "Pk" None "real" = Ok (radiometer 1 (1000 * 1) (1 * 1) 1 / sqrt 2)) by (apply real_P_N; lra).
  exists (mknobj [r] 1 1), 1, 1, r, (1 * (radiometer 1 (1000 * 1) (1 * 1) 1 / sqrt 2)). split; [| split; [reflexivity |]].
  - unfold generate_noise_spectra, noise_blp, r. cbn [map_res rows_of filter nrows nblp Z.eqb Pos.eqb length Nat.eqb negb require tsys_of bind repeat nNtpairs noise_rows].
    unfold noise_row. destruct (string_dec "Pk" "DelSq"); [discriminate |]. cbn [ntint nnsamp]. rewrite V. cbn. reflexivity.
  - unfold documented_noise, row_noise, radiometer, r. cbn [ntint nnsamp]. rewrite sqrt_1. assert (0 < sqrt 2) by (apply sqrt_lt_R0; lra).
    assert (0 < / sqrt 2) by (apply Rinv_0_lt_compat; assumption). unfold Rdiv. rewrite Rinv_1. nra.
Qed.

(** ** Signal-plus-noise error bars *)
Definition signal (d : R) : R := Rmax d 0.
Lemma P_SN_fin d n : 0 <= n -> P_SN d (Fin n) = Fin (sqrt (sqrt 2 * signal d * n + n ^ 2)).
Proof.
  intros Hn. unfold P_SN, signal. cbn [xmul xadd xsqrt nan_to_inf]. do 2 f_equal. destruct (Rlt_dec d 0) as [L | L]; [rewrite Rmax_right by lra | rewrite Rmax_left by lra]; ring.
Qed.
Theorem P_SN_laws :
  forall d n, 0 <= n ->
    exists s, P_SN d (Fin n) = Fin s /\ s ^ 2 = sqrt 2 * signal d * n + n ^ 2 /\ n <= s /\ s <= n + signal d / sqrt 2 /\ (0 < n -> (s = n <-> d <= 0)).
Proof.
  intros d n Hn. eexists. split; [apply P_SN_fin; assumption |]. assert (S2 : 0 < sqrt 2) by (apply sqrt_lt_R0; lra). assert (Q2 : sqrt 2 * sqrt 2 = 2) by (apply sqrt_sqrt; lra).
  assert (Sg : 0 <= signal d) by apply Rmax_r. set (x := sqrt 2 * signal d * n + n ^ 2).
  assert (X : n ^ 2 <= x) by (unfold x; assert (0 <= sqrt 2 * signal d * n) by (repeat apply Rmult_le_pos; lra); lra).
  assert (X0 : 0 <= x) by (pose proof (pow2_ge_0 n); lra). assert (SQ : sqrt x ^ 2 = x) by (cbn; rewrite Rmult_1_r; apply sqrt_sqrt; assumption). split; [assumption |]. pose proof (sqrt_pos x) as SP. split; [| split].
  - rewrite <- (sqrt_pow2 n Hn) at 1. apply sqrt_le_1; [apply pow2_ge_0 | assumption | assumption].
  - assert (D0 : 0 <= signal d / sqrt 2) by (apply Rmult_le_pos; [assumption | apply Rlt_le, Rinv_0_lt_compat; assumption]).
    rewrite <- (sqrt_pow2 (n + signal d / sqrt 2)) by lra. apply sqrt_le_1; [assumption | apply pow2_ge_0 |]. unfold x.
    replace ((n + signal d / sqrt 2) ^ 2) with (n ^ 2 + 2 / sqrt 2 * signal d * n + (signal d / sqrt 2) ^ 2) by (field; lra).
    replace (2 / sqrt 2) with (sqrt 2) by (rewrite <- Q2 at 2; field; lra). pose proof (pow2_ge_0 (signal d / sqrt 2)). lra.
  - intros Np. split.
    + intros E. rewrite E in SQ. unfold x in SQ. assert (Z : sqrt 2 * signal d * n = 0) by lra. apply Rmult_integral in Z. destruct Z as [Z | Z]; [| lra]. apply Rmult_integral in Z. destruct Z as [Z | Z]; [lra |].
      unfold signal in Z. destruct (Rle_lt_dec d 0); [assumption |]. rewrite Rmax_left in Z; lra.
    + intros Dn. assert (Z : signal d = 0) by (unfold signal; apply Rmax_right; assumption). unfold x. rewrite Z. replace (sqrt 2 * 0 * n + n ^ 2) with (n ^ 2) by ring. apply sqrt_pow2. assumption.
Qed.
Lemma sqrt_PI_gt1 : 1 < sqrt PI.
Proof. rewrite <- sqrt_1. apply sqrt_lt_1; pose proof PI2_1; lra. Qed.
Lemma kappa_bounds : 0 < kappa < 1 / 2.
Proof.
  unfold kappa. pose proof sqrt_PI_gt1 as P. assert (I : 0 < 1 / sqrt PI < 1). { split; [apply Rdiv_lt_0_compat; lra |]. unfold Rdiv. rewrite Rmult_1_l, <- Rinv_1. apply Rinv_lt_contravar; lra. }
  split.
  - assert (1 < sqrt (1 / sqrt PI + 1)); [| lra]. rewrite <- sqrt_1 at 1. apply sqrt_lt_1; lra.
  - assert (sqrt (1 / sqrt PI + 1) < 3 / 2); [| lra]. rewrite <- (sqrt_pow2 (3 / 2)) by lra. apply sqrt_lt_1; lra.
Qed.
(** The corrected error bar is the error minus kappa times the noise (kappa between 0 and 1/2): it stays positive and is smaller. *)
Theorem P_SN_correction_laws :
  forall d n, tiny <= n -> exists s s', P_SN d (Fin n) = Fin s /\ corrected (Fin n) (Fin s) = Fin s' /\ s' = s - kappa * n /\ s / 2 < s' < s.
Proof.
  intros d n Hn. assert (Ti : 0 < tiny) by (unfold tiny; apply Rinv_0_lt_compat, pow_lt; lra). destruct (P_SN_laws d n ltac:(lra)) as (s & E & _ & L & _). exists s.
  pose proof kappa_bounds as K. unfold corrected, correction. destruct (Rle_dec tiny s) as [_ | C]; [| lra].
  assert (Q : 0 < kappa * n / s <= 1 / 2). { split; [apply Rdiv_lt_0_compat; [apply Rmult_lt_0_compat |]; lra |]. apply (Rmult_le_reg_r s); [lra |]. unfold Rdiv at 1. rewrite Rmult_assoc, Rinv_l by lra. nra. }
  set (c := 1 - kappa * n / s) in *. unfold close0. destruct (Rle_dec (Rabs c) (/ 10 ^ 8)) as [B | _].
  { exfalso. rewrite Rabs_pos_eq in B by (unfold c; lra). assert (/ 10 ^ 8 < 1 / 2) by lra. unfold c in B. lra. }
  destruct (Rlt_dec c 0) as [B | _]; [unfold c in B; lra |]. exists (s * c). split; [assumption |]. split; [reflexivity |].
  assert (S' : s * c = s - kappa * n) by (unfold c; field; lra). split; [assumption |]. rewrite S'. nra.
Qed.
(** Whatever errors are stored, the correction never makes an error bar zero or negative: it becomes infinite instead. *)
Theorem P_SN_correction_positive :
  forall pn s, 0 < s -> corrected pn (Fin s) = Inf \/ exists s', corrected pn (Fin s) = Fin s' /\ 0 < s'.
Proof.
  intros pn s Hs. unfold corrected, correction. destruct pn as [n | |].
  - set (c := 1 - _). destruct (close0 c) eqn:E; [left | destruct (Rlt_dec c 0) as [Q | Q]; [left | right]].
    + cbn. destruct (Rlt_dec 0 s); [reflexivity | lra].
    + cbn. destruct (Rlt_dec 0 s); [reflexivity | lra].
    + exists (s * c). split; [reflexivity |]. apply Rmult_lt_0_compat; [assumption |]. destruct (Req_EM_T c 0) as [Z | Z]; [| lra].
      exfalso. unfold close0 in E. destruct (Rle_dec (Rabs c) (/ 10 ^ 8)) as [_ | N]; [discriminate |]. apply N. rewrite Z, Rabs_R0. apply Rlt_le, Rinv_0_lt_compat, pow_lt. lra.
  - left. cbn. destruct (Rlt_dec 0 s); [reflexivity | lra].
  - left. cbn. destruct (Rlt_dec 0 s); [reflexivity | lra].
Qed.
(** Flagged spectra (infinite noise) keep an infinite error bar, corrected or not. *)
Theorem P_SN_flagged : forall d, P_SN d Inf = Inf /\ corrected Inf Inf = Inf.
Proof.
  intros d. split; [| reflexivity]. unfold P_SN. cbn [xmul]. destruct (Rlt_dec 0 (sqrt 2 * (if Rlt_dec d 0 then 0 else d))); reflexivity.
Qed.
Theorem P_SN_monotone :
  forall d d' n n' s s', 0 <= n <= n' -> d <= d' -> P_SN d (Fin n) = Fin s -> P_SN d' (Fin n') = Fin s' -> s <= s'.
Proof.
  intros d d' n n' s s' Hn Hd E E'. rewrite P_SN_fin in E by lra. rewrite P_SN_fin in E' by lra. injection E as <-. injection E' as <-.
  assert (S2 : 0 < sqrt 2) by (apply sqrt_lt_R0; lra). assert (Sg : 0 <= signal d) by apply Rmax_r. assert (Sg' : signal d <= signal d') by (apply Rle_max_compat_r; assumption).
  apply sqrt_le_1_alt. apply Rplus_le_compat; [apply Rmult_le_compat; [apply Rmult_le_pos; lra | lra | apply Rmult_le_compat_l; lra | lra] | cbn; nra].
Qed.

(** ** Integration time of a product (C43) *)
Theorem integration_harmonic_mean :
  forall i1 i2, 0 < i1 -> 0 < i2 -> 1 / pol_integ i1 i2 = (1 / i1 + 1 / i2) / 2 /\ Rmin i1 i2 <= pol_integ i1 i2 <= Rmax i1 i2 /\ 0 < pol_integ i1 i2.
Proof.
  intros a b Ha Hb. unfold pol_integ. destruct (Rlt_dec 0 a); [| contradiction]. destruct (Rlt_dec 0 b); [| contradiction].
  assert (Ia : 0 < 1 / a) by (apply Rdiv_lt_0_compat; lra). assert (Ib : 0 < 1 / b) by (apply Rdiv_lt_0_compat; lra).
  assert (V : 2 / (1 / a + 1 / b) = 2 * a * b / (a + b)) by (field; lra). split; [field; split; [lra |]; split; lra |]. rewrite V.
  assert (G : forall x y, 0 < x -> x <= y -> x <= 2 * x * y / (x + y) <= y).
  { intros x y Hx Hy. split; apply (Rmult_le_reg_r (x + y)); try lra; unfold Rdiv; rewrite Rmult_assoc, Rinv_l by lra; nra. }
  split.
  - destruct (Rle_lt_dec a b) as [L | L]; [rewrite Rmin_left, Rmax_right by lra; apply G; lra |]. rewrite Rmin_right, Rmax_left by lra.
    replace (2 * a * b / (a + b)) with (2 * b * a / (b + a)) by (field; lra). apply G; lra.
  - apply Rdiv_lt_0_compat; [repeat apply Rmult_lt_0_compat |]; lra.
Qed.
Theorem integration_symmetric : forall i1 i2, pol_integ i1 i2 = pol_integ i2 i1.
Proof. intros. unfold pol_integ. destruct (Rlt_dec 0 i1), (Rlt_dec 0 i2); try reflexivity. f_equal. ring. Qed.
Theorem integration_equal : forall i, 0 <= i -> pol_integ i i = i.
Proof. intros i H. unfold pol_integ. destruct (Rlt_dec 0 i); [field; lra | lra]. Qed.
Theorem integration_zero : forall i1 i2, 0 <= i1 -> 0 <= i2 -> (pol_integ i1 i2 = 0 <-> i1 = 0 \/ i2 = 0).
Proof.
  intros a b Ha Hb. split.
  - intros E. destruct (Req_dec a 0); [auto |]. destruct (Req_dec b 0); [auto |]. destruct (integration_harmonic_mean a b) as (_ & _ & P); lra.
  - intros [-> | ->]; unfold pol_integ; [destruct (Rlt_dec 0 0); [lra | reflexivity] |]. destruct (Rlt_dec 0 a); [| reflexivity]. destruct (Rlt_dec 0 0); [lra | reflexivity].
Qed.
(** The noise variances (1/time) of the two visibilities average: doubling both times doubles the result. *)
Theorem integration_scales : forall k i1 i2, 0 < k -> 0 < i1 -> 0 < i2 -> pol_integ (k * i1) (k * i2) = k * pol_integ i1 i2.
Proof.
  intros k a b Hk Ha Hb. unfold pol_integ. assert (0 < k * a) by (apply Rmult_lt_0_compat; lra). assert (0 < k * b) by (apply Rmult_lt_0_compat; lra).
  destruct (Rlt_dec 0 (k * a)), (Rlt_dec 0 (k * b)), (Rlt_dec 0 a), (Rlt_dec 0 b); try contradiction. field. repeat split; lra.
Qed.
(** The mean nsample: that of the unflagged channels when weights are 0 or 1; 0 when all is flagged; the common value when constant. *)
Theorem mean_nsamp_constant :
  forall c ws, 1 <= rsum ws -> mean_nsamp (repeat c (length ws)) ws = c.
Proof.
  intros c ws H. unfold mean_nsamp, clip1. destruct (Rle_dec 1 (rsum ws)); [| contradiction].
  assert (E : rsum (map (fun p => fst p * snd p) (combine (repeat c (length ws)) ws)) = c * rsum ws).
  { clear. induction ws as [| w ws IH]; cbn in *; [unfold rsum; cbn; ring |]. unfold rsum in *. cbn. rewrite IH. ring. }
  rewrite E. field. lra.
Qed.
Theorem mean_nsamp_flagged : forall ns ws, Forall (fun w => w = 0) ws -> mean_nsamp ns ws = 0.
Proof.
  intros ns ws H. unfold mean_nsamp. assert (E : rsum (map (fun p => fst p * snd p) (combine ns ws)) = 0).
  { revert ns. induction H as [| w ws -> H IH]; intros [| n ns]; cbn; try reflexivity. unfold rsum in *. cbn. rewrite IH. ring. }
  rewrite E. unfold Rdiv. ring.
Qed.
(** when the weights add to less than one the sum is not divided by them; otherwise it is *)
Theorem mean_nsamp_clipped : forall ns ws, (rsum ws <= 1 -> mean_nsamp ns ws = rsum (map (fun p => fst p * snd p) (combine ns ws))) /\
  (1 <= rsum ws -> mean_nsamp ns ws * rsum ws = rsum (map (fun p => fst p * snd p) (combine ns ws))).
Proof.
  intros ns ws. unfold mean_nsamp, clip1. split; intros H; destruct (Rle_dec 1 (rsum ws)) as [L | L].
  - replace (rsum ws) with 1 by lra. field.
  - field.
  - field. lra.
  - contradiction.
Qed.
Theorem mean_nsamp_range :
  forall ns ws lo hi, length ns = length ws -> Forall (fun w => w = 0 \/ w = 1) ws -> Exists (fun w => w = 1) ws ->
    (forall n w, In (n, w) (combine ns ws) -> w = 1 -> lo <= n <= hi) -> lo <= mean_nsamp ns ws <= hi.
Proof.
  intros ns ws lo hi L F X B. assert (G : forall ns ws, length ns = length ws -> Forall (fun w => w = 0 \/ w = 1) ws -> (forall n w, In (n, w) (combine ns ws) -> w = 1 -> lo <= n <= hi) ->
     lo * rsum ws <= rsum (map (fun p => fst p * snd p) (combine ns ws)) <= hi * rsum ws /\ 0 <= rsum ws).
  { clear. intros ns ws. revert ns. induction ws as [| w ws IH]; intros [| n ns] L F B; cbn in *; try discriminate; [unfold rsum; cbn; lra |].
    inversion F as [| ? ? W F']; subst. destruct (IH ns) as [I1 I2]; [lia | assumption | intros n' w' H; apply B; auto |]. unfold rsum in *. cbn. destruct W as [-> | ->]; [lra |].
    pose proof (B n 1 (or_introl eq_refl) eq_refl). lra. }
  destruct (G ns ws L F B) as [G1 _].
  assert (S : 1 <= rsum ws). { clear - F X. induction X as [w ws -> | w ws X IH]; inversion F as [| ? ? W F']; subst; unfold rsum in *; cbn; [| destruct W as [-> | ->]; specialize (IH F'); lra].
    assert (0 <= fold_right Rplus 0 ws); [| lra]. clear - F'. induction F' as [| w ws W F IH]; cbn; [lra |]. destruct W as [-> | ->]; lra. }
  unfold mean_nsamp, clip1. destruct (Rle_dec 1 (rsum ws)); [| contradiction]. split; apply (Rmult_le_reg_r (rsum ws)); try lra; unfold Rdiv; rewrite Rmult_assoc, Rinv_l by lra; lra.
Qed.

(** ** Bias correction (C45) *)
Definition factor_of (d : option (list (Z * R))) (s : Z) : R := match d with Some d => match dget Z.eq_dec d s with Some c => c | None => 1 end | None => 1 end.
Lemma scale_scale a b l : scale a (scale b l) = scale (b * a) l.
Proof. unfold scale. rewrite map_map. apply map_ext. intros. ring. Qed.
Lemma scale_1 l : scale 1 l = l.
Proof. unfold scale. rewrite <- (map_id l) at 2. apply map_ext. intros. ring. Qed.
Lemma lookup_map (g : (Z -> list R) -> Z -> list R) (l : list (string * (Z -> list R))) nm f :
  In (nm, f) (map (fun p => (fst p, g (snd p))) l) <-> exists f0, In (nm, f0) l /\ f = g f0.
Proof.
  rewrite in_map_iff. split; [intros ([n f0] & E & H); cbn in E; injection E as <- <-; eauto | intros (f0 & H & ->); exists (nm, f0); auto].
Qed.
(** how the arrays of the result relate to those of the original, for windows [ss] processed *)
Definition stats_rel (t : Z -> R) (u u' : luvp) : Prop :=
  map fst (lstats u') = map fst (lstats u) /\
  forall i nm f f', nth_error (lstats u) i = Some (nm, f) -> nth_error (lstats u') i = Some (nm, f') -> forall z, f' z = scale (t z) (f z).
Definition bias_rel (t d : Z -> R) (u u' : luvp) : Prop :=
  lspws u' = lspws u /\ (forall z, ldata u' z = scale (t z * d z) (ldata u z)) /\
  match lcovr u, lcovr u' with Some f, Some f' => (forall z, f' z = scale (t z ^ 2) (f z)) /\ (forall z, lcovi u' z = scale (t z ^ 2) (lcovi u z))
                             | None, None => lcovi u' = lcovi u | _, _ => False end /\
  stats_rel t u u'.
Lemma bias_rel_refl u : bias_rel (fun _ => 1) (fun _ => 1) u u.
Proof.
  unfold bias_rel, stats_rel. split; [reflexivity |]. split; [intros; rewrite Rmult_1_l, scale_1; reflexivity |]. split.
  - destruct (lcovr u); [split; intros; rewrite pow1, scale_1; reflexivity | reflexivity].
  - split; [reflexivity |]. intros i nm f f' E E' z. rewrite E in E'. injection E' as <-. rewrite scale_1. reflexivity.
Qed.
Lemma bias_rel_trans t d t1 d1 u u1 u2 : bias_rel t d u u1 -> bias_rel t1 d1 u1 u2 -> bias_rel (fun z => t z * t1 z) (fun z => d z * d1 z) u u2.
Proof.
  intros (A & B & C & D & E) (A' & B' & C' & D' & E'). split; [congruence |]. split.
  { intros z. rewrite B', B, scale_scale. f_equal. ring. }
  split.
  - destruct (lcovr u), (lcovr u1), (lcovr u2); try contradiction; [| congruence]. destruct C as [C0 C1], C' as [C0' C1'].
    split; intros z; [rewrite C0', C0 | rewrite C1', C1]; rewrite scale_scale; f_equal; ring.
  - split; [congruence |]. intros i nm f f' H H' z. destruct (nth_error (lstats u1) i) as [[nm1 f1] |] eqn:E1.
    + assert (N : nm1 = nm). { pose proof (f_equal (fun l => nth_error l i) D) as DD. cbn in DD. rewrite ! nth_error_map, E1, H in DD. cbn in DD. congruence. }
      subst nm1. rewrite (E' i nm f1 f' E1 H'), (E i nm f f1 H E1), scale_scale. reflexivity.
    + exfalso. pose proof (f_equal (fun l => nth_error l i) D) as DD. cbn in DD. rewrite ! nth_error_map, E1, H in DD. discriminate.
Qed.
Lemma bias_step_rel total data s u u' :
  bias_step total data s u = (u', None) ->
  bias_rel (fun z => if Z.eqb z s then factor_of total s else 1) (fun z => if Z.eqb z s then factor_of data s else 1) u u'.
Proof.
  assert (TR : forall c, bias_rel (fun z => if Z.eqb z s then c else 1) (fun _ => 1) u (bias_total c s u)).
  { intros c. unfold bias_rel, bias_total, at_spw; cbn. split; [reflexivity |]. split; [intros z; destruct (z =? s)%Z; [rewrite Rmult_1_r; reflexivity | rewrite Rmult_1_l, scale_1; reflexivity] |]. split.
    - destruct (lcovr u); [| reflexivity]. split; intros z; destruct (z =? s)%Z; try reflexivity; replace (1 * (1 * 1)) with 1 by ring; rewrite scale_1; reflexivity.
    - split; [cbn; rewrite map_map; reflexivity |]. cbn. intros i nm f f' H H' z. rewrite nth_error_map, H in H'. cbn in H'. injection H' as <-. destruct (z =? s)%Z; [reflexivity | rewrite scale_1; reflexivity]. }
  assert (DR : forall c v, bias_rel (fun _ => 1) (fun z => if Z.eqb z s then c else 1) v (bias_data c s v)).
  { intros c v. unfold bias_rel, bias_data, at_spw; cbn. split; [reflexivity |]. split; [intros z; destruct (z =? s)%Z; [rewrite Rmult_1_l; reflexivity | rewrite Rmult_1_l, scale_1; reflexivity] |]. split.
    - destruct (lcovr v); [| reflexivity]. split; intros z; replace (1 * (1 * 1)) with 1 by ring; rewrite scale_1; reflexivity.
    - split; [reflexivity |]. cbn. intros i nm f f' H H' z. rewrite H in H'. injection H' as <-. rewrite scale_1. reflexivity. }
  assert (EQ : forall t d t' d' v v', (forall z, t z = t' z) -> (forall z, d z = d' z) -> bias_rel t d v v' -> bias_rel t' d' v v').
  { intros t d t' d' v v' Ht Hd (A & B & C & D & E). split; [assumption |]. split; [intros z; rewrite B, Ht, Hd; reflexivity |]. split.
    - destruct (lcovr v), (lcovr v'); try contradiction; [| assumption]. destruct C as [C0 C1]. split; intros z; rewrite <- Ht; auto.
    - split; [assumption |]. intros. rewrite <- Ht. eauto. }
  unfold bias_step, factor_of. intros H. destruct total as [tot |].
  - destruct (dget Z.eq_dec tot s) as [c |]; [| discriminate]. destruct data as [dat |].
    + destruct (dget Z.eq_dec dat s) as [c' |]; [| discriminate]. injection H as <-.
      eapply EQ; [| | eapply bias_rel_trans; [apply TR | apply DR]]; intros z; cbn; destruct (z =? s)%Z; ring.
    + injection H as <-. eapply EQ; [| | apply TR]; intros z; cbn; destruct (z =? s)%Z; reflexivity.
  - destruct data as [dat |].
    + destruct (dget Z.eq_dec dat s) as [c' |]; [| discriminate]. injection H as <-. eapply EQ; [| | apply DR]; intros z; cbn; destruct (z =? s)%Z; reflexivity.
    + injection H as <-. eapply EQ; [| | apply bias_rel_refl]; intros z; cbn; destruct (z =? s)%Z; reflexivity.
Qed.
Lemma bias_loop_rel total data ss : NoDup ss -> forall u u', bias_loop total data ss u = (u', None) ->
  bias_rel (fun z => if in_dec Z.eq_dec z ss then factor_of total z else 1) (fun z => if in_dec Z.eq_dec z ss then factor_of data z else 1) u u'.
Proof.
  induction 1 as [| s ss Ns ND IH]; intros u u' H; cbn in H.
  - injection H as <-. apply bias_rel_refl.
  - destruct (bias_step total data s u) as [u1 [e |]] eqn:E; [discriminate |]. apply bias_step_rel in E. apply IH in H. pose proof (bias_rel_trans _ _ _ _ _ _ _ E H) as (A & B & C & D & F).
    assert (Q : forall o z, (if (z =? s)%Z then factor_of o s else 1) * (if in_dec Z.eq_dec z ss then factor_of o z else 1) = if in_dec Z.eq_dec z (s :: ss) then factor_of o z else 1).
    { intros o z. destruct (Z.eqb_spec z s) as [-> | NE]; destruct (in_dec Z.eq_dec _ ss) as [I | I], (in_dec Z.eq_dec _ (s :: ss)) as [J | J]; cbn in J; try tauto; try ring; intuition congruence. }
    split; [assumption |]. split; [intros z; rewrite B, ! Q; reflexivity |]. split.
    + destruct (lcovr u), (lcovr u'); try contradiction; [| assumption]. destruct C as [C0 C1']. split; intros z; [rewrite C0, Q | rewrite C1', Q]; reflexivity.
    + split; [assumption |]. intros i nm f f' X Y z. rewrite (F i nm f f' X Y z), Q. reflexivity.
Qed.
(** Success: every window of the object is in each dictionary given; then power is multiplied by total*data, covariances by total^2 and
    every error bar by total, window by window, and a copy is made unless inplace. *)
Theorem bias_correction_values :
  forall total data inplace u u0 u', NoDup (lspws u) -> apply_bias_correction total data inplace u = (u0, Ok u') ->
    (inplace = true -> u0 = u') /\ (inplace = false -> u0 = u) /\ lspws u' = lspws u /\
    forall s, In s (lspws u) ->
      let t := factor_of total s in let d := factor_of data s in
      ldata u' s = map (fun x => x * (t * d)) (ldata u s) /\
      (forall f, lcovr u = Some f -> exists f', lcovr u' = Some f' /\ f' s = map (fun x => x * t ^ 2) (f s) /\ lcovi u' s = map (fun x => x * t ^ 2) (lcovi u s)) /\
      (forall i nm f, nth_error (lstats u) i = Some (nm, f) -> exists f', nth_error (lstats u') i = Some (nm, f') /\ f' s = map (fun x => x * t) (f s)).
Proof.
  intros total data inplace u u0 u' ND H. unfold apply_bias_correction in H. destruct (bias_loop total data (lspws u) u) as [v [e |]] eqn:E; [discriminate |].
  injection H as H1 <-. split; [intros ->; auto |]. split; [intros ->; auto |]. destruct (bias_loop_rel _ _ _ ND _ _ E) as (A & B & C & D & F). split; [assumption |].
  intros s Hs t d. assert (I : in_dec Z.eq_dec s (lspws u) = in_dec Z.eq_dec s (lspws u)) by reflexivity. destruct (in_dec Z.eq_dec s (lspws u)) as [Y | N] eqn:EI in I; [| contradiction].
  split; [| split].
  - rewrite B, EI. reflexivity.
  - intros f Ef. rewrite Ef in C. destruct (lcovr v) as [f' |]; [| contradiction]. destruct C as [C0 C1']. exists f'. rewrite C0, C1', EI. auto.
  - intros i nm f Hf. destruct (nth_error (lstats v) i) as [[nm' f'] |] eqn:E'.
    + assert (nm' = nm). { pose proof (f_equal (fun l => nth_error l i) D) as DD. cbn in DD. rewrite ! nth_error_map, E', Hf in DD. cbn in DD. congruence. }
      subst nm'. exists f'. split; [reflexivity |]. rewrite (F i nm f f' Hf E' s), EI. reflexivity.
    + exfalso. pose proof (f_equal (fun l => nth_error l i) D) as DD. cbn in DD. rewrite ! nth_error_map, E', Hf in DD. discriminate.
Qed.
Theorem bias_correction_accepts :
  forall total data inplace u,
    (exists u', snd (apply_bias_correction total data inplace u) = Ok u') <->
    (forall d s, total = Some d \/ data = Some d -> In s (lspws u) -> dget Z.eq_dec d s <> None).
Proof.
  intros total data inplace u. unfold apply_bias_correction.
  assert (G : forall ss v, (exists w, bias_loop total data ss v = (w, None)) <-> (forall d s, total = Some d \/ data = Some d -> In s ss -> dget Z.eq_dec d s <> None)).
  { induction ss as [| s ss IH]; intros v; cbn [bias_loop]; [split; [intros _ d s _ [] | eauto] |].
    assert (ST : (exists w, bias_step total data s v = (w, None)) <-> (forall d, total = Some d \/ data = Some d -> dget Z.eq_dec d s <> None)).
    { unfold bias_step. split.
      - intros (w & H) d [-> | ->] N; rewrite N in H; [discriminate |]. destruct total as [tt |]; [destruct (dget Z.eq_dec tt s); discriminate | discriminate].
      - intros H. destruct total as [tt |]; [pose proof (H tt (or_introl eq_refl)); destruct (dget Z.eq_dec tt s); [| congruence] |];
          (destruct data as [dd |]; [pose proof (H dd (or_intror eq_refl)); destruct (dget Z.eq_dec dd s); [| congruence] |]); eauto. }
    split.
    - intros (w & H). destruct (bias_step total data s v) as [v1 [e |]] eqn:E; [discriminate |]. intros d s' Hd [<- | Hs]; [apply (proj1 ST); eauto | apply (proj1 (IH v1) (ex_intro _ w H)); assumption].
    - intros H. destruct (proj2 ST) as [v1 E]; [intros d Hd; apply H; [assumption | left; reflexivity] |]. rewrite E. apply IH. intros d s' Hd Hs. apply H; [assumption | right; assumption]. }
  rewrite <- (G (lspws u) u). destruct (bias_loop total data (lspws u) u) as [w [e |]]; cbn; split; intros (x & Hx); try discriminate; eauto.
Qed.
(** Relative errors do not change under a positive multiplicative correction. *)
Theorem bias_relative_errors :
  forall t d e v : R, 0 < t -> (e * t) / Rabs (d * t) = e / Rabs d /\ ((e ^ 2 = v) -> (e * t) ^ 2 = v * t ^ 2).
Proof.
  intros t d e v Ht. split; [| intros <-; ring]. rewrite Rabs_mult, (Rabs_pos_eq t) by lra. unfold Rdiv. rewrite Rinv_mult.
  replace (e * t * (/ Rabs d * / t)) with (e * / Rabs d * (t * / t)) by ring. rewrite Rinv_r by lra. ring.
Qed.
(** A negative correction makes the error bars negative. *)
Theorem bias_errors_sign_refuted :
  exists total u u', snd (apply_bias_correction (Some total) None true u) = Ok u' /\
    (forall nm f s x, In (nm, f) (lstats u) -> In x (f s) -> 0 < x) /\ (exists nm f x, In (nm, f) (lstats u') /\ In x (f 0%Z) /\ x < 0).
Proof.
  exists [(0%Z, -2)], (mkluvp [0%Z] (fun _ => [1]) None (fun _ => []) [("P_N"%string, fun _ => [3])]). eexists. split; [reflexivity |]. split.
  - intros nm f s x [E | []] Hx. injection E as <- <-. destruct Hx as [<- | []]. lra.
  - cbn. exists "P_N"%string. eexists. exists (3 * -2). split; [left; reflexivity |]. cbn. split; [left; reflexivity | lra].
Qed.
(** A dictionary without one of the windows: the call fails and the windows before it are already changed. *)
Theorem bias_failure_refuted :
  exists total u, let r := apply_bias_correction (Some total) None true u in snd r = Err KeyError /\ ldata (fst r) 0%Z <> ldata u 0%Z.
Proof.
  exists [(0%Z, 2)], (mkluvp [0; 1]%Z (fun _ => [1]) None (fun _ => []) []). cbn. split; [reflexivity |]. intros E. injection E as E. lra.
Qed.
Theorem bias_copy_untouched :
  forall total data u, fst (apply_bias_correction total data false u) = u.
Proof. intros. unfold apply_bias_correction. destruct (bias_loop total data (lspws u) u). reflexivity. Qed.
Example bias_example :
  exists u', snd (apply_bias_correction (Some [(0%Z, 2); (1%Z, 3)]) (Some [(1%Z, 5); (0%Z, 7)]) false
     (mkluvp [0; 1]%Z (fun _ => [1; 2]) None (fun _ => []) [])) = Ok u' /\ ldata u' 1%Z = [1 * 3 * 5; 2 * 3 * 5].
Proof. eexists. split; reflexivity. Qed.

Example noise_spectra_example :
  let o := mknobj [mknrow 7 10 4 [1; 2]; mknrow 8 10 1 [1; 2]; mknrow 7 20 1 [1; 2]] 2 2 in
  (exists out, generate_noise_spectra o 3 (AVal (TFloat 200)) [8; 7]%Z "Pk" "real" = Ok out) /\ (forall r, In r (nrows o) -> 0 < ntint r /\ 0 < nnsamp r).
Proof.
  cbn zeta. split.
  - apply noise_spectra_accepts_float; [left; reflexivity |]. intros blp [<- | [<- | []]]; cbn; lia.
  - intros r [<- | [<- | [<- | []]]]; cbn; lra.
Qed.
Print Assumptions P_N_value. Print Assumptions P_N_scaling. Print Assumptions P_N_incoherent_average. Print Assumptions noise_spectra_rows.
Print Assumptions noise_spectra_accepts_float. Print Assumptions P_SN_laws. Print Assumptions P_SN_correction_laws. Print Assumptions P_SN_monotone.
Print Assumptions integration_harmonic_mean. Print Assumptions mean_nsamp_range. Print Assumptions mean_nsamp_clipped. Print Assumptions bias_correction_values. Print Assumptions bias_correction_accepts.
