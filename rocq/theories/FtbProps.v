(** Beam integrals and Fourier beams. *)
From Coq Require Import String Ascii.
From Coq Require Import Reals Lra Psatz.
From Verif Require Import Prelude CNum PyStr CovqModel WinModel WinProps DlyModel DlyProps.
Open Scope R_scope.

(** ** sums *)
Lemma rsumn_S n f : rsumn (S n) f = rsumn n f + f n.
Proof.
  unfold rsumn. rewrite seq_S, map_app. cbn [map Nat.add]. generalize (map f (seq 0 n)). intro l.
  induction l as [|x l IH]; cbn; [ring|]. rewrite IH. ring.
Qed.
Lemma rsumn_ext n f g : (forall p, (p < n)%nat -> f p = g p) -> rsumn n f = rsumn n g.
Proof. induction n; intro H; [reflexivity|]. rewrite !rsumn_S, IHn by (intros; apply H; lia). rewrite H by lia. reflexivity. Qed.
Lemma rsumn_add n f g : rsumn n (fun p => f p + g p) = rsumn n f + rsumn n g.
Proof. induction n; [cbn; ring|]. rewrite !rsumn_S, IHn. ring. Qed.
Lemma rsumn_mul n c f : rsumn n (fun p => c * f p) = c * rsumn n f.
Proof. induction n; [cbn; ring|]. rewrite !rsumn_S, IHn. ring. Qed.
Lemma rsumn_nonneg n f : (forall p, (p < n)%nat -> 0 <= f p) -> 0 <= rsumn n f.
Proof. induction n; intro H; [cbn; lra|]. rewrite rsumn_S. assert (0 <= rsumn n f) by (apply IHn; intros; apply H; lia). specialize (H n ltac:(lia)). lra. Qed.
Lemma rsumn_le n f g : (forall p, (p < n)%nat -> f p <= g p) -> rsumn n f <= rsumn n g.
Proof. induction n; intro H; [cbn; lra|]. rewrite !rsumn_S. assert (rsumn n f <= rsumn n g) by (apply IHn; intros; apply H; lia). specialize (H n ltac:(lia)). lra. Qed.
Lemma rsumn_swap n m f : rsumn n (fun i => rsumn m (fun p => f i p)) = rsumn m (fun p => rsumn n (fun i => f i p)).
Proof.
  induction n; [cbn; symmetry; induction m; [reflexivity|]; rewrite rsumn_S, IHm; cbn; ring|].
  rewrite rsumn_S, IHn, <- rsumn_add. apply rsumn_ext. intros. rewrite rsumn_S. reflexivity.
Qed.
Lemma rsumn_const n c : rsumn n (fun _ => c) = INR n * c.
Proof. induction n; [cbn; ring|]. rewrite rsumn_S, IHn, S_INR. ring. Qed.
Lemma sq_expand n f : rsumn n f ^ 2 = rsumn n (fun i => rsumn n (fun j => f i * f j)).
Proof.
  transitivity (rsumn n (fun i => f i * rsumn n f)); [|apply rsumn_ext; intros i _; symmetry; apply rsumn_mul].
  rewrite (rsumn_ext n (fun i => f i * rsumn n f) (fun i => rsumn n f * f i)) by (intros; ring). rewrite (rsumn_mul n (rsumn n f) f). ring.
Qed.
(** Cauchy-Schwarz *)
Lemma cauchy_schwarz n f g : rsumn n (fun p => f p * g p) ^ 2 <= rsumn n (fun p => f p ^ 2) * rsumn n (fun p => g p ^ 2).
Proof.
  set (A := rsumn n (fun p => f p ^ 2)). set (B := rsumn n (fun p => f p * g p)). set (D := rsumn n (fun p => g p ^ 2)).
  assert (Q : forall t, 0 <= A * t ^ 2 + 2 * t * B + D).
  { intro t. replace (A * t ^ 2 + 2 * t * B + D) with (rsumn n (fun p => (t * f p + g p) ^ 2)); [apply rsumn_nonneg; intros; apply pow2_ge_0|].
    unfold A, B, D. replace (rsumn n (fun p => f p ^ 2) * t ^ 2) with (t ^ 2 * rsumn n (fun p => f p ^ 2)) by ring. rewrite <- !rsumn_mul, <- !rsumn_add. apply rsumn_ext. intros. ring. }
  assert (PA : 0 <= A) by (apply rsumn_nonneg; intros; apply pow2_ge_0).
  destruct (Req_dec A 0) as [Z|N].
  - rewrite Z in *. destruct (Req_dec B 0) as [->|NB]; [lra|]. exfalso. specialize (Q (- (D + 1) / (2 * B))).
    replace (0 * (- (D + 1) / (2 * B)) ^ 2 + 2 * (- (D + 1) / (2 * B)) * B + D) with (-1) in Q by (field; exact NB). lra.
  - specialize (Q (- B / A)). replace (A * (- B / A) ^ 2 + 2 * (- B / A) * B + D) with ((A * D - B ^ 2) / A) in Q by (field; exact N).
    assert (0 <= A * D - B ^ 2); [|lra]. apply (Rmult_le_reg_r (/ A)); [apply Rinv_0_lt_compat; lra|]. rewrite Rmult_0_l. exact Q.
Qed.

(** ** specification: solid angle of pixels, beam areas *)
Definition area (nside npix : nat) (f : nat -> R) : R := PI / (3 * INR nside * INR nside) * rsumn npix f.

Lemma index_of_spec p l : (index_of p l = None <-> ~ In p l) /\ (forall i, index_of p l = Some i -> nth_error l i = Some p /\ forall j, (j < i)%nat -> nth_error l j <> Some p).
Proof.
  induction l as [|x r [I1 I2]]; cbn [index_of].
  - split; [split; [intros _ [] | reflexivity] | discriminate].
  - destruct (Z.eqb_spec x p) as [->|N].
    + split; [split; [discriminate | intro H; exfalso; apply H; left; reflexivity]|]. intros i [= <-]. split; [reflexivity | lia].
    + split.
      * destruct (index_of p r); cbn [option_map]; [split; [discriminate | intro H; exfalso; destruct I1 as [_ I1]; assert (Some n = None) as Q by (apply I1; intro; apply H; right; assumption); discriminate Q]|].
        split; [intros _ [E|E]; [congruence | apply I1 in E; [exact E | reflexivity]] | reflexivity].
      * intros i H. destruct (index_of p r) as [k|]; [|discriminate H]. cbn [option_map] in H. injection H as <-. destruct (I2 k eq_refl) as [A B]. split; [exact A|].
        intros [|j] Hj; [cbn; congruence|]. apply (B j). lia.
Qed.

(** the matrix returned is, for the first beam of the polarization asked for, the mean product of responses of unit solid angle *)
Theorem integral_beam_spec : forall b pol window M, (0 < b_nside b)%nat -> get_integral_beam (Some b) pol window = Ok M ->
  exists ip, nth_error (b_pols b) ip = Some pol /\ (forall k, (k < ip)%nat -> nth_error (b_pols b) k <> Some pol) /\
  let A := b_interp b window ip in
  let omega i := area (b_nside b) (b_npix b) (A i) in
  forall i j, M i j = area (b_nside b) (b_npix b) (fun p => A i p / omega i * (A j p / omega j)).
Proof.
  intros b pol window M Hn H. unfold get_integral_beam, normalized_response, require in H.
  destruct (b_power b); [|discriminate H]. destruct (Nat.leb _ _); [|discriminate H]. destruct (b_peak b); [|discriminate H]. destruct (b_healpix b); [|discriminate H].
  destruct (index_of pol (b_pols b)) as [ip|] eqn:E; [|discriminate H]. cbn [bind fst snd] in H. injection H as <-.
  exists ip. destruct (proj2 (index_of_spec pol (b_pols b)) ip E) as [I1 I2]. split; [exact I1|]. split; [exact I2|]. intros A omega i j. unfold area. fold A. f_equal.
  assert (O : forall f, rsumn (b_npix b) (A f) * PI / (3 * INR (b_nside b) ^ 2) = omega f).
  { intro f. unfold omega, area. field. apply not_0_INR. lia. }
  apply rsumn_ext. intros p _. rewrite !O. unfold Rdiv. ring.
Qed.
Print Assumptions integral_beam_spec.

Lemma area_swap nside npix f g : (forall p, f p = g p) -> area nside npix f = area nside npix g.
Proof. intro H. unfold area. f_equal. apply rsumn_ext. intros; apply H. Qed.
Lemma pixel_nonneg nside : (0 < nside)%nat -> 0 < PI / (3 * INR nside * INR nside).
Proof. intro H. assert (0 < INR nside) by (apply lt_0_INR; exact H). apply Rdiv_lt_0_compat; [apply PI_RGT_0 | repeat apply Rmult_lt_0_compat; lra]. Qed.

(** it is symmetric and positive semidefinite; its diagonal is the ratio of the area of the squared response to the squared
    area, as in the scalar; with the 12 nside^2 pixels of the whole sky this is at least 1 / (4 pi), with equality for a uniform
    response; responses within [0, 1] give entries of at most 1 / omega of either channel *)
Theorem integral_beam_positive : forall b pol window M, (0 < b_nside b)%nat -> get_integral_beam (Some b) pol window = Ok M ->
  (forall i j, M i j = M j i) /\
  (forall n v, 0 <= rsumn n (fun i => rsumn n (fun j => v i * M i j * v j))) /\
  (forall i j, M i j ^ 2 <= M i i * M j j).
Proof.
  intros b pol window M Hn H. destruct (integral_beam_spec b pol window M Hn H) as [ip [_ [_ V]]]. cbv zeta in V.
  set (A := b_interp b window ip) in *. set (om := fun i => area (b_nside b) (b_npix b) (A i)) in *. change (forall i j, M i j = area (b_nside b) (b_npix b) (fun p => A i p / om i * (A j p / om j))) in V.
  pose proof (pixel_nonneg _ Hn) as P. split; [|split].
  - intros i j. rewrite !V. apply area_swap. intro. ring.
  - intros n v. replace (rsumn n (fun i => rsumn n (fun j => v i * M i j * v j))) with (area (b_nside b) (b_npix b) (fun p => rsumn n (fun i => v i * (A i p / om i)) ^ 2)).
    + unfold area. apply Rmult_le_pos; [lra|]. apply rsumn_nonneg. intros. apply pow2_ge_0.
    + unfold area. rewrite <- rsumn_mul.
      transitivity (rsumn (b_npix b) (fun p => rsumn n (fun i => rsumn n (fun j => v i * (PI / (3 * INR (b_nside b) * INR (b_nside b)) * (A i p / om i * (A j p / om j))) * v j)))).
      * apply rsumn_ext. intros p _. rewrite sq_expand, <- rsumn_mul. apply rsumn_ext. intros i _. rewrite <- rsumn_mul. apply rsumn_ext. intros j _. ring.
      * rewrite <- (rsumn_swap n (b_npix b) (fun i p => rsumn n (fun j => v i * (PI / (3 * INR (b_nside b) * INR (b_nside b)) * (A i p / om i * (A j p / om j))) * v j))).
        apply rsumn_ext. intros i _. rewrite <- (rsumn_swap n (b_npix b) (fun j p => v i * (PI / (3 * INR (b_nside b) * INR (b_nside b)) * (A i p / om i * (A j p / om j))) * v j)).
        apply rsumn_ext. intros j _. rewrite V. unfold area.
        rewrite (rsumn_ext _ _ (fun p => (v i * v j * (PI / (3 * INR (b_nside b) * INR (b_nside b)))) * (A i p / om i * (A j p / om j)))) by (intros; ring). rewrite rsumn_mul. ring.
  - intros i j. rewrite !V. unfold area.
    pose proof (cauchy_schwarz (b_npix b) (fun p => A i p / om i) (fun p => A j p / om j)) as CS.
    rewrite (rsumn_ext _ (fun p => A i p / om i * (A i p / om i)) (fun p => (A i p / om i) ^ 2)) by (intros; ring).
    rewrite (rsumn_ext _ (fun p => A j p / om j * (A j p / om j)) (fun p => (A j p / om j) ^ 2)) by (intros; ring).
    set (c := PI / (3 * INR (b_nside b) * INR (b_nside b))) in *. clearbody c.
    rewrite Rpow_mult_distr. replace (c * rsumn (b_npix b) (fun p => (A i p / om i) ^ 2) * (c * rsumn (b_npix b) (fun p => (A j p / om j) ^ 2)))
      with (c ^ 2 * (rsumn (b_npix b) (fun p => (A i p / om i) ^ 2) * rsumn (b_npix b) (fun p => (A j p / om j) ^ 2))) by ring.
    apply Rmult_le_compat_l; [apply pow2_ge_0 | exact CS].
Qed.
Print Assumptions integral_beam_positive.

Theorem integral_beam_bounds : forall b pol window M, (0 < b_nside b)%nat -> get_integral_beam (Some b) pol window = Ok M ->
  exists ip, nth_error (b_pols b) ip = Some pol /\
  let A := b_interp b window ip in
  let omega i := area (b_nside b) (b_npix b) (A i) in
  (forall i, omega i <> 0 -> M i i = area (b_nside b) (b_npix b) (fun p => A i p ^ 2) / omega i ^ 2) /\
  (b_npix b = (12 * b_nside b * b_nside b)%nat -> forall i, omega i <> 0 -> 1 / (4 * PI) <= M i i) /\
  ((forall i p, 0 <= A i p <= 1) -> forall i j, 0 < omega i -> 0 < omega j -> 0 <= M i j <= 1 / omega i /\ M i j <= 1 / omega j).
Proof.
  intros b pol window M Hn H. destruct (integral_beam_spec b pol window M Hn H) as [ip [Ip [_ V]]]. exists ip. split; [exact Ip|]. intros A omega. cbv zeta in V. fold A in V.
  change (forall i j, M i j = area (b_nside b) (b_npix b) (fun p => A i p / omega i * (A j p / omega j))) in V.
  pose proof (pixel_nonneg _ Hn) as P.
  assert (D : forall i, omega i <> 0 -> M i i = area (b_nside b) (b_npix b) (fun p => A i p ^ 2) / omega i ^ 2).
  { intros i Oi. rewrite V. unfold area. rewrite (rsumn_ext _ _ (fun p => (1 / omega i ^ 2) * A i p ^ 2)) by (intros; field; exact Oi). rewrite rsumn_mul. field. split; [apply not_0_INR; lia | exact Oi]. }
  split; [exact D|]. split.
  - intros Np i Oi. rewrite D by exact Oi. unfold omega, area in *. set (c := PI / (3 * INR (b_nside b) * INR (b_nside b))) in *.
    pose proof (cauchy_schwarz (b_npix b) (fun _ => 1) (A i)) as CS. rewrite (rsumn_ext _ (fun p => 1 * A i p) (A i)) in CS by (intros; ring).
    rewrite (rsumn_ext _ (fun _ => 1 ^ 2) (fun _ => 1)) in CS by (intros; ring). rewrite rsumn_const, Rmult_1_r in CS.
    assert (K : INR (b_npix b) * c = 4 * PI). { rewrite Np, !mult_INR. unfold c. replace (INR 12) with 12 by (cbn; ring). field. apply not_0_INR. lia. }
    set (S2 := rsumn (b_npix b) (fun p => A i p ^ 2)) in *. set (S := rsumn (b_npix b) (A i)) in *.
    assert (PS : 0 < (c * S) ^ 2) by (rewrite <- Rsqr_pow2; apply Rsqr_pos_lt; exact Oi).
    apply (Rmult_le_reg_r ((c * S) ^ 2)); [exact PS|]. replace (c * S2 / (c * S) ^ 2 * (c * S) ^ 2) with (c * S2) by (field; split; intro Q; rewrite Q in Oi; lra).
    pose proof PI_RGT_0. apply (Rmult_le_reg_l (4 * PI)); [lra|]. replace (4 * PI * (1 / (4 * PI) * (c * S) ^ 2)) with (c ^ 2 * S ^ 2) by (field; lra).
    rewrite <- K. replace (INR (b_npix b) * c * (c * S2)) with (c ^ 2 * (INR (b_npix b) * S2)) by ring. apply Rmult_le_compat_l; [apply pow2_ge_0 | exact CS].
  - intros B i j Oi Oj. rewrite V.
    assert (Q : forall k, 0 < omega k -> (forall p, 0 <= A k p / omega k) /\ area (b_nside b) (b_npix b) (fun p => A k p / omega k) = 1).
    { intros k Ok'. split; [intro p; apply Rmult_le_pos; [apply B | left; apply Rinv_0_lt_compat; exact Ok']|].
      unfold area. rewrite (rsumn_ext _ _ (fun p => / omega k * A k p)) by (intros; unfold Rdiv; ring). rewrite rsumn_mul.
      replace (PI / (3 * INR (b_nside b) * INR (b_nside b)) * (/ omega k * rsumn (b_npix b) (A k))) with (/ omega k * omega k) by (unfold omega, area; ring). field. lra. }
    assert (Le : forall k, 0 < omega k -> forall p, A k p / omega k <= 1 / omega k).
    { intros k Ok' p. unfold Rdiv. apply Rmult_le_compat_r; [left; apply Rinv_0_lt_compat; exact Ok' | apply B]. }
    destruct (Q i Oi) as [Pi1 Pi2], (Q j Oj) as [Pj1 Pj2].
    assert (Bd : forall f g c, (forall p, 0 <= g p) -> (forall p, f p <= c) -> area (b_nside b) (b_npix b) g = 1 -> area (b_nside b) (b_npix b) (fun p => f p * g p) <= c).
    { intros f g c G F O. replace c with (c * area (b_nside b) (b_npix b) g) by (rewrite O; ring). unfold area.
      replace (c * (PI / (3 * INR (b_nside b) * INR (b_nside b)) * rsumn (b_npix b) g)) with (PI / (3 * INR (b_nside b) * INR (b_nside b)) * (c * rsumn (b_npix b) g)) by ring.
      apply Rmult_le_compat_l; [lra|]. rewrite <- rsumn_mul. apply rsumn_le. intros p _. apply Rmult_le_compat_r; [apply G | apply F]. }
    split; [split|].
    + unfold area. apply Rmult_le_pos; [lra|]. apply rsumn_nonneg. intros p _. apply Rmult_le_pos; [apply Pi1 | apply Pj1].
    + apply (Bd (fun p => A i p / omega i) (fun p => A j p / omega j)); [exact Pj1 | apply Le; exact Oi | exact Pj2].
    + rewrite (area_swap _ _ _ (fun p => A j p / omega j * (A i p / omega i))) by (intros; ring).
      apply (Bd (fun p => A j p / omega j) (fun p => A i p / omega i)); [exact Pi1 | apply Le; exact Oj | exact Pi2].
Qed.
Print Assumptions integral_beam_bounds.

(** an unknown polarization is not replaced by a uniform beam: it is an error; only beams without a response are, and then the matrix is one *)
Theorem integral_beam_unknown_refuted :
  ~ (forall b pol window, ~ In pol (b_pols b) -> get_integral_beam (Some b) pol window = Ok (fun _ _ => 1) \/ get_integral_beam (Some b) pol window = Ok (fun _ _ => 1 / (4 * PI))).
Proof.
  intro H. specialize (H (mkuvbeam true 1 true true 1 12 [1%Z] (fun _ _ _ _ => 1)) 0%Z [] ltac:(intros [E|[]]; discriminate)).
  destruct H as [H|H]; cbn in H; discriminate H.
Qed.
Print Assumptions integral_beam_unknown_refuted.
Theorem integral_beam_errors : forall beam pol window,
  (beam = None -> get_integral_beam beam pol window = Ok (fun _ _ => 1)) /\
  (forall b, beam = Some b -> b_power b = false \/ (1 < b_naxes b)%nat \/ b_peak b = false \/ b_healpix b = false \/ ~ In pol (b_pols b) ->
    get_integral_beam beam pol window = Err ValueError).
Proof.
  intros beam pol window. split; [intros ->; reflexivity|]. intros b -> H. unfold get_integral_beam, normalized_response, require.
  destruct (b_power b); [|reflexivity]. destruct (Nat.leb_spec (b_naxes b) 1); [|reflexivity]. destruct (b_peak b); [|reflexivity]. destruct (b_healpix b); [|reflexivity].
  destruct H as [H|[H|[H|[H|H]]]]; try discriminate; try lia. destruct (proj1 (index_of_spec pol (b_pols b))) as [_ I]. rewrite (I H). reflexivity.
Qed.
Print Assumptions integral_beam_errors.
Example uniform_case : let b := mkuvbeam true 1 true true 1 12 [1%Z] (fun _ _ _ _ => 1) in
  exists M, get_integral_beam (Some b) 1 [100; 101] = Ok M /\ M 0%nat 1%nat = 1 / (4 * PI) /\ 0 < area 1 12 (fun _ => 1).
Proof.
  intro b. pose proof PI_RGT_0. eexists. split; [reflexivity|]. cbn. split; [field; lra|]. unfold area. rewrite rsumn_const. cbn. apply Rmult_lt_0_compat; [apply Rdiv_lt_0_compat; lra | lra].
Qed.

(** ** Gaussian Fourier beams *)
Lemma ft_x_nth npix mapsize i : (i < npix)%nat -> mapsize <> 0 -> nth i (ft_x npix mapsize) 0 = (INR i - INR (npix / 2)) / (2 * mapsize).
Proof.
  intros Hi Hm. unfold ft_x. rewrite shifted_nth by exact Hi. rewrite fftfreq_shifted by (try exact Hi; lra). field. split; [exact Hm | apply not_0_INR; lia].
Qed.
(** value at pixel (y, x): a Gaussian of the distance to the centre pixel npix/2, with 2 mapsize per unit of the Fourier grid *)
Theorem gaussian_values : forall num2str freqs widths pol mapsize npix f, mapsize <> 0 ->
  gaussian num2str freqs widths pol mapsize npix = Ok f ->
  (3 <= length freqs)%nat /\ ft_freq f = freqs /\ length (ft_data f) = length freqs /\ ft_map f = mapsize /\
  forall i w m, (i < length freqs)%nat -> nth_error (ft_data f) i = Some m ->
   match widths with WScalar w' => w = w' | WList l => nth_error l i = Some w end -> w <> 0 ->
   let wr := w * PI / 180 in
   forall y x, (y < npix)%nat -> (x < npix)%nat ->
   m y x = PI * wr ^ 2 / (2 * mapsize) * exp (- (PI * wr / (2 * mapsize)) ^ 2 * ((INR x - INR (npix / 2)) ^ 2 + (INR y - INR (npix / 2)) ^ 2)).
Proof.
  intros num2str freqs widths pol mapsize npix f Hm H. unfold gaussian, require in H.
  destruct (Nat.leb_spec (length freqs) 2); cbn [negb] in H; [discriminate H|].
  match type of H with bind ?e _ = _ => destruct e as [ws|] eqn:E; cbn [bind] in H; [|discriminate H] end.
  assert (W : length ws = length freqs /\ forall i w, (i < length freqs)%nat -> match widths with WScalar w' => w = w' | WList l => nth_error l i = Some w end -> nth_error ws i = Some w).
  { destruct widths as [w'|l].
    - injection E as <-. split; [apply map_length|]. intros i w Hi ->. rewrite nth_error_map. destruct (nth_error freqs i) eqn:F; [reflexivity|]. apply nth_error_None in F. lia.
    - destruct (Nat.eqb_spec (length l) (length freqs)) as [L|]; [|discriminate E]. injection E as <-. split; [exact L | intros; assumption]. }
  destruct W as [W1 W2]. unfold new_ftbeam, require in H. cbn [Nat.eqb] in H. rewrite Nat.eqb_refl in H.
  match type of H with bind ?e _ = _ => destruct e as [p|] eqn:EP; cbn [bind] in H; [|discriminate H] end.
  destruct (Nat.eqb _ _); [|discriminate H]. injection H as <-. cbn [ft_freq ft_data ft_map].
  split; [lia|]. split; [reflexivity|]. split; [rewrite map_length; exact W1|]. split; [reflexivity|].
  intros i w m Hi Em Ew Nw y x Hy Hx. set (wr := w * PI / 180). rewrite nth_error_map, (W2 i w Hi Ew) in Em. cbn [option_map] in Em. injection Em as <-.
  unfold gauss_map. fold wr. rewrite !ft_x_nth by assumption.
  assert (Pw : wr <> 0). { unfold wr. pose proof PI_RGT_0. intro Q. apply Nw. apply (Rmult_eq_reg_r (PI / 180)); [|lra]. lra. }
  pose proof PI_RGT_0.
  replace (-1 * (((INR x - INR (npix / 2)) / (2 * mapsize)) ^ 2 + ((INR y - INR (npix / 2)) / (2 * mapsize)) ^ 2) / (1 / PI / wr) ^ 2)
    with (- (PI * wr / (2 * mapsize)) ^ 2 * ((INR x - INR (npix / 2)) ^ 2 + (INR y - INR (npix / 2)) ^ 2)) by (field; repeat split; lra).
  field. exact Hm.
Qed.
Print Assumptions gaussian_values.
(** so it is positive, greatest at the centre, and symmetric under exchange of the axes and reflection about the centre *)
Theorem gaussian_shape : forall num2str freqs widths pol mapsize npix f i w m, 0 < mapsize ->
  gaussian num2str freqs widths pol mapsize npix = Ok f -> nth_error (ft_data f) i = Some m ->
  match widths with WScalar w' => w = w' | WList l => nth_error l i = Some w end -> w <> 0 ->
  forall y x, (y < npix)%nat -> (x < npix)%nat ->
  0 < m y x <= m (npix / 2)%nat (npix / 2)%nat /\ m y x = m x y /\
  (forall y' x', (y' < npix)%nat -> (x' < npix)%nat -> (y + y' = 2 * (npix / 2))%nat -> (x + x' = 2 * (npix / 2))%nat -> m y' x' = m y x) /\
  m (npix / 2)%nat (npix / 2)%nat = PI * (w * PI / 180) ^ 2 / (2 * mapsize).
Proof.
  intros num2str freqs widths pol mapsize npix f i w m Hm H Em Ew Nw y x Hy Hx.
  assert (Hm0 : mapsize <> 0) by lra. destruct (gaussian_values _ _ _ _ _ _ _ Hm0 H) as [_ [_ [L [_ V]]]].
  assert (Hi : (i < length freqs)%nat) by (rewrite <- L; apply nth_error_Some; congruence).
  specialize (V i w m Hi Em Ew Nw). cbv zeta in V. set (wr := w * PI / 180) in *. pose proof PI_RGT_0 as PP.
  assert (Pw : 0 < wr ^ 2). { rewrite <- Rsqr_pow2. apply Rsqr_pos_lt. unfold wr. intro Q. apply Nw. apply (Rmult_eq_reg_r (PI / 180)); [|lra]. lra. }
  assert (Hc : (npix / 2 < npix)%nat) by (apply Nat.div_lt; lia).
  set (c := PI * wr ^ 2 / (2 * mapsize)) in *.
  assert (Pc : 0 < c) by (unfold c; apply Rdiv_lt_0_compat; [apply Rmult_lt_0_compat; assumption | lra]).
  rewrite !V by assumption. split; [split|].
  - apply Rmult_lt_0_compat; [exact Pc | apply exp_pos].
  - apply Rmult_le_compat_l; [lra|].
    match goal with |- exp ?a <= exp ?b => assert (Le : a <= b) end.
    { replace ((INR (npix / 2) - INR (npix / 2)) ^ 2 + (INR (npix / 2) - INR (npix / 2)) ^ 2) with 0 by ring. rewrite Rmult_0_r.
      pose proof (pow2_ge_0 (PI * wr / (2 * mapsize))) as Pq. pose proof (pow2_ge_0 (INR x - INR (npix / 2))). pose proof (pow2_ge_0 (INR y - INR (npix / 2))).
      assert (Ps : 0 <= (INR x - INR (npix / 2)) ^ 2 + (INR y - INR (npix / 2)) ^ 2) by lra. pose proof (Rmult_le_pos _ _ Pq Ps). lra. }
    destruct Le as [Le|Le]; [left; apply exp_increasing; exact Le | right; rewrite Le; reflexivity].
  - split; [f_equal; f_equal; ring|]. split.
    + intros y' x' Hy' Hx' Sy Sx. rewrite V by assumption. f_equal. f_equal. f_equal.
      apply (f_equal INR) in Sy, Sx. rewrite plus_INR, mult_INR in Sy, Sx. cbn [INR] in Sy, Sx. 
      replace (INR x') with (2 * INR (npix / 2) - INR x) by lra. replace (INR y') with (2 * INR (npix / 2) - INR y) by lra. ring.
    + replace ((INR (npix / 2) - INR (npix / 2)) ^ 2 + (INR (npix / 2) - INR (npix / 2)) ^ 2) with 0 by ring. rewrite Rmult_0_r, exp_0. ring.
Qed.
Print Assumptions gaussian_shape.
(** fewer than three frequencies are refused, and so is a list of one width *)
Theorem gaussian_errors : forall num2str freqs widths pol mapsize npix,
  ((length freqs <= 2)%nat -> gaussian num2str freqs widths pol mapsize npix = Err ValueError) /\
  (forall l, widths = WList l -> length l <> length freqs -> gaussian num2str freqs widths pol mapsize npix = Err ValueError).
Proof.
  intros. unfold gaussian, require. destruct (Nat.leb_spec (length freqs) 2); cbn [negb]; split; intros; try reflexivity; try lia.
  subst widths. destruct (Nat.eqb_spec (length l) (length freqs)); [contradiction | reflexivity].
Qed.
Print Assumptions gaussian_errors.
Theorem gaussian_one_width_refuted :
  ~ (forall num2str freqs w pol mapsize npix, (3 <= length freqs)%nat ->
     gaussian num2str freqs (WList [w]) pol mapsize npix = gaussian num2str freqs (WScalar w) pol mapsize npix).
Proof. intro H. specialize (H (fun _ => ""%string) [1; 2; 3] 1 (PolStr "pI") 1 3%nat ltac:(cbn; lia)). cbn in H. discriminate H. Qed.
Print Assumptions gaussian_one_width_refuted.
Example gaussian_case : exists f m, gaussian (fun _ => ""%string) [1; 2; 3] (WScalar 2) (PolStr "pI") 1 5 = Ok f /\ nth_error (ft_data f) 1 = Some m.
Proof. eexists. eexists. split; reflexivity. Qed.

(** ** files *)
Lemma split_nosep c s : ~ In c s -> PyStr.split c s = [s].
Proof.
  induction s as [|x s IH]; intro H; [reflexivity|]. cbn [PyStr.split]. destruct (Ascii.eqb_spec x c) as [->|N]; [exfalso; apply H; left; reflexivity|].
  rewrite IH by (intro; apply H; right; assumption). reflexivity.
Qed.
Lemma split_ne c s : PyStr.split c s <> [].
Proof. destruct s; cbn; [discriminate|]. destruct (Ascii.eqb _ _); [discriminate|]. destruct (PyStr.split c s); discriminate. Qed.
Lemma split_last c p s : ~ In c s -> last (PyStr.split c (p ++ c :: s)) [] = s.
Proof.
  intro H. induction p as [|x p IH]; cbn [app PyStr.split].
  - rewrite Ascii.eqb_refl, (split_nosep c s H). reflexivity.
  - destruct (Ascii.eqb x c).
    + rewrite <- IH at 2. destruct (PyStr.split c (p ++ c :: s)) eqn:E; [exfalso; apply (split_ne c _ E)|]. reflexivity.
    + destruct (PyStr.split c (p ++ c :: s)) as [|f [|g fs]] eqn:E; [exfalso; apply (split_ne c _ E) | | rewrite <- IH; reflexivity].
      exfalso. clear -E. assert (L : (2 <= length (PyStr.split c (p ++ c :: s)))%nat).
      { clear E. induction p as [|y p IHp]; cbn [app PyStr.split]; [rewrite Ascii.eqb_refl; cbn; destruct (PyStr.split c s) eqn:E; [exfalso; apply (split_ne c _ E) | cbn; lia]|].
        destruct (Ascii.eqb y c); [cbn; lia|]. destruct (PyStr.split c (p ++ c :: s)); cbn in *; lia. }
      rewrite E in L. cbn in L. lia.
Qed.
Lemma split_hd c s r : ~ In c s -> hd [] (PyStr.split c (s ++ c :: r)) = s.
Proof.
  induction s as [|x s IH]; intro H; cbn [app PyStr.split]; [rewrite Ascii.eqb_refl; reflexivity|].
  destruct (Ascii.eqb_spec x c) as [->|N]; [exfalso; apply H; left; reflexivity|].
  specialize (IH ltac:(intro; apply H; right; assumption)). destruct (PyStr.split c (s ++ c :: r)) eqn:E; [exfalso; apply (split_ne c _ E)|]. cbn in *. rewrite IH. reflexivity.
Qed.
(** the polarization is what stands between the last underscore and the next dot *)
Theorem file_pol_spec : forall dir pol ext, ~ In ch_us pol -> ~ In ch_dot pol -> ~ In ch_us ext ->
  file_pol (dir ++ ch_us :: pol ++ ch_dot :: ext) = pol.
Proof.
  intros dir pol ext U D E. unfold file_pol. rewrite split_last.
  - apply split_hd. exact D.
  - rewrite in_app_iff. intros [H|[H|H]]; [exact (U H) | discriminate H | exact (E H)].
Qed.
Print Assumptions file_pol_spec.
(** reading a window is reading the file and selecting the window; the beam has the frequencies and maps of the file *)
Theorem from_file_window : forall A num2str path (f : ftfile A) r g, from_file num2str path f None = Ok g ->
  from_file num2str path f (Some r) = update_spw r g.
Proof.
  intros A num2str path f r g H. unfold from_file, require in *. destruct (f_ok f); [|discriminate H].
  cbn [bind fst snd] in *. unfold new_ftbeam, require in *. cbn [Nat.eqb] in *.
  destruct (Nat.eqb (f_s1 f) (f_s2 f)); [|discriminate H]. destruct (polstr_ok _); cbn [bind] in *; [|discriminate H].
  destruct (Nat.eqb_spec (length (f_freq f)) (length (f_data f))) as [L|]; [|discriminate H]. injection H as <-.
  unfold update_spw, require. cbn [ft_freq ft_data ft_pol ft_map]. destruct (check_spw_range r _); cbn [bind]; [|reflexivity].
  destruct r as [|a [|b [|? ?]]]; cbn [bind fst snd]; try reflexivity.
  replace (Nat.eqb _ _) with true; [reflexivity|]. symmetry. apply Nat.eqb_eq. unfold slice. rewrite !skipn_length, !firstn_length. lia.
Qed.
Print Assumptions from_file_window.
Theorem from_file_contents : forall A num2str path (f : ftfile A) g, from_file num2str path f None = Ok g ->
  ft_freq g = f_freq f /\ ft_data g = f_data f /\ ft_map g = f_map f /\ ft_pol g = string_of_list_ascii (file_pol path) /\
  In (ft_pol g) ["pI"; "pQ"; "pV"; "pU"; "xx"; "yy"; "xy"; "yx"]%string /\
  (2 <= length (f_freq f) -> get_bandwidth f = Ok (ft_freq g))%nat.
Proof.
  intros A num2str path f g H. unfold from_file, get_bandwidth, require in *. destruct (f_ok f); [|discriminate H]. cbn [bind fst snd] in H.
  unfold new_ftbeam, require in H. cbn [Nat.eqb] in H. destruct (Nat.eqb (f_s1 f) (f_s2 f)); [|discriminate H].
  destruct (polstr_ok (string_of_list_ascii (file_pol path))) eqn:P; cbn [bind] in H; [|discriminate H]. destruct (Nat.eqb (length (f_freq f)) _); [|discriminate H]. injection H as <-. cbn [ft_freq ft_data ft_map ft_pol].
  repeat split; try reflexivity.
  - unfold polstr_ok, str_in in P. apply existsb_exists in P. destruct P as [x [I E]]. apply String.eqb_eq in E. rewrite E. exact I.
  - intro L. destruct (Nat.leb_spec (length (f_freq f)) 1); [lia | reflexivity].
Qed.
Print Assumptions from_file_contents.
Example file_case : exists g, from_file (fun _ => ""%string) (s_ "dir/ft_beam_HERA_dipole_pI.hdf5") (mkfile true 1 [1; 2] [tt; tt] 4 4) None = Ok g /\ ft_pol g = "pI"%string.
Proof. eexists. split; reflexivity. Qed.
