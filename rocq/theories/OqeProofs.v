(** Lemmas about the estimator model: Fourier phases, the closed forms of Q, q_hat, G and H. *)
From Coq Require Import Reals Lra Lia String.
From Verif Require Import Prelude CNum OqeModel.
Open Scope R_scope.
Open Scope C_scope.

(** e^{-2 pi i (a - floor(nd/2)) j / nd} *)
Definition phi (nd a j : nat) : C :=
  Cexpi (- (2 * PI * (INR a - INR (nd / 2)) * INR j / INR nd))%R.
Definition DT (nd n a : nat) (x : vec) : C := csum n (fun j => x j * phi nd a j).

(** products and permutations of sums *)
Lemma csum_prod n m f g : csum n f * csum m g = csum n (fun i => csum m (fun j => f i * g j)).
Proof.
  rewrite <- csum_mul_r. apply csum_ext. intros. rewrite <- csum_mul_l. reflexivity.
Qed.
Lemma csum_single_r n f j : (j < n)%nat -> csum n (fun i => if Nat.eqb i j then f i else C0) = f j.
Proof.
  intros. rewrite (csum_single _ _ j H).
  - rewrite Nat.eqb_refl. reflexivity.
  - intros i Hi Hij. destruct (Nat.eqb_spec i j); congruence.
Qed.
Lemma csum_single_l n f j : (j < n)%nat -> csum n (fun i => if Nat.eqb j i then f i else C0) = f j.
Proof. intros. rewrite <- (csum_single_r n f j H). apply csum_ext. intros. rewrite Nat.eqb_sym. reflexivity. Qed.

Lemma start_idx_half nd : start_idx nd = (- INR (nd / 2))%R.
Proof.
  unfold start_idx. destruct (Nat.even nd) eqn:E.
  - apply Nat.even_spec in E. destruct E as [k ->].
    replace (2 * k / 2)%nat with k by (rewrite Nat.mul_comm, Nat.div_mul; lia).
    rewrite mult_INR. change (INR 2) with 2%R. lra.
  - assert (O : Nat.odd nd = true) by (rewrite <- Nat.negb_even, E; reflexivity).
    apply Nat.odd_spec in O. destruct O as [k ->].
    replace ((2 * k + 1) / 2)%nat with k by (rewrite Nat.mul_comm, Nat.div_add_l; [cbn; lia | lia]).
    rewrite plus_INR, mult_INR. change (INR 2) with 2%R. change (INR 1) with 1%R. lra.
Qed.

Lemma m_exp_phi nd a ph j :
  m_exp nd a ph j = Cexpi (2 * PI * (INR a - INR (nd / 2)) * ph / INR nd)%R * phi nd a j.
Proof.
  unfold m_exp, phi. rewrite <- Cexpi_add. f_equal. rewrite start_idx_half.
  unfold Rdiv. ring.
Qed.

(** the two roll conventions, up to whole turns *)
Lemma roll_idx a n : (a < n)%nat ->
  exists z : Z, INR ((a + (n - n / 2)) mod n) = (INR a - INR (n / 2) + INR n * IZR z)%R.
Proof.
  intros. exists (1 - Z.of_nat ((a + (n - n / 2)) / n))%Z.
  assert (n / 2 <= n)%nat by (apply Nat.div_le_upper_bound; lia).
  pose proof (Nat.div_mod (a + (n - n / 2)) n ltac:(lia)) as D.
  apply (f_equal INR) in D. rewrite !plus_INR, mult_INR, minus_INR in D by lia.
  rewrite minus_IZR, <- INR_IZR_INZ. lra.
Qed.
Lemma phase_turn n u z j : (0 < n)%nat ->
  Cexpi (- (2 * PI * (u + INR n * IZR z) * INR j / INR n))%R = Cexpi (- (2 * PI * u * INR j / INR n))%R.
Proof.
  intros. assert (INR n <> 0%R) by (apply not_0_INR; lia).
  replace (- (2 * PI * (u + INR n * IZR z) * INR j / INR n))%R
    with (- (2 * PI * u * INR j / INR n) + 2 * PI * IZR (- (z * Z.of_nat j)))%R.
  - apply Cexpi_period.
  - rewrite opp_IZR, mult_IZR, <- INR_IZR_INZ. field. assumption.
Qed.

Lemma mod_shift n j a : (a < n)%nat -> (j < n)%nat ->
  ((j + n / 2) mod n = a <-> j = (a + (n - n / 2)) mod n)%nat.
Proof.
  intros Ha Hj.
  assert (Hh : (n / 2 < n)%nat) by (apply Nat.div_lt_upper_bound; lia).
  assert (E1 : ((j + n / 2) mod n = if (j + n / 2 <? n) then j + n / 2 else j + n / 2 - n)%nat).
  { destruct (Nat.ltb_spec (j + n / 2) n).
    - apply Nat.mod_small. assumption.
    - replace (j + n / 2)%nat with (j + n / 2 - n + 1 * n)%nat at 1 by lia.
      rewrite Nat.mod_add by lia. apply Nat.mod_small. lia. }
  assert (E2 : ((a + (n - n / 2)) mod n = if (a + (n - n / 2) <? n) then a + (n - n / 2) else a + (n - n / 2) - n)%nat).
  { destruct (Nat.ltb_spec (a + (n - n / 2)) n).
    - apply Nat.mod_small. assumption.
    - replace (a + (n - n / 2))%nat with (a + (n - n / 2) - n + 1 * n)%nat at 1 by lia.
      rewrite Nat.mod_add by lia. apply Nat.mod_small. lia. }
  rewrite E1, E2.
  destruct (Nat.ltb_spec (j + n / 2) n), (Nat.ltb_spec (a + (n - n / 2)) n); lia.
Qed.

Lemma m_fft_phi n a j : (a < n)%nat -> m_fft n a j = phi n a j.
Proof.
  intros Ha. unfold m_fft, fft.
  set (j0 := ((a + (n - n / 2)) mod n)%nat).
  assert (Hj0 : (j0 < n)%nat) by (apply Nat.mod_upper_bound; lia).
  rewrite (csum_single _ _ j0 Hj0).
  - unfold ifftshift. replace (Nat.eqb _ a) with true.
    + unfold phi. destruct (roll_idx a n Ha) as [z Hz]. fold j0 in Hz.
      rewrite Hz. transitivity (Cexpi (- (2 * PI * (INR a - INR (n / 2) + INR n * IZR z) * INR j / INR n))%R).
      * replace (2 * PI * INR j * (INR a - INR (n / 2) + INR n * IZR z) / INR n)%R
          with (2 * PI * (INR a - INR (n / 2) + INR n * IZR z) * INR j / INR n)%R by (unfold Rdiv; ring).
        ring.
      * apply phase_turn. lia.
    + symmetry. apply Nat.eqb_eq. apply mod_shift; auto.
  - intros i Hi Hne. unfold ifftshift. replace (Nat.eqb _ a) with false.
    + ring.
    + symmetry. apply Nat.eqb_neq. intros E. apply mod_shift in E; auto.
Qed.

Lemma fftshift_DT n x a : (a < n)%nat -> fftshift n (fft n x) a = DT n n a x.
Proof.
  intros Ha. unfold fftshift, fft, DT. apply csum_ext. intros j Hj. f_equal.
  destruct (roll_idx a n Ha) as [z ->]. unfold phi. apply phase_turn. lia.
Qed.

Lemma phi_conj nd a j : Cconj (phi nd a j) * phi nd a j = C1.
Proof. apply Cexpi_conj. Qed.
Lemma phi_abs nd a j : Cabs2 (phi nd a j) = 1%R.
Proof. apply Cexpi_abs. Qed.

Lemma get_Q_alt_ok mode nd nf fft ext ph :
  (0 <= mode < Z.of_nat nd)%Z ->
  exists Q, get_Q_alt mode nd nf fft ext ph = Ok ((nf + ext)%nat, Q) /\
            forall i j, Q i j = Cconj (phi nd (Z.to_nat mode) i) * phi nd (Z.to_nat mode) j.
Proof.
  intros H. unfold get_Q_alt.
  destruct (Z.geb_spec mode (Z.of_nat nd)); [lia |]. destruct (Z.ltb_spec mode 0); [lia |]. cbn [orb].
  eexists. split; [reflexivity |]. intros i j. cbv beta.
  assert (Ha : (Z.to_nat mode < nd)%nat) by lia.
  destruct (Nat.eqb nd (nf + ext) && fft)%bool eqn:E.
  - apply andb_prop in E. destruct E as [E _]. apply Nat.eqb_eq in E. rewrite <- E.
    rewrite !m_fft_phi by assumption. reflexivity.
  - rewrite !m_exp_phi, Cconj_mul.
    match goal with |- Cconj ?c * _ * (?c * _) = _ =>
      assert (Hc : Cconj c * c = C1) by apply Cexpi_conj;
      transitivity (Cconj c * c * (Cconj (phi nd (Z.to_nat mode) i) * phi nd (Z.to_nat mode) j));
      [ring | rewrite Hc; ring] end.
Qed.
Lemma get_Q_alt_err mode nd nf fft ext ph :
  ~ (0 <= mode < Z.of_nat nd)%Z -> get_Q_alt mode nd nf fft ext ph = Err IndexError.
Proof.
  intros H. unfold get_Q_alt.
  destruct (Z.geb_spec mode (Z.of_nat nd)); [reflexivity |]. destruct (Z.ltb_spec mode 0); [reflexivity |]. lia.
Qed.
Lemma Qm_phi nd nf fft ext ph a i j : (a < nd)%nat ->
  Qm nd nf fft ext ph a i j = Cconj (phi nd a i) * phi nd a j.
Proof.
  intros H. unfold Qm. destruct (get_Q_alt_ok (Z.of_nat a) nd nf fft ext ph ltac:(lia)) as (Q & -> & HQ).
  rewrite HQ, Nat2Z.id. reflexivity.
Qed.

Lemma q_sandwich nd nf (Q : mat) (u v : vec) a :
  (forall i j, Q i j = Cconj (phi nd a i) * phi nd a j) ->
  csum nf (fun i => Cconj (u i) * csum nf (fun k => Q i k * v k)) = Cconj (DT nd nf a u) * DT nd nf a v.
Proof.
  intros HQ. unfold DT. rewrite csum_conj, csum_prod. apply csum_ext. intros i Hi.
  rewrite <- csum_mul_l. apply csum_ext. intros k Hk. rewrite HQ, Cconj_mul. ring.
Qed.

Lemma q_hat_DT nd nf ne k1 k2 fft dt beam :
  exists q, q_hat nd nf ne k1 k2 fft false dt beam = Ok q /\
    forall a t, (a < nd)%nat ->
      q a t = RtoC (/ 2) * (Cconj (DT nd nf a (fun i => Rx ne k1 i t)) * DT nd nf a (fun i => Rx ne k2 i t)).
Proof.
  unfold q_hat. cbn [andb].
  destruct (fft && Nat.eqb nf nd)%bool eqn:E.
  - eexists. split; [reflexivity |]. intros a t Ha. cbv beta.
    apply andb_prop in E. destruct E as [_ E]. apply Nat.eqb_eq in E. subst nf.
    rewrite !fftshift_DT by assumption. ring.
  - eexists. split; [reflexivity |]. intros a t Ha. cbv beta. f_equal.
    unfold mmul. apply q_sandwich. intros. apply Qm_phi. assumption.
Qed.

(** ** the response matrices *)
Definition Bf (nd nf ne : nat) (Rm : mat) (i j : nat) : C :=
  csum nf (fun f => csum ne (fun e => phi nd i f * Rm f e * Cconj (phi nd j e))).

Lemma csum4 n m f : (* (i, j) sums exchanged pairwise *)
  csum n (fun i => csum m (fun j => f i j)) = csum m (fun j => csum n (fun i => f i j)).
Proof. apply csum_swap. Qed.

Lemma trace2_expand n m A B Q1 Q2 :
  trace2 n m (mmul m (ctrans A) Q1) (mmul n B Q2)
  = csum n (fun e => csum m (fun f => csum m (fun f' => csum n (fun e' =>
      Cconj (A f' e) * Q1 f' f * (B f e' * Q2 e' e))))).
Proof.
  unfold trace2, mmul, ctrans. apply csum_ext. intros e _. apply csum_ext. intros f _.
  rewrite csum_prod. reflexivity.
Qed.

(** conjugating the trace exchanges the two weightings *)
Lemma trace2_swap n m A B Q1 Q2 :
  (forall f f', (f < m)%nat -> (f' < m)%nat -> Cconj (Q1 f f') = Q1 f' f) ->
  (forall e e', (e < n)%nat -> (e' < n)%nat -> Cconj (Q2 e e') = Q2 e' e) ->
  Cconj (trace2 n m (mmul m (ctrans A) Q1) (mmul n B Q2)) = trace2 n m (mmul m (ctrans B) Q1) (mmul n A Q2).
Proof.
  intros H1 H2. rewrite !trace2_expand, csum_conj.
  transitivity (csum n (fun e => csum m (fun f => csum m (fun f' => csum n (fun e' =>
      A f' e * Q1 f f' * (Cconj (B f e') * Q2 e e')))))).
  { apply csum_ext. intros e He. rewrite csum_conj. apply csum_ext. intros f Hf. rewrite csum_conj.
    apply csum_ext. intros f' Hf'. rewrite csum_conj. apply csum_ext. intros e' He'.
    rewrite !Cconj_mul, Cconj_conj, H1, H2 by assumption. reflexivity. }
  (* e <-> e', f <-> f' *)
  transitivity (csum n (fun e' => csum m (fun f' => csum m (fun f => csum n (fun e =>
      A f' e * Q1 f f' * (Cconj (B f e') * Q2 e e')))))).
  - transitivity (csum n (fun e => csum m (fun f' => csum m (fun f => csum n (fun e' =>
      A f' e * Q1 f f' * (Cconj (B f e') * Q2 e e')))))).
    { apply csum_ext. intros e He. apply csum_swap. }
    transitivity (csum n (fun e => csum n (fun e' => csum m (fun f' => csum m (fun f =>
      A f' e * Q1 f f' * (Cconj (B f e') * Q2 e e')))))).
    { apply csum_ext. intros e He.
      transitivity (csum m (fun f' => csum n (fun e' => csum m (fun f =>
        A f' e * Q1 f f' * (Cconj (B f e') * Q2 e e'))))).
      - apply csum_ext. intros f' Hf'. apply csum_swap.
      - apply csum_swap. }
    rewrite csum_swap. apply csum_ext. intros e' He'.
    transitivity (csum m (fun f' => csum n (fun e => csum m (fun f =>
        A f' e * Q1 f f' * (Cconj (B f e') * Q2 e e'))))).
    + apply csum_swap.
    + apply csum_ext. intros f' Hf'. apply csum_swap.
  - apply csum_ext. intros e' He'. apply csum_ext. intros f' Hf'. apply csum_ext. intros f Hf.
    apply csum_ext. intros e He. ring.
Qed.

Lemma trace2_rank1 nd n m A B i j Q1 Q2 :
  (forall f f', Q1 f f' = Cconj (phi nd i f) * phi nd i f') ->
  (forall f f', Q2 f f' = Cconj (phi nd j f) * phi nd j f') ->
  trace2 n m (mmul m (ctrans A) Q1) (mmul n B Q2) = Cconj (Bf nd m n A i j) * Bf nd m n B i j.
Proof.
  intros H1 H2. rewrite trace2_expand. unfold Bf.
  transitivity (csum n (fun e => csum m (fun f' => Cconj (A f' e) * Cconj (phi nd i f') * phi nd j e))
                * csum m (fun f => csum n (fun e' => phi nd i f * B f e' * Cconj (phi nd j e')))).
  - rewrite csum_prod. apply csum_ext. intros e He. apply csum_ext. intros f Hf.
    rewrite csum_prod. apply csum_ext. intros f' Hf'. apply csum_ext. intros e' He'.
    rewrite H1, H2. ring.
  - f_equal. rewrite csum_conj, csum_swap. apply csum_ext. intros f Hf. rewrite csum_conj.
    apply csum_ext. intros e He. rewrite !Cconj_mul, Cconj_conj. ring.
Qed.

Lemma raw_G nd nf ext ph R1 R2 i j : (i < nd)%nat -> (j < nd)%nat ->
  raw_response nd nf ext ph R1 R2 ones ones i j
  = Cconj (Bf nd nf (nf + ext) R1 i j) * Bf nd nf (nf + ext) R2 i j.
Proof.
  intros Hi Hj. unfold raw_response. apply trace2_rank1; intros f f'; unfold mhad, ones.
  - rewrite Qm_phi by assumption. ring.
  - rewrite Qm_phi by assumption. ring.
Qed.

Lemma Ceqb_spec a b : reflect (a = b) (Ceqb a b).
Proof.
  unfold Ceqb. destruct (Req_EM_T (re a) (re b)).
  - destruct (Req_EM_T (im a) (im b)); constructor.
    + apply Ceq; assumption.
    + intros E. subst. auto.
  - constructor. intros E. subst. auto.
Qed.
Lemma all_zerob_spec n g : all_zerob n g = true <-> all_zero n g.
Proof.
  unfold all_zerob, all_zero. rewrite forallb_forall. split.
  - intros H i j Hi Hj. specialize (H i). rewrite in_seq in H. specialize (H ltac:(lia)).
    rewrite forallb_forall in H. specialize (H j). rewrite in_seq in H. specialize (H ltac:(lia)).
    destruct (Ceqb_spec (g i j) C0); congruence.
  - intros H i Hi. rewrite in_seq in Hi. rewrite forallb_forall. intros j Hj. rewrite in_seq in Hj.
    destruct (Ceqb_spec (g i j) C0); auto. exfalso. apply n0. apply H; lia.
Qed.
Lemma all_zerob_false n g i j : (i < n)%nat -> (j < n)%nat -> g i j <> C0 -> all_zerob n g = false.
Proof.
  intros. destruct (all_zerob n g) eqn:E; auto. apply all_zerob_spec in E. exfalso. auto.
Qed.
Lemma all_zerob_ext n g g' : (forall i j, (i < n)%nat -> (j < n)%nat -> (g i j = C0 <-> g' i j = C0)) ->
  all_zerob n g = all_zerob n g'.
Proof.
  intros H. destruct (all_zerob n g) eqn:E; symmetry.
  - apply all_zerob_spec in E. apply all_zerob_spec. intros i j Hi Hj. apply H; auto.
  - destruct (all_zerob n g') eqn:E'; auto. apply all_zerob_spec in E'.
    enough (all_zerob n g = true) by congruence. apply all_zerob_spec. intros i j Hi Hj. apply H; auto.
Qed.

(** orthogonality of the Fourier modes *)
Lemma phi_orth_e n e e' : (e < n)%nat -> (e' < n)%nat ->
  csum n (fun j => phi n j e * Cconj (phi n j e')) = if Nat.eqb e e' then RtoC (INR n) else C0.
Proof.
  intros He He'.
  assert (Hn : INR n <> 0%R) by (apply not_0_INR; lia).
  set (d := (Z.of_nat e' - Z.of_nat e)%Z).
  transitivity (csum n (fun j => Cexpi (2 * PI * INR (n / 2) * (INR e - INR e') / INR n)%R
                                 * Cexpi (2 * PI * IZR d / INR n * INR j)%R)).
  { apply csum_ext. intros j Hj. unfold phi. rewrite <- Cexpi_opp, <- !Cexpi_add. f_equal.
    unfold d. rewrite minus_IZR, <- !INR_IZR_INZ. field. assumption. }
  rewrite csum_mul_l. destruct (Nat.eqb_spec e e').
  - subst e'. replace d with 0%Z by lia.
    replace (2 * PI * INR (n / 2) * (INR e - INR e) / INR n)%R with 0%R by (field; assumption).
    rewrite Cexpi_0. transitivity (csum n (fun _ => C1)).
    + rewrite <- (csum_ext n (fun _ => C1)). ring.
      intros. replace (2 * PI * 0 / INR n * INR i)%R with 0%R by (field; assumption). symmetry. apply Cexpi_0.
    + rewrite csum_const. ring.
  - rewrite roots_sum. ring. lia.
    intros E. pose proof (Z.div_mod d (Z.of_nat n) ltac:(lia)).
    assert (Z.of_nat n * (d / Z.of_nat n) = d)%Z by lia.
    assert (- Z.of_nat n < d < Z.of_nat n)%Z by (unfold d; lia).
    assert (d / Z.of_nat n = 0)%Z by nia. unfold d in *. nia.
Qed.
Lemma phi_orth_a n a b : (a < n)%nat -> (b < n)%nat ->
  csum n (fun j => phi n a j * Cconj (phi n b j)) = if Nat.eqb a b then RtoC (INR n) else C0.
Proof.
  intros Ha Hb.
  assert (Hn : INR n <> 0%R) by (apply not_0_INR; lia).
  set (d := (Z.of_nat b - Z.of_nat a)%Z).
  transitivity (csum n (fun j => Cexpi (2 * PI * IZR d / INR n * INR j)%R)).
  { apply csum_ext. intros j Hj. unfold phi. rewrite <- Cexpi_opp, <- !Cexpi_add. f_equal.
    unfold d. rewrite minus_IZR, <- !INR_IZR_INZ. field. assumption. }
  destruct (Nat.eqb_spec a b).
  - subst b. replace d with 0%Z by lia.
    rewrite (csum_ext n _ (fun _ => C1)).
    + rewrite csum_const. ring.
    + intros. replace (2 * PI * 0 / INR n * INR i)%R with 0%R by (field; assumption). apply Cexpi_0.
  - rewrite roots_sum. ring. lia.
    intros E. assert (- Z.of_nat n < d < Z.of_nat n)%Z by (unfold d; lia).
    assert (d / Z.of_nat n = 0)%Z by nia. unfold d in *. nia.
Qed.

(** identity weighting *)
Lemma Bf_diag nd n (w : vec) i j :
  Bf nd n n (diag w) i j = csum n (fun f => phi nd i f * w f * Cconj (phi nd j f)).
Proof.
  unfold Bf, diag. apply csum_ext. intros f Hf.
  rewrite (csum_ext n _ (fun e => if Nat.eqb f e then phi nd i f * w f * Cconj (phi nd j e) else C0)).
  - apply csum_single_l. assumption.
  - intros e He. destruct (Nat.eqb f e); ring.
Qed.

(** sum over delays of the response, for as many delays as channels *)
Lemma rowsum_raw n (w1 w2 : vec) i : (i < n)%nat ->
  csum n (fun j => Cconj (Bf n n n (diag w1) i j) * Bf n n n (diag w2) i j)
  = RtoC (INR n) * csum n (fun f => Cconj (w1 f) * w2 f).
Proof.
  intros Hi.
  transitivity (csum n (fun f => csum n (fun f' =>
     Cconj (phi n i f) * Cconj (w1 f) * phi n i f' * w2 f' * (csum n (fun j => phi n j f * Cconj (phi n j f')))))).
  - transitivity (csum n (fun j => csum n (fun f => csum n (fun f' =>
       Cconj (phi n i f) * Cconj (w1 f) * phi n i f' * w2 f' * (phi n j f * Cconj (phi n j f')))))).
    + apply csum_ext. intros j Hj. rewrite !Bf_diag, csum_conj, csum_prod.
      apply csum_ext. intros f Hf. apply csum_ext. intros f' Hf'. rewrite !Cconj_mul, Cconj_conj. ring.
    + rewrite csum_swap. apply csum_ext. intros f Hf. rewrite csum_swap. apply csum_ext. intros f' Hf'.
      apply csum_mul_l.
  - rewrite <- csum_mul_l. apply csum_ext. intros f Hf.
    rewrite (csum_ext n _ (fun f' => if Nat.eqb f f' then
      Cconj (phi n i f) * Cconj (w1 f) * phi n i f' * w2 f' * RtoC (INR n) else C0)).
    + rewrite (csum_single_l n (fun f' => Cconj (phi n i f) * Cconj (w1 f) * phi n i f' * w2 f' * RtoC (INR n))) by assumption.
      transitivity (Cconj (phi n i f) * phi n i f * (RtoC (INR n) * (Cconj (w1 f) * w2 f))); [ring |].
      rewrite phi_conj. ring.
    + intros f' Hf'. rewrite phi_orth_e by assumption. destruct (Nat.eqb f f'); ring.
Qed.

Lemma RtoC_inj x y : RtoC x = RtoC y -> x = y.
Proof. intros E. injection E. auto. Qed.
Lemma RtoC_neq0 x : x <> 0%R -> RtoC x <> C0.
Proof. intros H E. apply H. injection E. auto. Qed.
Lemma C1_neq0 : C1 <> C0.
Proof. intros E. injection E. lra. Qed.
Lemma Cdiv_mul a b : b <> C0 -> a / b * b = a.
Proof. intros. unfold Cdiv. rewrite <- (Cinv_l b) at 2 || idtac. transitivity (a * (Cinv b * b)); [ring |]. rewrite Cinv_l by assumption. ring. Qed.
Lemma Cinv_mul a b : Cinv (a * b) = Cinv a * Cinv b.
Proof.
  destruct (Ceqb_spec a C0); [subst; rewrite Cinv_0; replace (C0 * b) with C0 by ring; rewrite Cinv_0; ring |].
  destruct (Ceqb_spec b C0); [subst; rewrite Cinv_0; replace (a * C0) with C0 by ring; rewrite Cinv_0; ring |].
  assert (a * b <> C0) by (intros E; apply Cmul_0_inv in E; tauto).
  transitivity (Cinv (a * b) * (a * b) * (Cinv a * Cinv b)).
  - transitivity (Cinv (a * b) * ((a * Cinv a) * (b * Cinv b))); [|ring].
    rewrite !Cinv_r by assumption. ring.
  - rewrite Cinv_l by assumption. ring.
Qed.
Lemma Cinv_R x : x <> 0%R -> Cinv (RtoC x) = RtoC (/ x).
Proof. intros. apply Ceq; cbn; unfold Cabs2; cbn; field; assumption. Qed.
Lemma Cdiv_R a x : x <> 0%R -> a / RtoC x = RtoC (/ x) * a.
Proof. intros. unfold Cdiv. rewrite Cinv_R by assumption. ring. Qed.
Lemma Cabs2_mul a b : Cabs2 (a * b) = (Cabs2 a * Cabs2 b)%R.
Proof. unfold Cabs2. cbn. ring. Qed.
Lemma Cabs2_conj a : Cabs2 (Cconj a) = Cabs2 a.
Proof. unfold Cabs2. cbn. ring. Qed.
Lemma Cabs2_R x : Cabs2 (RtoC x) = (x * x)%R.
Proof. unfold Cabs2. cbn. ring. Qed.
Lemma Cconj_eq0 a : Cconj a = C0 <-> a = C0.
Proof. split; intros E. rewrite <- (Cconj_conj a), E. apply Cconj_0. subst. apply Cconj_0. Qed.
