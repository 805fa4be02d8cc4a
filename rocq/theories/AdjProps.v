(** The delay adjustment of the power spectrum normalisation. *)
From Coq Require Import Reals Lra.
From Verif Require Import Prelude CNum OqeModel OqeProofs AdjModel.
Open Scope R_scope.

(** ** real sums *)
Lemma rsum_ext n f g : (forall i, (i < n)%nat -> f i = g i) -> rsum n f = rsum n g.
Proof. induction n as [|n IH]; intro H; [reflexivity|]. cbn. rewrite IH by (intros; apply H; lia). rewrite H by lia. reflexivity. Qed.
Lemma rsum_le n f g : (forall i, (i < n)%nat -> f i <= g i) -> rsum n f <= rsum n g.
Proof. induction n as [|n IH]; intro H; [cbn; lra|]. cbn. pose proof (IH (fun i Hi => H i ltac:(lia))). pose proof (H n ltac:(lia)). lra. Qed.
Lemma rsum_nonneg n f : (forall i, (i < n)%nat -> 0 <= f i) -> 0 <= rsum n f.
Proof. intro H. replace 0 with (rsum n (fun _ => 0)); [apply rsum_le; exact H|]. clear. induction n; cbn; lra. Qed.
Lemma rsum_pos n f k : (forall i, (i < n)%nat -> 0 <= f i) -> (k < n)%nat -> 0 < f k -> 0 < rsum n f.
Proof.
  intros H Hk P. induction n as [|n IH]; [lia|]. cbn. destruct (Nat.eq_dec k n) as [->|Ne].
  - pose proof (rsum_nonneg n f (fun i Hi => H i ltac:(lia))). lra.
  - pose proof (IH (fun i Hi => H i ltac:(lia)) ltac:(lia)). pose proof (H n ltac:(lia)). lra.
Qed.
Lemma rsum_const n c : rsum n (fun _ => c) = INR n * c.
Proof. induction n as [|n IH]; [cbn; ring|]. cbn [rsum]. rewrite IH, S_INR. ring. Qed.
Lemma rsum_scale n c f : rsum n (fun i => c * f i) = c * rsum n f.
Proof. induction n as [|n IH]; cbn; [ring|]. rewrite IH. ring. Qed.
Lemma rsum_single n f k : (k < n)%nat -> (forall i, (i < n)%nat -> i <> k -> f i = 0) -> rsum n f = f k.
Proof.
  intros Hk H. induction n as [|n IH]; [lia|]. cbn. destruct (Nat.eq_dec k n) as [->|Ne].
  - replace (rsum n f) with 0; [lra|]. rewrite (rsum_ext n f (fun _ => 0)) by (intros; apply H; lia). rewrite rsum_const. ring.
  - rewrite IH by (try lia; intros; apply H; lia). rewrite (H n) by lia. ring.
Qed.
Lemma csum_RtoC n f : csum n (fun i => RtoC (f i)) = RtoC (rsum n f).
Proof. induction n as [|n IH]; [reflexivity|]. cbn [csum rsum]. rewrite IH, <- RtoC_add. reflexivity. Qed.
Lemma rmean_const n c f : (0 < n)%nat -> (forall i, (i < n)%nat -> f i = c) -> rmean n f = c.
Proof.
  intros Hn H. unfold rmean. rewrite (rsum_ext n f (fun _ => c)) by exact H. rewrite rsum_const. field. apply not_0_INR. lia.
Qed.

(** ** Fourier modes at congruent channels *)
Lemma phi_congr nd a e f : (0 < nd)%nat -> (e mod nd = f mod nd)%nat -> phi nd a e = phi nd a f.
Proof.
  intros Hn E. unfold phi.
  pose proof (Nat.div_mod e nd ltac:(lia)) as D1. pose proof (Nat.div_mod f nd ltac:(lia)) as D2.
  set (z := (Z.of_nat (e / nd) - Z.of_nat (f / nd))%Z).
  assert (Ez : INR e = INR f + INR nd * IZR z).
  { rewrite !INR_IZR_INZ, <- mult_IZR, <- plus_IZR. f_equal. unfold z. rewrite D1 at 1. rewrite D2 at 1. rewrite E. nia. }
  rewrite Ez. assert (INR nd <> 0) by (apply not_0_INR; lia).
  replace (- (2 * PI * (INR a - INR (nd / 2)) * (INR f + INR nd * IZR z) / INR nd))
    with (- (2 * PI * (INR a - INR (nd / 2)) * INR f / INR nd) + 2 * PI * IZR (- ((Z.of_nat a - Z.of_nat (nd / 2)) * z))).
  - apply Cexpi_period.
  - rewrite opp_IZR, mult_IZR, minus_IZR, <- !INR_IZR_INZ. field. assumption.
Qed.
Lemma phi_orth_gen nd e f : (0 < nd)%nat ->
  csum nd (fun j => (phi nd j e * Cconj (phi nd j f))%C) = if Nat.eqb (e mod nd) (f mod nd) then RtoC (INR nd) else C0.
Proof.
  intro Hn. assert (He : (e mod nd < nd)%nat) by (apply Nat.mod_upper_bound; lia). assert (Hf : (f mod nd < nd)%nat) by (apply Nat.mod_upper_bound; lia).
  rewrite <- (phi_orth_e nd (e mod nd) (f mod nd) He Hf). apply csum_ext. intros j _.
  rewrite (phi_congr nd j e (e mod nd)), (phi_congr nd j f (f mod nd)) by (try lia; rewrite Nat.mod_mod by lia; reflexivity). reflexivity.
Qed.

(** ** the specification: sums over the pairs of channels that the delays cannot tell apart *)
Definition alias (nd k l : nat) : bool := Nat.eqb (k mod nd) (l mod nd).
Definition pair_sum (nd nf : nat) (w1 w2 : nat -> R) (s : nat -> nat -> R) : R :=
  rsum nf (fun k => rsum nf (fun l => if alias nd k l then w1 k * w2 l * s k l else 0)).

Lemma raw_rowsum nd nf (w1 w2 : nat -> R) (s : nat -> nat -> R) (weight : mat) i : (0 < nd)%nat -> (i < nd)%nat ->
  (forall k l, weight l k = RtoC (s k l)) ->
  rowsum nd (raw_response nd nf 0 0 (diag (fun k => RtoC (w1 k))) (diag (fun k => RtoC (w2 k))) ones weight) i
  = RtoC (INR nd * pair_sum nd nf w1 w2 s).
Proof.
  intros Hn Hi Hs. unfold rowsum.
  transitivity (csum nd (fun j => csum nf (fun e => csum nf (fun f =>
     (RtoC (w1 e * w2 f * s e f) * (Cconj (phi nd i e) * phi nd i f) * (phi nd j e * Cconj (phi nd j f)))%C)))).
  { apply csum_ext. intros j Hj. unfold raw_response. rewrite Nat.add_0_r, trace2_expand.
    apply csum_ext. intros e He. apply csum_ext. intros f Hf.
    rewrite (csum_single nf _ e); [|assumption|].
    2:{ intros e' He' Ne. apply csum_zero. intros f' Hf'. unfold diag at 1. destruct (Nat.eqb_spec e' e); [congruence|]. rewrite Cconj_0. ring. }
    rewrite (csum_single nf _ f); [|assumption|].
    2:{ intros f' Hf' Ne. unfold diag at 2. destruct (Nat.eqb_spec f f'); [congruence|]. ring. }
    unfold diag. rewrite !Nat.eqb_refl. unfold mhad, ones. rewrite !Qm_phi by assumption. rewrite (Hs e f), Cconj_R, !RtoC_mul. ring. }
  rewrite csum_swap. rewrite (csum_ext nf _ (fun e => RtoC (rsum nf (fun f => INR nd * (if alias nd e f then w1 e * w2 f * s e f else 0))))).
  - rewrite csum_RtoC. f_equal. unfold pair_sum. rewrite <- rsum_scale. apply rsum_ext. intros e He. apply rsum_scale.
  - intros e He. rewrite csum_swap. rewrite <- csum_RtoC. apply csum_ext. intros f Hf. rewrite csum_mul_l, phi_orth_gen by assumption.
    unfold alias. destruct (Nat.eqb_spec (e mod nd) (f mod nd)) as [E|E].
    + rewrite (phi_congr nd i e f Hn E). rewrite phi_conj. rewrite !RtoC_mul. ring.
    + rewrite Rmult_0_r. change (RtoC 0) with C0. generalize (RtoC (w1 e * w2 f * s e f) * (Cconj (phi nd i e) * phi nd i f))%C. intro z. ring.
Qed.

Lemma resp_rowsum nd nf (w1 w2 : nat -> R) (s : nat -> nat -> R) (weight : mat) i : (0 < nd)%nat -> (i < nd)%nat ->
  (forall k l, weight l k = RtoC (s k l)) -> pair_sum nd nf w1 w2 s <> 0 ->
  rowsum nd (response nd nf 0 0 (diag (fun k => RtoC (w1 k))) (diag (fun k => RtoC (w2 k))) ones weight) i
  = RtoC (INR nd * pair_sum nd nf w1 w2 s / 2).
Proof.
  intros Hn Hi Hs Hp. unfold response.
  set (g := raw_response nd nf 0 0 (diag (fun k => RtoC (w1 k))) (diag (fun k => RtoC (w2 k))) ones weight).
  assert (Z : all_zerob nd g = false).
  { destruct (all_zerob nd g) eqn:E; [|reflexivity]. exfalso. apply all_zerob_spec in E.
    pose proof (raw_rowsum nd nf w1 w2 s weight i Hn Hi Hs) as Q. fold g in Q. unfold rowsum in Q.
    rewrite csum_zero in Q by (intros j Hj; apply E; assumption).
    assert (0 = INR nd * pair_sum nd nf w1 w2 s) by (apply RtoC_inj; exact Q).
    assert (INR nd <> 0) by (apply not_0_INR; lia). apply Hp. symmetry in H. apply Rmult_integral in H. tauto. }
  rewrite Z. unfold rowsum.
  rewrite (csum_ext nd _ (fun j => (RtoC (/ 2) * g i j)%C)) by (intros j _; apply Cdiv_R; lra).
  rewrite csum_mul_l. pose proof (raw_rowsum nd nf w1 w2 s weight i Hn Hi Hs) as Q. fold g in Q. unfold rowsum in Q. etransitivity; [apply f_equal; exact Q|]. rewrite <- RtoC_mul. f_equal. field.
Qed.

(** ** sinc *)
Lemma sinc_pos x : -1 < x < 1 -> 0 < np_sinc x <= 1.
Proof.
  intro H. unfold np_sinc. destruct (Req_EM_T x 0) as [->|Nx]; [lra|].
  assert (P := PI_RGT_0).
  assert (G : forall y, 0 < y < 1 -> 0 < sin (PI * y) / (PI * y) <= 1).
  { intros y Hy. assert (Py : 0 < PI * y) by (apply Rmult_lt_0_compat; lra).
    assert (Sp : 0 < sin (PI * y)). { apply sin_gt_0; [exact Py|]. rewrite <- (Rmult_1_r PI) at 2. apply Rmult_lt_compat_l; lra. }
    assert (Sx : sin (PI * y) < PI * y) by (apply sin_lt_x; exact Py).
    split; [apply Rdiv_lt_0_compat; assumption|]. apply (Rmult_le_reg_r (PI * y)); [exact Py|]. unfold Rdiv. rewrite Rmult_assoc, Rinv_l, Rmult_1_r by lra. lra. }
  destruct (Rlt_dec 0 x); [apply G; lra|].
  replace (sin (PI * x) / (PI * x)) with (sin (PI * (- x)) / (PI * (- x))); [apply G; lra|].
  replace (PI * - x) with (- (PI * x)) by ring. rewrite sin_neg. field. split; [exact Nx | lra].
Qed.
Definition sincf (nf k l : nat) : R := np_sinc ((INR k - INR l) / INR nf).
Lemma sincf_pos nf k l : (k < nf)%nat -> (l < nf)%nat -> 0 < sincf nf k l <= 1.
Proof.
  intros Hk Hl. apply sinc_pos. assert (P : 0 < INR nf) by (apply lt_0_INR; lia). apply lt_INR in Hk, Hl. pose proof (pos_INR k). pose proof (pos_INR l).
  split; [apply (Rmult_lt_reg_r (INR nf)); [exact P|]; unfold Rdiv; rewrite Rmult_assoc, Rinv_l by lra; lra|].
  apply (Rmult_lt_reg_r (INR nf)); [exact P|]; unfold Rdiv; rewrite Rmult_assoc, Rinv_l by lra; lra.
Qed.
Lemma sinc_matrix_sym nf k l : sinc_matrix nf l k = RtoC (sincf nf k l).
Proof.
  unfold sinc_matrix, sincf. f_equal. unfold np_sinc. replace ((INR l - INR k) / INR nf) with (- ((INR k - INR l) / INR nf)) by (unfold Rdiv; ring).
  destruct (Req_EM_T (- ((INR k - INR l) / INR nf)) 0), (Req_EM_T ((INR k - INR l) / INR nf) 0); try lra.
  replace (PI * - ((INR k - INR l) / INR nf)) with (- (PI * ((INR k - INR l) / INR nf))) by ring. rewrite sin_neg.
  assert (P := PI_RGT_0). set (x := (INR k - INR l) / INR nf) in *. field. split; lra.
Qed.
Lemma sinc_matrix_sym0 nf k l : sinc_matrix (nf + 0) l k = RtoC (sincf nf k l).
Proof. rewrite Nat.add_0_r. apply sinc_matrix_sym. Qed.

(** weights: real, not negative, with a channel that both sides use *)
Definition usable (nf : nat) (w1 w2 : nat -> R) : Prop :=
  (forall i, (i < nf)%nat -> 0 <= w1 i /\ 0 <= w2 i) /\ exists k, (k < nf)%nat /\ 0 < w1 k * w2 k.
Lemma pair_sum_pos nd nf w1 w2 s : usable nf w1 w2 -> (forall k l, (k < nf)%nat -> (l < nf)%nat -> 0 < s k l) -> 0 < pair_sum nd nf w1 w2 s.
Proof.
  intros [H [k [Hk Pk]]] Hs.
  assert (NN : forall e f, (e < nf)%nat -> (f < nf)%nat -> 0 <= (if alias nd e f then w1 e * w2 f * s e f else 0)).
  { intros e f He Hf. destruct (alias nd e f); [|lra]. pose proof (H e He) as [? _]. pose proof (H f Hf) as [_ ?]. pose proof (Hs e f He Hf).
    apply Rmult_le_pos; [apply Rmult_le_pos; assumption | lra]. }
  unfold pair_sum. apply (rsum_pos nf _ k); [|exact Hk|].
  - intros e He. apply rsum_nonneg. intros f Hf. apply NN; assumption.
  - apply (rsum_pos nf _ k); [intros f Hf; apply NN; assumption | exact Hk|]. unfold alias. rewrite Nat.eqb_refl. apply Rmult_lt_0_compat; [exact Pk | apply Hs; exact Hk].
Qed.

(** the weights of identity weighting: diag(w), w real *)
Definition Rid (w : nat -> R) : mat := diag (fun k => RtoC (w k)).
Definition Gid nd nf w1 w2 := get_G nd nf 0 0 (Rid w1) (Rid w2) ones.
Definition Hid nd nf w1 w2 sampling := get_H nd nf 0 0 (Rid w1) (Rid w2) ones sampling.
Definition one2 : nat -> nat -> R := fun _ _ => 1.

Lemma ratio_value nd nf w1 w2 sampling a : (0 < nd)%nat -> (a < nd)%nat -> usable nf w1 w2 ->
  adj_ratio nd (Gid nd nf w1 w2) (Hid nd nf w1 w2 sampling) a =
  if sampling then 1 else pair_sum nd nf w1 w2 (sincf nf) / pair_sum nd nf w1 w2 one2.
Proof.
  intros Hn Ha U.
  assert (PG : 0 < pair_sum nd nf w1 w2 one2) by (apply pair_sum_pos; [exact U|]; intros; unfold one2; lra).
  assert (PS : 0 < pair_sum nd nf w1 w2 (sincf nf)) by (apply pair_sum_pos; [exact U|]; intros; apply sincf_pos; assumption).
  assert (Nd : 0 < INR nd) by (apply lt_0_INR; lia).
  unfold adj_ratio, Gid, Hid, get_G, get_H, Rid.
  rewrite (resp_rowsum nd nf w1 w2 one2 ones a Hn Ha) by (try reflexivity; lra). cbn [re RtoC].
  assert (Ng : INR nd * pair_sum nd nf w1 w2 one2 / 2 <> 0). { assert (0 < INR nd * pair_sum nd nf w1 w2 one2) by (apply Rmult_lt_0_compat; assumption). lra. }
  destruct sampling.
  - rewrite (resp_rowsum nd nf w1 w2 one2 ones a Hn Ha) by (try reflexivity; lra). cbn [re RtoC].
    destruct (Req_EM_T _ 0); [contradiction|]. field. lra.
  - rewrite (resp_rowsum nd nf w1 w2 (sincf nf) (sinc_matrix (nf + 0)) a Hn Ha) by (try (intros; apply sinc_matrix_sym0); lra). cbn [re RtoC].
    destruct (Req_EM_T _ 0); [contradiction|]. field. lra.
Qed.

(** for identity weighting the adjustment never depends on the band: no error, and a closed form *)
Theorem adjustment_identity : forall nd nf w1 w2 sampling taper, (0 < nd)%nat -> usable nf w1 w2 ->
  exists adj, scalar_delay_adjustment true nd nf taper (Gid nd nf w1 w2) (Hid nd nf w1 w2 sampling) = Ok adj /\
  forall a, adj a =
    INR nd / INR nf * (if sampling then 1 else pair_sum nd nf w1 w2 one2 / pair_sum nd nf w1 w2 (sincf nf)) *
    match taper with None => 1 | Some v => rsum nf (fun i => v i ^ 2) / INR nf end.
Proof.
  intros nd nf w1 w2 sampling taper Hn U.
  assert (PG : 0 < pair_sum nd nf w1 w2 one2) by (apply pair_sum_pos; [exact U|]; intros; unfold one2; lra).
  assert (PS : 0 < pair_sum nd nf w1 w2 (sincf nf)) by (apply pair_sum_pos; [exact U|]; intros; apply sincf_pos; assumption).
  set (c := if sampling then 1 else pair_sum nd nf w1 w2 (sincf nf) / pair_sum nd nf w1 w2 one2).
  assert (Pc : 0 < c). { unfold c. destruct sampling; [lra|]. apply Rdiv_lt_0_compat; assumption. }
  set (r := adj_ratio nd (Gid nd nf w1 w2) (Hid nd nf w1 w2 sampling)).
  assert (Er : forall a, (a < nd)%nat -> r a = c) by (intros a Ha; apply ratio_value; assumption).
  assert (Em : rmean nd r = c) by (apply rmean_const; assumption).
  unfold scalar_delay_adjustment. fold r.
  assert (Eb : band_dependent nd r = false).
  { unfold band_dependent. rewrite Em. destruct (existsb _ _) eqn:E; [|reflexivity]. exfalso. apply existsb_exists in E. destruct E as [a [Ha E]].
    apply in_seq in Ha. rewrite Er in E by lia. destruct (Rgt_dec _ _) as [G|]; [|discriminate]. unfold Rminus in G. rewrite Rplus_opp_r, Rabs_R0 in G. lra. }
  rewrite Eb. eexists. split; [reflexivity|]. intro a. rewrite Em.
  assert (Nf : 0 < INR nf). { destruct U as [_ [k [Hk _]]]. apply lt_0_INR. lia. }
  assert (Hfac : INR nd / (INR nf * c) = INR nd / INR nf * (if sampling then 1 else pair_sum nd nf w1 w2 one2 / pair_sum nd nf w1 w2 (sincf nf))).
  { unfold c. destruct sampling; field; repeat split; lra. }
  rewrite Hfac. destruct taper; reflexivity.
Qed.
Print Assumptions adjustment_identity.

(** as many delays as channels: only the taper remains *)
Theorem adjustment_full : forall n w1 w2 sampling taper, (0 < n)%nat -> usable n w1 w2 ->
  exists adj, scalar_delay_adjustment true n n taper (Gid n n w1 w2) (Hid n n w1 w2 sampling) = Ok adj /\
  forall a, adj a = match taper with None => 1 | Some v => rsum n (fun i => v i ^ 2) / INR n end.
Proof.
  intros n w1 w2 sampling taper Hn U. destruct (adjustment_identity n n w1 w2 sampling taper Hn U) as [adj [E H]]. exists adj. split; [exact E|].
  intro a. rewrite H.
  assert (PG : 0 < pair_sum n n w1 w2 one2) by (apply pair_sum_pos; [exact U|]; intros; unfold one2; lra).
  assert (Nn : 0 < INR n) by (apply lt_0_INR; lia).
  assert (ES : pair_sum n n w1 w2 (sincf n) = pair_sum n n w1 w2 one2).
  { unfold pair_sum. apply rsum_ext. intros k Hk. apply rsum_ext. intros l Hl. unfold alias. rewrite !Nat.mod_small by assumption.
    destruct (Nat.eqb_spec k l) as [->|]; [|reflexivity]. unfold sincf, one2, np_sinc.
    replace ((INR l - INR l) / INR n) with 0 by (field; lra). destruct (Req_EM_T 0 0); [ring | congruence]. }
  rewrite ES. destruct sampling, taper; field; lra.
Qed.
Print Assumptions adjustment_full.

(** fewer delays than channels: the adjustment is at least nd / nf times the taper, at most its inverse ratio *)
Theorem adjustment_bounds : forall nd nf w1 w2 sampling, (0 < nd)%nat -> usable nf w1 w2 ->
  exists adj, scalar_delay_adjustment true nd nf None (Gid nd nf w1 w2) (Hid nd nf w1 w2 sampling) = Ok adj /\
  forall a, INR nd / INR nf <= adj a /\ (sampling = true -> adj a = INR nd / INR nf).
Proof.
  intros nd nf w1 w2 sampling Hn U. destruct (adjustment_identity nd nf w1 w2 sampling None Hn U) as [adj [E H]]. exists adj. split; [exact E|].
  intro a. rewrite H. split; [|intros ->; ring].
  assert (PG : 0 < pair_sum nd nf w1 w2 one2) by (apply pair_sum_pos; [exact U|]; intros; unfold one2; lra).
  assert (PS : 0 < pair_sum nd nf w1 w2 (sincf nf)) by (apply pair_sum_pos; [exact U|]; intros; apply sincf_pos; assumption).
  assert (Nf : 0 < INR nf). { destruct U as [_ [k [Hk _]]]. apply lt_0_INR. lia. }
  assert (Nd : 0 < INR nd) by (apply lt_0_INR; lia).
  assert (Q : 0 < INR nd / INR nf) by (apply Rdiv_lt_0_compat; assumption).
  destruct sampling; [lra|]. rewrite Rmult_1_r.
  assert (Le : pair_sum nd nf w1 w2 (sincf nf) <= pair_sum nd nf w1 w2 one2).
  { unfold pair_sum. apply rsum_le. intros k Hk. apply rsum_le. intros l Hl. destruct (alias nd k l); [|lra].
    destruct U as [U _]. pose proof (U k Hk) as [? _]. pose proof (U l Hl) as [_ ?]. pose proof (sincf_pos nf k l Hk Hl). unfold one2.
    apply Rmult_le_compat_l; [apply Rmult_le_pos; assumption | lra]. }
  assert (1 <= pair_sum nd nf w1 w2 one2 / pair_sum nd nf w1 w2 (sincf nf)).
  { apply (Rmult_le_reg_r (pair_sum nd nf w1 w2 (sincf nf))); [exact PS|]. unfold Rdiv. rewrite Rmult_assoc, Rinv_l by lra. lra. }
  rewrite <- (Rmult_1_r (INR nd / INR nf)) at 1. apply Rmult_le_compat_l; lra.
Qed.
Print Assumptions adjustment_bounds.

(** completely flagged data: no division by zero, the adjustment is nd / nf times the taper *)
Theorem adjustment_flagged : forall nd nf w1 w2 sampling taper, (0 < nd)%nat ->
  ((forall i, (i < nf)%nat -> w1 i = 0) \/ (forall i, (i < nf)%nat -> w2 i = 0)) ->
  exists adj, scalar_delay_adjustment true nd nf taper (Gid nd nf w1 w2) (Hid nd nf w1 w2 sampling) = Ok adj /\
  forall a, adj a = INR nd / (INR nf * 1) * match taper with None => 1 | Some v => rsum nf (fun i => v i ^ 2) / INR nf end.
Proof.
  intros nd nf w1 w2 sampling taper Hn Z.
  assert (RS : forall weight i, (i < nd)%nat -> rowsum nd (response nd nf 0 0 (Rid w1) (Rid w2) ones weight) i = RtoC (/ 2)).
  { intros weight i Hi. unfold response.
    assert (Az : all_zerob nd (raw_response nd nf 0 0 (Rid w1) (Rid w2) ones weight) = true).
    { apply all_zerob_spec. intros x y Hx Hy. unfold raw_response. rewrite Nat.add_0_r, trace2_expand.
      apply csum_zero. intros e He. apply csum_zero. intros f Hf. apply csum_zero. intros f' Hf'. apply csum_zero. intros e' He'.
      unfold Rid, diag. destruct Z as [Z|Z].
      - destruct (Nat.eqb f' e); [rewrite (Z f' Hf'), Cconj_R; change (RtoC 0) with C0; ring | rewrite Cconj_0; ring].
      - destruct (Nat.eqb f e'); [rewrite (Z f Hf); change (RtoC 0) with C0; ring | ring]. }
    rewrite Az. unfold rowsum. rewrite (csum_single nd _ i Hi).
    - unfold eye. rewrite Nat.eqb_refl. rewrite Cdiv_R by lra. ring.
    - intros j Hj Ne. unfold eye. destruct (Nat.eqb_spec i j); [congruence|]. rewrite Cdiv_R by lra. ring. }
  set (r := adj_ratio nd (Gid nd nf w1 w2) (Hid nd nf w1 w2 sampling)).
  assert (Er : forall a, (a < nd)%nat -> r a = 1).
  { intros a Ha. unfold r, adj_ratio, Gid, Hid, get_G, get_H. rewrite !RS by assumption. cbn [re RtoC]. destruct (Req_EM_T (/ 2) 0); [lra|]. field. }
  assert (Em : rmean nd r = 1) by (apply rmean_const; assumption).
  unfold scalar_delay_adjustment. fold r.
  assert (Eb : band_dependent nd r = false).
  { unfold band_dependent. rewrite Em. destruct (existsb _ _) eqn:E; [|reflexivity]. exfalso. apply existsb_exists in E. destruct E as [a [Ha E]].
    apply in_seq in Ha. rewrite Er in E by lia. destruct (Rgt_dec _ _) as [G|]; [|discriminate]. unfold Rminus in G. rewrite Rplus_opp_r, Rabs_R0 in G. lra. }
  rewrite Eb. eexists. split; [reflexivity|]. intro a. rewrite Em. destruct taper; reflexivity.
Qed.
Print Assumptions adjustment_flagged.

(** other weightings: one value per delay, never an error *)
Theorem adjustment_weighted : forall nd nf taper G H,
  exists adj, scalar_delay_adjustment false nd nf taper G H = Ok adj /\
  forall a, re (rowsum nd G a) <> 0 -> re (rowsum nd H a) <> 0 -> (0 < nf)%nat ->
    adj a = INR nd * re (rowsum nd G a) / (INR nf * re (rowsum nd H a)) *
            match taper with None => 1 | Some v => rsum nf (fun i => v i ^ 2) / INR nf end.
Proof.
  intros nd nf taper G H. eexists. split; [reflexivity|]. intros a Hg Hh Hf. unfold adj_ratio. destruct (Req_EM_T _ 0); [contradiction|].
  assert (INR nf <> 0) by (apply not_0_INR; lia).
  destruct taper; [fold (rmean nf (fun i => r i ^ 2))|]; f_equal; field; repeat split; assumption.
Qed.
Print Assumptions adjustment_weighted.

(** a case: unit weights, four channels *)
Example adjustment_case : usable 4 (fun _ => 1) (fun i => if Nat.eqb i 2 then 0 else 1).
Proof. split; [intros i _; destruct (Nat.eqb i 2); lra|]. exists 0%nat. split; [lia|]. cbn. lra. Qed.
Example pair_sum_case : pair_sum 2 4 (fun _ => 1) (fun _ => 1) one2 = 8.
Proof. unfold pair_sum, one2. cbn. ring. Qed.

(** ** further claims found by mutation testing *)
(** identity weighting: an error exactly if the ratios of the delays scatter by more than 1e-4 of their mean *)
Theorem adjustment_error : forall nd nf taper G H r, (forall a, (a < nd)%nat -> r a = if Req_EM_T (re (rowsum nd G a)) 0 then 1 else re (rowsum nd H a) / re (rowsum nd G a)) ->
  let mean := rsum nd r / INR nd in
  (scalar_delay_adjustment true nd nf taper G H = Err ValueError <-> exists a, (a < nd)%nat /\ Rabs (r a - mean) > mean / 10000) /\
  ((exists adj, scalar_delay_adjustment true nd nf taper G H = Ok adj) <-> forall a, (a < nd)%nat -> Rabs (r a - mean) <= mean / 10000).
Proof.
  intros nd nf taper G H r Hr mean.
  assert (M : forall n f g, (forall a, (a < n)%nat -> f a = g a) -> rsum n f = rsum n g).
  { clear. induction n as [|n IH]; intros f g E; [reflexivity|]. cbn. rewrite (IH f g) by (intros; apply E; lia). rewrite E by lia. reflexivity. }
  assert (EM : rmean nd (adj_ratio nd G H) = mean). { unfold rmean, mean. f_equal. apply M. intros a Ha. rewrite Hr by exact Ha. reflexivity. }
  assert (B : band_dependent nd (adj_ratio nd G H) = true <-> exists a, (a < nd)%nat /\ Rabs (r a - mean) > mean / 10000).
  { unfold band_dependent. rewrite existsb_exists. split.
    - intros (a & Ia & Da). apply in_seq in Ia. exists a. split; [lia|]. rewrite EM in Da. destruct (Rgt_dec _ _) as [D|]; [|discriminate]. rewrite Hr by lia. exact D.
    - intros (a & Ia & Da). exists a. split; [apply in_seq; lia|]. rewrite EM. destruct (Rgt_dec _ _) as [D|D]; [reflexivity|]. exfalso. apply D. rewrite Hr in Da by lia. exact Da. }
  unfold scalar_delay_adjustment. destruct (band_dependent nd (adj_ratio nd G H)) eqn:E.
  - split; [split; [intros _; apply B; reflexivity|reflexivity]|]. split; [intros [adj K]; discriminate|]. intros K. exfalso. destruct (proj1 B eq_refl) as (a & Ha & Da). specialize (K a Ha). lra.
  - split; [split; [discriminate|intros K; apply B in K; discriminate]|]. split; [|eauto]. intros _ a Ha. apply Rnot_lt_le. intro K. assert (false = true) by (apply B; exists a; split; [exact Ha|lra]). discriminate.
Qed.
(** other weightings: a delay whose response vanishes is not adjusted beyond N_dlys/N_freqs and the taper *)
Theorem adjustment_no_response : forall nd nf taper G H adj a, scalar_delay_adjustment false nd nf taper G H = Ok adj -> re (rowsum nd G a) = 0 ->
  adj a = INR nd / INR nf * match taper with None => 1 | Some v => rsum nf (fun i => v i ^ 2) / INR nf end.
Proof.
  intros nd nf taper G H adj a E Z. cbn in E. injection E as <-. unfold adj_ratio. destruct (Req_EM_T _ 0) as [_|N]; [|contradiction]. rewrite Rmult_1_r. destruct taper; reflexivity.
Qed.
Print Assumptions adjustment_error.
Print Assumptions adjustment_no_response.
(** one delay: never an error; two delays with ratios 1 and 2: an error *)
Example adjustment_error_case : scalar_delay_adjustment true 2 2 None (fun _ b => if Nat.eqb b 0 then RtoC 1 else RtoC 0) (fun a b => if Nat.eqb b 0 then (if Nat.eqb a 0 then RtoC 1 else RtoC 2) else RtoC 0) = Err ValueError.
Proof.
  match goal with |- scalar_delay_adjustment _ _ _ _ ?g ?h = _ => set (G := g); set (H := h) end.
  assert (R0 : forall a, (a < 2)%nat -> (if Nat.eqb a 0 then 1 else 2) = if Req_EM_T (re (rowsum 2 G a)) 0 then 1 else re (rowsum 2 H a) / re (rowsum 2 G a)).
  { intros [|[|a]] Ha; [| |lia]; unfold G, H; cbn; destruct (Req_EM_T _ 0) as [Z|_]; try lra; field; lra. }
  apply (proj1 (adjustment_error 2 2 None G H _ R0)).
  exists 0%nat. split; [lia|]. cbn. rewrite Rabs_left; lra.
Qed.
