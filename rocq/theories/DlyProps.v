(** Delays, physical-unit response, beam integral. *)
From Coq Require Import String Ascii.
From Coq Require Import Reals Lra.
From Verif Require Import Prelude CNum PyStr CovqModel CovqProps GetModel GetProps WinModel OqeModel OqeProofs DlyModel.
Open Scope R_scope.

Lemma half_ceil n : (1 <= n)%nat -> ((n - 1) / 2 + 1 = n - n / 2)%nat.
Proof.
  intro H. destruct (Nat.Even_or_Odd n) as [[k E]|[k E]]; subst n.
  - replace (2 * k - 1)%nat with (1 + (k - 1) * 2)%nat by lia. rewrite Nat.div_add by lia. replace (2 * k)%nat with (k * 2)%nat by lia. rewrite Nat.div_mul by lia. cbn [Nat.div Nat.divmod fst Nat.sub]. lia.
  - replace (2 * k + 1 - 1)%nat with (k * 2)%nat by lia. rewrite Nat.div_mul by lia. replace (2 * k + 1)%nat with (1 + k * 2)%nat by lia. rewrite Nat.div_add by lia. cbn [Nat.div Nat.divmod fst]. lia.
Qed.
Lemma fftfreq_shifted n d i : (i < n)%nat -> d <> 0 -> fftfreq n d ((i + (n - n / 2)) mod n) = (INR i - INR (n / 2)) / (INR n * d).
Proof.
  intros Hi Hd. assert (N : INR n <> 0) by (apply not_0_INR; lia). assert (H2 : (n / 2 <= n)%nat) by (apply Nat.div_le_upper_bound; lia).
  unfold fftfreq. rewrite half_ceil by lia.
  destruct (Nat.lt_ge_cases i (n / 2)) as [L|L].
  - rewrite Nat.mod_small by lia. destruct (Nat.ltb_spec (i + (n - n / 2)) (n - n / 2)); [lia|].
    replace (i + (n - n / 2) - (n - n / 2))%nat with i by lia. field. split; assumption.
  - replace (i + (n - n / 2))%nat with ((i - n / 2) + 1 * n)%nat by lia. rewrite Nat.mod_add by lia. rewrite Nat.mod_small by lia.
    destruct (Nat.ltb_spec (i - n / 2) (n - n / 2)); [|lia]. rewrite minus_INR by lia. field. split; assumption.
Qed.
Lemma shifted_nth n x i d : (i < n)%nat -> nth i (shifted n x) d = x ((i + (n - n / 2)) mod n)%nat.
Proof.
  intro H. unfold shifted. rewrite (nth_indep _ d (x ((0 + (n - n / 2)) mod n)%nat)) by (rewrite map_length, seq_length; exact H).
  rewrite (map_nth (fun i => x ((i + (n - n / 2)) mod n)%nat)). rewrite seq_nth by exact H. reflexivity.
Qed.
Lemma shifted_length n x : length (shifted n x) = n.
Proof. unfold shifted. rewrite map_length, seq_length. reflexivity. Qed.

(** ** delays *)
(** delay i of n is (i - n/2) / (n dnu), for the median spacing dnu of the channels *)
Theorem delays_values : forall freqs nd dnu, (2 <= length freqs)%nat -> medianR (diffsR freqs) = dnu -> dnu <> 0 ->
  let n := match nd with None => length freqs | Some n => n end in
  exists l, get_delays freqs nd = Some l /\ length l = n /\
    forall i, (i < n)%nat -> nth i l 0 = (INR i - INR (n / 2)) / (INR n * dnu).
Proof.
  intros freqs nd dnu Hf Hm Hd n. unfold get_delays. fold n. destruct (diffsR freqs) as [|a ds] eqn:E.
  - exfalso. destruct freqs as [|x [|y r]]; cbn in Hf; try lia. cbn in E. discriminate.
  - rewrite Hm. eexists. split; [reflexivity|]. split; [apply shifted_length|]. intros i Hi. rewrite shifted_nth by exact Hi. apply fftfreq_shifted; assumption.
Qed.
Print Assumptions delays_values.
(** so the delays increase in steps of 1/(n dnu), are zero exactly at n/2, and span one period 1/dnu *)
Theorem delays_order : forall freqs nd dnu l, (2 <= length freqs)%nat -> medianR (diffsR freqs) = dnu -> 0 < dnu -> get_delays freqs nd = Some l ->
  (forall i, (S i < length l)%nat -> nth (S i) l 0 - nth i l 0 = 1 / (INR (length l) * dnu)) /\
  (forall i, (i < length l)%nat -> nth i l 0 = 0 <-> i = (length l / 2)%nat) /\
  (forall i, (i < length l)%nat -> - (1 / (2 * dnu)) <= nth i l 0 < 1 / (2 * dnu)).
Proof.
  intros freqs nd dnu l Hf Hm Hd H. destruct (delays_values freqs nd dnu Hf Hm ltac:(lra)) as [l' [E [L V]]]. rewrite E in H. injection H as ->.
  rewrite <- L in V. set (n := length l) in *. clear L E.
  assert (Np : forall i, (i < n)%nat -> 0 < INR n) by (intros i Hi; apply lt_0_INR; lia).
  split; [|split].
  - intros i Hi. rewrite !V by lia. rewrite S_INR. pose proof (Np _ Hi). field. lra.
  - intros i Hi. rewrite V by exact Hi. pose proof (Np _ Hi). split.
    + intro Q. assert (INR i - INR (n / 2) = 0) as Q2. { apply Rmult_integral in Q. destruct Q as [Q|Q]; [exact Q|]. exfalso. apply (Rinv_neq_0_compat (INR n * dnu)); [apply Rmult_integral_contrapositive_currified; lra | exact Q]. }
      apply INR_eq. lra.
    + intros ->. unfold Rdiv. ring.
  - intros i Hi. rewrite V by exact Hi. pose proof (Np _ Hi) as P.
    assert (B : INR n <= 2 * INR (n / 2) + 1 /\ 2 * INR (n / 2) <= INR n).
    { destruct (Nat.Even_or_Odd n) as [[k E]|[k E]]; rewrite E.
      - replace (2 * k)%nat with (k * 2)%nat by lia. rewrite Nat.div_mul by lia. rewrite mult_INR. cbn [INR]. lra.
      - replace (2 * k + 1)%nat with (1 + k * 2)%nat by lia. rewrite Nat.div_add by lia. cbn [Nat.div Nat.divmod fst Nat.add]. rewrite S_INR, mult_INR. cbn [INR]. lra. }
    assert (I : INR i <= INR n - 1) by (rewrite <- (S_INR 0 : INR 1 = _) || idtac; replace 1 with (INR 1) by reflexivity; rewrite <- minus_INR by lia; apply le_INR; lia).
    assert (I0 : 0 <= INR i) by apply pos_INR.
    assert (Pd : 0 < INR n * dnu) by (apply Rmult_lt_0_compat; assumption).
    split.
    + apply (Rmult_le_reg_r (INR n * dnu)); [exact Pd|]. unfold Rdiv. rewrite (Rmult_assoc _ (/ (INR n * dnu))). rewrite Rinv_l by lra. rewrite Rmult_1_r.
      replace (- (1 * / (2 * dnu)) * (INR n * dnu)) with (- (INR n / 2)) by (field; lra). lra.
    + apply (Rmult_lt_reg_r (INR n * dnu)); [exact Pd|]. unfold Rdiv. rewrite (Rmult_assoc _ (/ (INR n * dnu))). rewrite Rinv_l by lra. rewrite Rmult_1_r.
      replace (1 * / (2 * dnu) * (INR n * dnu)) with (INR n / 2) by (field; lra). lra.
Qed.
Print Assumptions delays_order.

(** evenly spaced channels *)
Definition even_channels (nu0 dnu : R) (nf : nat) : list R := map (fun i => nu0 + INR i * dnu) (seq 0 nf).
Lemma even_nth nu0 dnu nf i : (i < nf)%nat -> nth i (even_channels nu0 dnu nf) 0 = nu0 + INR i * dnu.
Proof.
  intro H. unfold even_channels. rewrite (nth_indep _ 0 (nu0 + INR 0 * dnu)) by (rewrite map_length, seq_length; exact H).
  rewrite (map_nth (fun i => nu0 + INR i * dnu)). rewrite seq_nth by exact H. reflexivity.
Qed.
Lemma even_length nu0 dnu nf : length (even_channels nu0 dnu nf) = nf.
Proof. unfold even_channels. rewrite map_length, seq_length. reflexivity. Qed.
Lemma diffs_even nu0 dnu s nf x : In x (diffsR (map (fun i => nu0 + INR i * dnu) (seq s nf))) -> x = dnu.
Proof.
  revert s. induction nf as [|nf IH]; intros s H; [destruct H|]. cbn [seq map] in H. destruct nf as [|nf]; [destruct H|].
  cbn [seq map diffsR] in H. destruct H as [H|H]; [rewrite <- H, S_INR; ring|]. apply (IH (S s)). cbn [seq map]. exact H.
Qed.
Lemma even_median nu0 dnu nf : (2 <= nf)%nat -> medianR (diffsR (even_channels nu0 dnu nf)) = dnu.
Proof.
  intro H. apply median_const.
  - destruct nf as [|[|nf]]; try lia. cbn. discriminate.
  - intros x I. apply (diffs_even nu0 dnu 0 nf x I).
Qed.

(** delays of PSpecData are these in ns *)
Theorem delays_pspecdata : forall ndsets window nd dnu, (2 <= length window)%nat -> medianR (diffsR window) = dnu -> dnu <> 0 ->
  let n := match nd with None => length window | Some n => n end in
  (ndsets = 0%nat -> delays ndsets window nd = Err IndexError) /\
  (ndsets <> 0%nat -> exists l, delays ndsets window nd = Ok (Some l) /\ length l = n /\ forall i, (i < n)%nat -> nth i l 0 = 10 ^ 9 * ((INR i - INR (n / 2)) / (INR n * dnu))).
Proof.
  intros ndsets window nd dnu Hw Hm Hd n. unfold delays. split; intro H.
  - rewrite H. reflexivity.
  - destruct (Nat.eqb_spec ndsets 0); [contradiction|]. destruct (delays_values window nd dnu Hw Hm Hd) as [l [E [L V]]]. fold n in L, V. rewrite E. cbn [option_map].
    eexists. split; [reflexivity|]. split; [rewrite map_length; exact L|]. intros i Hi.
    rewrite (nth_indep _ 0 (0 * 10 ^ 9)) by (rewrite map_length, L; exact Hi). rewrite (map_nth (fun t => t * 10 ^ 9)). rewrite V by exact Hi. ring.
Qed.
Print Assumptions delays_pspecdata.

(** ** get_Q *)
(** for evenly spaced channels, the physical response matrix of a mode is the dimensionless one of get_Q_alt *)
Theorem get_Q_even : forall ndsets nu0 dnu nf nd mode fft, ndsets <> 0%nat -> (2 <= nf)%nat -> 0 < dnu -> (0 <= mode < Z.of_nat nd)%Z ->
  exists Q Q', get_Q ndsets (even_channels nu0 dnu nf) (Some nd) mode = Ok (Some Q) /\ get_Q_alt mode nd nf fft 0 0 = Ok (nf, Q') /\
    forall i j, (i < nf)%nat -> (j < nf)%nat -> Q i j = Q' i j.
Proof.
  intros ndsets nu0 dnu nf nd mode fft Hs Hf Hd Hm.
  destruct (get_Q_alt_ok mode nd nf fft 0 0 Hm) as [Q' [E' V']]. rewrite Nat.add_0_r in E'.
  destruct (delays_pspecdata ndsets (even_channels nu0 dnu nf) (Some nd) dnu) as [_ D]; [rewrite even_length; exact Hf | apply even_median; exact Hf | lra |].
  destruct (D Hs) as [l [El [L V]]]. cbn beta iota zeta in L, V.
  unfold get_Q. cbn beta iota zeta. destruct (Z.leb_spec (Z.of_nat nd) mode); [lia|]. rewrite El. cbn [bind]. rewrite L. unfold py_index.
  destruct (Z.ltb_spec mode 0); [lia|]. destruct (Z.ltb_spec mode (Z.of_nat nd)); [|lia]. cbn [bind].
  eexists. exists Q'. split; [reflexivity|]. split; [exact E'|]. intros i j Hi Hj. rewrite V'. cbn beta. rewrite !even_nth by assumption.
  rewrite V by lia. set (a := Z.to_nat mode) in *. unfold phi.
  assert (Pn : INR nd <> 0) by (apply not_0_INR; lia).
  set (c := - (2 * PI * ((INR a - INR (nd / 2)) / (INR nd * dnu)) * nu0)).
  assert (K : forall k, Cexpi (- (2 * PI * (10 ^ 9 * ((INR a - INR (nd / 2)) / (INR nd * dnu)) * / 10 ^ 9) * (nu0 + INR k * dnu))) =
              (Cexpi c * Cexpi (- (2 * PI * (INR a - INR (nd / 2)) * INR k / INR nd)))%C).
  { intro k. rewrite <- Cexpi_add. f_equal. unfold c. field. repeat split; try assumption; lra. }
  rewrite !K, Cconj_mul.
  match goal with |- (Cconj ?x * Cconj ?y * (?x * ?z) = _)%C => assert (Hc : (Cconj x * x)%C = C1) by apply Cexpi_conj;
    transitivity (Cconj x * x * (Cconj y * z))%C; [ring | rewrite Hc; ring] end.
Qed.
Print Assumptions get_Q_even.
(** in general it is Hermitian, of rank one and of modulus one *)
Theorem get_Q_shape : forall ndsets window nd mode Q, get_Q ndsets window nd mode = Ok (Some Q) ->
  forall i j, Q j i = Cconj (Q i j) /\ Cabs2 (Q i j) = 1 /\ forall k, Q i j = (Q i k * Q k j)%C.
Proof.
  intros ndsets window nd mode Q H. unfold get_Q in H. destruct (Z.leb _ _); [discriminate H|].
  destruct (delays _ _ _) as [[l|]|]; cbn [bind] in H; [| |discriminate H].
  2:{ destruct (py_index _ _); discriminate H. }
  destruct (py_index _ _) as [m|]; cbn [bind] in H; [|discriminate H].
  set (ph := fun j => - (2 * PI * (nth m l 0 * / 10 ^ 9) * nth j window 0)) in *.
  assert (HQ : forall i j, Q i j = (Cconj (Cexpi (ph i)) * Cexpi (ph j))%C) by (injection H as <-; reflexivity). clear H.
  intros i j. rewrite !HQ. split; [|split].
  - rewrite Cconj_mul, Cconj_conj. ring.
  - rewrite Cabs2_mul, Cexpi_abs. unfold Cabs2. cbn [Cconj re im]. replace (re (Cexpi (ph i)) * re (Cexpi (ph i)) + - im (Cexpi (ph i)) * - im (Cexpi (ph i))) with (Cabs2 (Cexpi (ph i))) by (unfold Cabs2; ring). rewrite Cexpi_abs. ring.
  - intro k. rewrite !HQ. pose proof (Cexpi_conj (ph k)) as K. transitivity (Cconj (Cexpi (ph i)) * (Cconj (Cexpi (ph k)) * Cexpi (ph k)) * Cexpi (ph j))%C; [rewrite K; ring | ring].
Qed.
Print Assumptions get_Q_shape.
(** modes beyond the last are refused *)
Theorem get_Q_range : forall ndsets window nd mode, (Z.of_nat nd <= mode)%Z -> get_Q ndsets window (Some nd) mode = Err IndexError.
Proof. intros. unfold get_Q. destruct (Z.leb_spec (Z.of_nat nd) mode); [reflexivity | lia]. Qed.
Print Assumptions get_Q_range.
(** but negative ones are not: they count from the end, while get_Q_alt refuses them *)
Theorem get_Q_negative_refuted :
  ~ (forall ndsets window nd mode, ~ (0 <= mode < Z.of_nat nd)%Z -> get_Q ndsets window (Some nd) mode = Err IndexError).
Proof.
  intro H. specialize (H 1%nat [0; 1; 2] 3%nat (-1)%Z ltac:(lia)).
  destruct (delays_pspecdata 1 [0; 1; 2] (Some 3%nat) 1) as [_ D]; [cbn; lia | | lra |].
  - apply median_const; [discriminate|]. intros x [<-|[<-|[]]]; lra.
  - destruct (D ltac:(lia)) as [l [E [L V]]]. unfold get_Q in H. cbn [Z.leb Z.of_nat Z.compare] in H. rewrite E in H. cbn [bind] in H. rewrite L in H. cbn in H. discriminate H.
Qed.
Print Assumptions get_Q_negative_refuted.
Theorem get_Q_negative : forall ndsets window nd mode, (- Z.of_nat nd <= mode < 0)%Z ->
  get_Q ndsets window (Some nd) mode = get_Q ndsets window (Some nd) (mode + Z.of_nat nd).
Proof.
  intros ndsets window nd mode H. unfold get_Q. destruct (Z.leb_spec (Z.of_nat nd) mode); [lia|]. destruct (Z.leb_spec (Z.of_nat nd) (mode + Z.of_nat nd)); [lia|].
  assert (P : forall n, n = nd -> py_index n mode = py_index n (mode + Z.of_nat nd)).
  { intros n ->. unfold py_index. destruct (Z.ltb_spec mode 0); [|lia]. destruct (Z.ltb_spec (mode + Z.of_nat nd) 0); [lia|].
    destruct (Z.leb_spec 0 (mode + Z.of_nat nd)); [|lia]. destruct (Z.ltb_spec (mode + Z.of_nat nd) (Z.of_nat nd)); [reflexivity | lia]. }
  unfold delays. destruct (Nat.eqb ndsets 0); [reflexivity|]. unfold get_delays. destruct (diffsR window); cbn [option_map bind].
  - rewrite (P nd eq_refl). reflexivity.
  - rewrite (P _); [reflexivity|]. rewrite map_length. apply shifted_length.
Qed.
Print Assumptions get_Q_negative.
Example delays_case : exists l, get_delays (even_channels 100 2 5) None = Some l /\ length l = 5%nat /\ nth 2 l 0 = 0 /\ nth 0 l 0 = - (1 / 5).
Proof.
  destruct (delays_values (even_channels 100 2 5) None 2) as [l [E [L V]]]; [rewrite even_length; lia | apply even_median; lia | lra|].
  rewrite even_length in L, V. exists l. split; [exact E|]. split; [exact L|]. rewrite !V by lia. cbn. split; field.
Qed.
