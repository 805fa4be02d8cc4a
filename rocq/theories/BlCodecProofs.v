From Coq Require Import ZArith Reals Psatz Lia.
From Flocq Require Import Core.
From Verif Require Import Prelude BlCodecModel.
Open Scope R_scope.

Notation fmt := (generic_format radix2 (FLT_exp (-1074) 53)).

Global Instance Vexp : Valid_exp (FLT_exp (-1074) 53).
Proof. apply FLT_exp_valid. reflexivity. Qed.

(** integers scaled by 2^-k with small mantissa are representable *)
Lemma fmt_scaled (m : Z) (k : Z) :
  (Z.abs m <= 2 ^ 53)%Z -> (0 <= k <= 1000)%Z -> fmt (IZR m * bpow radix2 (- k)).
Proof.
  intros Hm Hk.
  destruct (Z.eq_dec (Z.abs m) (2 ^ 53)) as [He | Hne].
  - assert (Hpow : fmt (bpow radix2 (53 - k))).
    { apply generic_format_bpow. unfold FLT_exp. lia. }
    assert (Heq : Rabs (IZR m * bpow radix2 (-k)) = bpow radix2 (53 - k)).
    { rewrite Rabs_mult, (Rabs_pos_eq (bpow _ _)) by apply bpow_ge_0.
      rewrite <- abs_IZR, He. change (IZR (2 ^ 53)) with (bpow radix2 53).
      rewrite <- bpow_plus. reflexivity. }
    destruct (Rle_or_lt 0 (IZR m * bpow radix2 (-k))) as [H0 | H0].
    + rewrite Rabs_pos_eq in Heq by exact H0. rewrite Heq. exact Hpow.
    + rewrite Rabs_left in Heq by exact H0.
      rewrite <- (Ropp_involutive (IZR m * bpow radix2 (-k))), Heq.
      apply generic_format_opp. exact Hpow.
  - apply generic_format_FLT.
    exists (Float radix2 m (- k)); simpl; try lia.
    reflexivity.
Qed.

Lemma fmt_int (n : Z) : (Z.abs n <= 2 ^ 53)%Z -> fmt (IZR n).
Proof.
  intros H. replace (IZR n) with (IZR n * bpow radix2 (- 0)).
  - apply fmt_scaled; lia.
  - simpl. ring.
Qed.

Lemma rnd_int (n : Z) : (Z.abs n <= 2 ^ 53)%Z -> rnd (IZR n) = IZR n.
Proof. intros H. unfold rnd. apply round_generic; [apply valid_rnd_N | apply fmt_int; exact H]. Qed.

Lemma fl_int (n : Z) : (Z.abs n <= 2 ^ 53)%Z -> fl n = IZR n.
Proof. apply rnd_int. Qed.

Lemma rnd_ge (lo x : R) : fmt lo -> lo <= x -> lo <= rnd x.
Proof. intros F H. unfold rnd. apply round_ge_generic; [apply Vexp | apply valid_rnd_N | exact F | exact H]. Qed.
Lemma rnd_le (hi x : R) : fmt hi -> x <= hi -> rnd x <= hi.
Proof. intros F H. unfold rnd. apply round_le_generic; [apply Vexp | apply valid_rnd_N | exact F | exact H]. Qed.

(** a value in [n, n+1-2^-k] stays there after rounding *)
Lemma rnd_between (n k : Z) (x : R) :
  (0 <= n)%Z -> (0 <= k <= 1000)%Z -> ((n + 1) * 2 ^ k <= 2 ^ 53)%Z ->
  IZR n <= x <= IZR n + 1 - bpow radix2 (- k) ->
  IZR n <= rnd x <= IZR n + 1 - bpow radix2 (- k).
Proof.
  intros Hn Hk Hb [H1 H2].
  assert (Hp : (1 <= 2 ^ k)%Z) by (apply (Z.pow_le_mono_r 2 0 k); lia).
  split.
  - apply rnd_ge; [apply fmt_int; nia | exact H1].
  - apply rnd_le; [| exact H2].
    replace (IZR n + 1 - bpow radix2 (- k))
      with (IZR ((n + 1) * 2 ^ k - 1) * bpow radix2 (- k)).
    + apply fmt_scaled; nia.
    + rewrite minus_IZR, mult_IZR, plus_IZR.
      replace (IZR (2 ^ k)) with (bpow radix2 k).
      * rewrite Rmult_minus_distr_r, Rmult_assoc, <- bpow_plus.
        replace (k + - k)%Z with 0%Z by lia. simpl (bpow radix2 0). ring.
      * change 2%Z with (radix_val radix2). rewrite IZR_Zpower by lia. reflexivity.
Qed.

Lemma Zfloor_between (n : Z) (d x : R) :
  0 < d -> IZR n <= x <= IZR n + 1 - d -> Zfloor x = n.
Proof. intros Hd [H1 H2]. apply Zfloor_imp. rewrite plus_IZR. simpl. lra. Qed.

Lemma f1e3_val : f1e3 = 1000. Proof. unfold f1e3. rewrite fl_int; [reflexivity | lia]. Qed.
Lemma f1e6_val : f1e6 = 1000000. Proof. unfold f1e6. rewrite fl_int; [reflexivity | lia]. Qed.
Lemma f1e9_val : f1e9 = 1000000000. Proof. unfold f1e9. rewrite fl_int; [reflexivity | lia]. Qed.

Lemma fmul_int a b : (Z.abs a <= 2 ^ 53)%Z -> (Z.abs b <= 2 ^ 53)%Z -> (Z.abs (a * b) <= 2 ^ 53)%Z ->
  fmul (fl a) (fl b) = IZR (a * b).
Proof. intros. unfold fmul. rewrite (fl_int a), (fl_int b), <- mult_IZR by lia. apply rnd_int; lia. Qed.

Lemma fmul_int' a b : (Z.abs a <= 2 ^ 53)%Z -> (Z.abs (a * b) <= 2 ^ 53)%Z ->
  fmul (fl a) (IZR b) = IZR (a * b).
Proof. intros. unfold fmul. rewrite (fl_int a), <- mult_IZR by lia. apply rnd_int; lia. Qed.

Lemma fadd_int a b : (Z.abs (a + b) <= 2 ^ 53)%Z -> fadd (IZR a) (IZR b) = IZR (a + b).
Proof. intros. unfold fadd. rewrite <- plus_IZR. apply rnd_int; lia. Qed.
Lemma fsub_int a b : (Z.abs (a - b) <= 2 ^ 53)%Z -> fsub (IZR a) (IZR b) = IZR (a - b).
Proof. intros. unfold fsub. rewrite <- minus_IZR. apply rnd_int; lia. Qed.

(** the exact value of the encoder, over a range far larger than the decodable one *)
Lemma antnums_to_blpair_exact a1 a2 a3 a4 :
  (0 <= a1 <= 1000000)%Z -> (0 <= a2 <= 1000000)%Z ->
  (0 <= a3 <= 1000000)%Z -> (0 <= a4 <= 1000000)%Z ->
  antnums_to_blpair ((a1, a2), (a3, a4)) =
    ((a1 + 100) * 1000000000 + (a2 + 100) * 1000000 + (a3 + 100) * 1000 + (a4 + 100))%Z.
Proof.
  intros H1 H2 H3 H4. unfold antnums_to_blpair, int_; cbn [fst snd].
  rewrite f1e3_val, f1e6_val, f1e9_val.
  rewrite !fmul_int' by lia. rewrite (fl_int (a4 + 100)) by lia.
  rewrite !fadd_int by lia. rewrite Ztrunc_IZR. reflexivity.
Qed.

Lemma antnums_to_bl_exact a1 a2 :
  (0 <= a1 <= 1000000)%Z -> (0 <= a2 <= 1000000)%Z ->
  antnums_to_bl (a1, a2) = ((a1 + 100) * 1000 + (a2 + 100))%Z.
Proof.
  intros H1 H2. unfold antnums_to_bl, int_; cbn [fst snd].
  rewrite f1e3_val.
  rewrite !fmul_int' by lia. rewrite (fl_int (a2 + 100)) by lia.
  rewrite !fadd_int by lia. rewrite Ztrunc_IZR. reflexivity.
Qed.

(** quotient of an integer by 10^j, rounded, stays in [n, n+1-2^-k] *)
Lemma fdiv_between (b n q k : Z) :
  (0 <= b <= 2 ^ 53)%Z -> (0 < q)%Z -> (n * q <= b < (n + 1) * q)%Z -> (0 <= n)%Z ->
  (0 <= k <= 1000)%Z -> (q <= 2 ^ k)%Z -> ((n + 1) * 2 ^ k <= 2 ^ 53)%Z ->
  IZR n <= fdiv (fl b) (IZR q) <= IZR n + 1 - bpow radix2 (- k).
Proof.
  intros Hb Hq Hn Hn0 Hk Hqk Hbd. unfold fdiv. rewrite fl_int by lia.
  assert (Q : 0 < IZR q) by (apply IZR_lt; lia).
  apply rnd_between; try lia.
  split.
  - apply Rmult_le_reg_r with (IZR q); [exact Q|].
    unfold Rdiv. rewrite Rmult_assoc, Rinv_l by lra. rewrite Rmult_1_r, <- mult_IZR.
    apply IZR_le; lia.
  - apply Rle_trans with (IZR n + 1 - / IZR q).
    + apply Rmult_le_reg_r with (IZR q); [exact Q|].
      unfold Rdiv. rewrite Rmult_assoc, Rinv_l by lra. rewrite Rmult_1_r.
      rewrite Rmult_minus_distr_r, Rinv_l by lra.
      rewrite <- plus_IZR, <- mult_IZR, <- minus_IZR. apply IZR_le; lia.
    + apply Rplus_le_compat_l, Ropp_le_contravar.
      rewrite bpow_opp. apply Rinv_le; [exact Q|].
      change 2%Z with (radix_val radix2) in Hqk.
      rewrite <- IZR_Zpower by lia. apply IZR_le. exact Hqk.
Qed.

(** subtracting an integer from a value in [n, n+1-2^-k] *)
Lemma fsub_between (n s k : Z) (x : R) :
  (0 <= s <= n)%Z -> (0 <= k <= 1000)%Z -> ((n - s + 1) * 2 ^ k <= 2 ^ 53)%Z ->
  IZR n <= x <= IZR n + 1 - bpow radix2 (- k) ->
  IZR (n - s) <= fsub x (IZR s) <= IZR (n - s) + 1 - bpow radix2 (- k).
Proof.
  intros Hs Hk Hb Hx. unfold fsub. apply rnd_between; try lia.
  rewrite minus_IZR. lra.
Qed.

Lemma blpair_decode_digits A B C D :
  (0 <= A < 1000)%Z -> (0 <= B < 1000)%Z -> (0 <= C < 1000)%Z -> (0 <= D < 1000)%Z ->
  blpair_to_antnums (A * 1000000000 + B * 1000000 + C * 1000 + D) =
    (((A - 100)%Z, (B - 100)%Z), ((C - 100)%Z, (D - 100)%Z)).
Proof.
  intros HA HB HC HD. unfold blpair_to_antnums, int_floor.
  rewrite f1e3_val, f1e6_val, f1e9_val.
  set (b := (A * 1000000000 + B * 1000000 + C * 1000 + D)%Z).
  assert (E1 : Zfloor (fdiv (fl b) 1000000000) = A).
  { apply (Zfloor_between A (bpow radix2 (-30))); [apply bpow_gt_0|].
    apply (fdiv_between b A 1000000000 30); subst b; lia. }
  rewrite E1.
  assert (E2 : Zfloor (fsub (fdiv (fl b) 1000000) (fmul (fl A) 1000)) = B).
  { rewrite fmul_int' by lia.
    replace B with (A * 1000 + B - A * 1000)%Z by ring.
    apply (Zfloor_between _ (bpow radix2 (-20))); [apply bpow_gt_0|].
    apply (fsub_between (A * 1000 + B) (A * 1000) 20); try lia.
    apply (fdiv_between b (A * 1000 + B) 1000000 20); subst b; lia. }
  rewrite E2.
  assert (E3 : Zfloor (fsub (fsub (fdiv (fl b) 1000) (fmul (fl A) 1000000)) (fmul (fl B) 1000)) = C).
  { rewrite !fmul_int' by lia.
    replace C with (B * 1000 + C - B * 1000)%Z by ring.
    apply (Zfloor_between _ (bpow radix2 (-10))); [apply bpow_gt_0|].
    apply (fsub_between (B * 1000 + C) (B * 1000) 10); try lia.
    replace (B * 1000 + C)%Z with (A * 1000000 + B * 1000 + C - A * 1000000)%Z by ring.
    apply (fsub_between (A * 1000000 + B * 1000 + C) (A * 1000000) 10); try lia.
    apply (fdiv_between b (A * 1000000 + B * 1000 + C) 1000 10); subst b; lia. }
  rewrite E3.
  assert (E4 : Zfloor (fsub (fsub (fsub (fl b) (fmul (fl A) 1000000000)) (fmul (fl B) 1000000))
                            (fmul (fl C) 1000)) = D).
  { rewrite !fmul_int' by lia. rewrite (fl_int b) by (subst b; lia).
    rewrite !fsub_int by (subst b; lia). rewrite Zfloor_IZR. subst b; ring. }
  rewrite E4. reflexivity.
Qed.

Lemma bl_decode_digits A B :
  (0 <= A < 1000)%Z -> (0 <= B < 1000)%Z ->
  bl_to_antnums (A * 1000 + B) = ((A - 100)%Z, (B - 100)%Z).
Proof.
  intros HA HB. unfold bl_to_antnums, int_floor. rewrite f1e3_val.
  assert (E1 : Zfloor (fdiv (fl (A * 1000 + B)) 1000) = A).
  { apply (Zfloor_between A (bpow radix2 (-10))); [apply bpow_gt_0|].
    apply (fdiv_between (A * 1000 + B) A 1000 10); lia. }
  rewrite E1.
  rewrite !fmul_int' by lia. rewrite (fl_int (A * 1000 + B)) by lia.
  rewrite !fsub_int by lia. rewrite Zfloor_IZR. f_equal; ring.
Qed.

Lemma blpair_round_trip_lem a1 a2 a3 a4 :
  (0 <= a1 < 900)%Z -> (0 <= a2 < 900)%Z -> (0 <= a3 < 900)%Z -> (0 <= a4 < 900)%Z ->
  blpair_to_antnums (antnums_to_blpair ((a1, a2), (a3, a4))) = ((a1, a2), (a3, a4)).
Proof.
  intros. rewrite antnums_to_blpair_exact by lia.
  rewrite blpair_decode_digits by lia.
  repeat f_equal; ring.
Qed.

Lemma bl_round_trip_lem a1 a2 :
  (0 <= a1 < 900)%Z -> (0 <= a2 < 900)%Z ->
  bl_to_antnums (antnums_to_bl (a1, a2)) = (a1, a2).
Proof.
  intros. rewrite antnums_to_bl_exact by lia.
  rewrite bl_decode_digits by lia. f_equal; ring.
Qed.

(** encoding after decoding *)
Lemma blpair_round_trip_rev_lem A B C D :
  (100 <= A < 1000)%Z -> (100 <= B < 1000)%Z -> (100 <= C < 1000)%Z -> (100 <= D < 1000)%Z ->
  antnums_to_blpair (blpair_to_antnums (A * 1000000000 + B * 1000000 + C * 1000 + D)) =
  (A * 1000000000 + B * 1000000 + C * 1000 + D)%Z.
Proof.
  intros. rewrite blpair_decode_digits by lia. rewrite antnums_to_blpair_exact by lia. ring.
Qed.

Lemma antnums_to_blpair_inj_lem a1 a2 a3 a4 b1 b2 b3 b4 :
  (0 <= a1 < 1000000)%Z -> (0 <= b1 < 1000000)%Z ->
  (0 <= a2 < 1000)%Z -> (0 <= a3 < 1000)%Z -> (0 <= a4 < 1000)%Z ->
  (0 <= b2 < 1000)%Z -> (0 <= b3 < 1000)%Z -> (0 <= b4 < 1000)%Z ->
  antnums_to_blpair ((a1, a2), (a3, a4)) = antnums_to_blpair ((b1, b2), (b3, b4)) ->
  ((a1, a2), (a3, a4)) = ((b1, b2), (b3, b4)).
Proof.
  intros. rewrite !antnums_to_blpair_exact in * by lia. repeat f_equal; lia.
Qed.

Lemma conj_blpair_int_lem a1 a2 a3 a4 :
  (0 <= a1 < 900)%Z -> (0 <= a2 < 900)%Z -> (0 <= a3 < 900)%Z -> (0 <= a4 < 900)%Z ->
  conj_blpair_int (antnums_to_blpair ((a1, a2), (a3, a4))) = antnums_to_blpair ((a3, a4), (a1, a2)).
Proof. intros. unfold conj_blpair_int. rewrite blpair_round_trip_lem by lia. reflexivity. Qed.

Lemma conj_bl_int_lem a1 a2 :
  (0 <= a1 < 900)%Z -> (0 <= a2 < 900)%Z ->
  conj_bl_int (antnums_to_bl (a1, a2)) = antnums_to_bl (a2, a1).
Proof. intros. unfold conj_bl_int. rewrite bl_round_trip_lem by lia. reflexivity. Qed.

Lemma conj_blpair_lem a1 a2 a3 a4 :
  (0 <= a1 < 900)%Z -> (0 <= a2 < 900)%Z -> (0 <= a3 < 900)%Z -> (0 <= a4 < 900)%Z ->
  let b := antnums_to_blpair ((a1, a2), (a3, a4)) in
  conj_blpair b First = Ok (antnums_to_blpair ((a2, a1), (a3, a4))) /\
  conj_blpair b Second = Ok (antnums_to_blpair ((a1, a2), (a4, a3))) /\
  conj_blpair b Both = Ok (antnums_to_blpair ((a2, a1), (a4, a3))) /\
  conj_blpair b OtherWhich = Err ValueError.
Proof.
  intros H1 H2 H3 H4 b. subst b. unfold conj_blpair. rewrite blpair_round_trip_lem by lia.
  repeat split.
Qed.

Lemma blpair_to_bls_lem a1 a2 a3 a4 :
  (0 <= a1 < 900)%Z -> (0 <= a2 < 900)%Z -> (0 <= a3 < 900)%Z -> (0 <= a4 < 900)%Z ->
  blpair_to_bls (antnums_to_blpair ((a1, a2), (a3, a4))) =
    (antnums_to_bl (a1, a2), antnums_to_bl (a3, a4)).
Proof. intros. unfold blpair_to_bls. rewrite blpair_round_trip_lem by lia. reflexivity. Qed.

Lemma blpair_collision_lem :
  antnums_to_blpair ((0, 1000), (0, 0))%Z = antnums_to_blpair ((1, 0), (0, 0))%Z.
Proof. rewrite !antnums_to_blpair_exact by lia. lia. Qed.

Lemma blpair_900_lem :
  blpair_to_antnums (antnums_to_blpair ((0, 900), (0, 0))%Z) = ((1, -100), (0, 0))%Z.
Proof.
  rewrite antnums_to_blpair_exact by lia.
  replace ((0 + 100) * 1000000000 + (900 + 100) * 1000000 + (0 + 100) * 1000 + (0 + 100))%Z
    with (101 * 1000000000 + 0 * 1000000 + 100 * 1000 + 100)%Z by reflexivity.
  rewrite blpair_decode_digits by lia. reflexivity.
Qed.


(** every number with no zero base-1000 "offset digit" is hit, and decoding is injective there *)
Lemma antnums_to_bl_inj_lem a1 a2 b1 b2 :
  (0 <= a1 < 1000000)%Z -> (0 <= b1 < 1000000)%Z -> (0 <= a2 < 1000)%Z -> (0 <= b2 < 1000)%Z ->
  antnums_to_bl (a1, a2) = antnums_to_bl (b1, b2) -> (a1, a2) = (b1, b2).
Proof. intros. rewrite !antnums_to_bl_exact in * by lia. f_equal; lia. Qed.

Lemma codec_round_trip_lem (a1 a2 a3 a4 : Z) :
  (0 <= a1 < 900)%Z -> (0 <= a2 < 900)%Z -> (0 <= a3 < 900)%Z -> (0 <= a4 < 900)%Z ->
  blpair_to_antnums (antnums_to_blpair ((a1, a2), (a3, a4))) = ((a1, a2), (a3, a4)) /\
  bl_to_antnums (antnums_to_bl (a1, a2)) = (a1, a2) /\
  blpair_to_bls (antnums_to_blpair ((a1, a2), (a3, a4))) =
    (antnums_to_bl (a1, a2), antnums_to_bl (a3, a4)) /\
  antnums_to_blpair ((a1, a2), (a3, a4)) =
    (antnums_to_bl (a1, a2) * 1000000 + antnums_to_bl (a3, a4))%Z.
Proof.
  intros. repeat split.
  - apply blpair_round_trip_lem; lia.
  - apply bl_round_trip_lem; lia.
  - apply blpair_to_bls_lem; lia.
  - rewrite antnums_to_blpair_exact, !antnums_to_bl_exact by lia. ring.
Qed.

Lemma blpair_inj_lem (p q : (Z * Z) * (Z * Z)) :
  (forall x, In x [fst (fst p); snd (fst p); fst (snd p); snd (snd p);
                   fst (fst q); snd (fst q); fst (snd q); snd (snd q)] -> (0 <= x < 1000)%Z) ->
  antnums_to_blpair p = antnums_to_blpair q -> p = q.
Proof.
  destruct p as [[a1 a2] [a3 a4]], q as [[b1 b2] [b3 b4]]; cbn [fst snd]; intros H.
  assert (0 <= a1 < 1000)%Z by (apply H; simpl; tauto).
  assert (0 <= a2 < 1000)%Z by (apply H; simpl; tauto).
  assert (0 <= a3 < 1000)%Z by (apply H; simpl; tauto).
  assert (0 <= a4 < 1000)%Z by (apply H; simpl; tauto).
  assert (0 <= b1 < 1000)%Z by (apply H; simpl; tauto).
  assert (0 <= b2 < 1000)%Z by (apply H; simpl; tauto).
  assert (0 <= b3 < 1000)%Z by (apply H; simpl; tauto).
  assert (0 <= b4 < 1000)%Z by (apply H; simpl; tauto).
  apply antnums_to_blpair_inj_lem; lia.
Qed.

Lemma conj_involutive_lem (a1 a2 a3 a4 : Z) :
  (0 <= a1 < 900)%Z -> (0 <= a2 < 900)%Z -> (0 <= a3 < 900)%Z -> (0 <= a4 < 900)%Z ->
  let b := antnums_to_blpair ((a1, a2), (a3, a4)) in
  conj_blpair_int b = antnums_to_blpair ((a3, a4), (a1, a2)) /\
  conj_blpair_int (conj_blpair_int b) = b /\
  conj_bl_int (antnums_to_bl (a1, a2)) = antnums_to_bl (a2, a1) /\
  conj_bl_int (conj_bl_int (antnums_to_bl (a1, a2))) = antnums_to_bl (a1, a2) /\
  conj_blpair b First = Ok (antnums_to_blpair ((a2, a1), (a3, a4))) /\
  conj_blpair b Second = Ok (antnums_to_blpair ((a1, a2), (a4, a3))) /\
  conj_blpair b Both = Ok (antnums_to_blpair ((a2, a1), (a4, a3))) /\
  conj_blpair b OtherWhich = Err ValueError.
Proof.
  intros H1 H2 H3 H4 b. subst b.
  split; [apply conj_blpair_int_lem; lia|].
  split; [rewrite !conj_blpair_int_lem by lia; reflexivity|].
  split; [apply conj_bl_int_lem; lia|].
  split; [rewrite !conj_bl_int_lem by lia; reflexivity|].
  apply conj_blpair_lem; lia.
Qed.

(** from antenna 900 on, decoding never returns what was encoded, wherever the large
    antenna is *)
Lemma blpair_decode_wrong_lem (a1 a2 a3 a4 : Z) :
  (0 <= a1 < 899)%Z -> (900 <= a2 < 1000)%Z -> (0 <= a3 < 900)%Z -> (0 <= a4 < 900)%Z ->
  blpair_to_antnums (antnums_to_blpair ((a1, a2), (a3, a4))) = ((a1 + 1, a2 - 1000), (a3, a4))%Z.
Proof.
  intros. rewrite antnums_to_blpair_exact by lia.
  replace ((a1 + 100) * 1000000000 + (a2 + 100) * 1000000 + (a3 + 100) * 1000 + (a4 + 100))%Z
    with ((a1 + 101) * 1000000000 + (a2 - 900) * 1000000 + (a3 + 100) * 1000 + (a4 + 100))%Z by ring.
  rewrite blpair_decode_digits by lia. apply f_equal2; apply f_equal2; lia.
Qed.

Lemma float_split_lem (b : Z) : (0 <= b < 1000000000000)%Z ->
  let bl1 := Zfloor (fdiv (fl b) f1e6) in
  bl1 = (b / 1000000)%Z /\ fsub (fl b) (fmul (fl bl1) f1e6) = IZR (b mod 1000000).
Proof.
  intros Hb. assert (D : b = (1000000 * (b / 1000000) + b mod 1000000)%Z) by (apply Z.div_mod; lia).
  assert (M : (0 <= b mod 1000000 < 1000000)%Z) by (apply Z.mod_pos_bound; lia).
  assert (E : Zfloor (fdiv (fl b) f1e6) = (b / 1000000)%Z).
  { rewrite f1e6_val. apply (Zfloor_between _ (bpow radix2 (-20))); [apply bpow_gt_0|].
    apply (fdiv_between b (b / 1000000) 1000000 20); lia. }
  cbv zeta. split; [exact E|]. rewrite E, f1e6_val.
  rewrite fmul_int' by lia. rewrite (fl_int b) by lia. rewrite fsub_int by lia.
  f_equal. lia.
Qed.
