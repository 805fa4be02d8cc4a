(** C170-C174: covariance of unnormalised bandpowers over times; noise variance from autocorrelations. *)
From Coq Require Import String.
From Coq Require Import Reals Lra.
From Verif Require Import Prelude CNum CovqModel.
Open Scope R_scope.

Lemma Ceqb0_false z : z <> C0 -> Ceqb0 z = false.
Proof.
  intros N. unfold Ceqb0. destruct (Req_EM_T (Cabs2 z) 0) as [E | _]; [exfalso | reflexivity]. apply N. destruct z as [x y]. unfold Cabs2 in E. cbn in E. unfold C0.
  assert (x = 0) by nra. assert (y = 0) by nra. congruence.
Qed.
Lemma Ceqb0_0 : Ceqb0 C0 = true.
Proof. unfold Ceqb0, Cabs2. cbn. destruct (Req_EM_T _ 0) as [| N]; [reflexivity | exfalso; apply N; ring]. Qed.
Lemma Cabs2_pos z : z <> C0 -> Cabs2 z <> 0.
Proof. intros N E. pose proof (Ceqb0_false z N) as Q. unfold Ceqb0 in Q. destruct (Req_EM_T (Cabs2 z) 0); [discriminate | contradiction]. Qed.
Lemma Cdiv_1_1 z : z <> C0 -> Cdiv C1 z <> C0 /\ Cdiv C1 (Cdiv C1 z) = z.
Proof.
  intros N. pose proof (Cabs2_pos z N) as P. destruct z as [x y]. unfold Cdiv, Cinv, Cmul, C1, C0, Cabs2 in *. cbn in *.
  assert (P' : x * x + y * y <> 0) by exact P. split.
  - intros Q. injection Q as Q1 Q2. apply N. assert (A : x / (x * x + y * y) = 0) by lra. assert (B : - y / (x * x + y * y) = 0) by lra.
    assert (x = 0) by (apply (Rmult_eq_compat_r (x * x + y * y)) in A; unfold Rdiv in A; rewrite Rmult_assoc, Rinv_l in A by assumption; lra).
    assert (y = 0) by (apply (Rmult_eq_compat_r (x * x + y * y)) in B; unfold Rdiv in B; rewrite Rmult_assoc, Rinv_l in B by assumption; lra). congruence.
  - f_equal; field; repeat split; try assumption; intros Q; apply P'; nra.
Qed.
Section C.
Context {K : Type} (Vt : K -> K -> nat -> nat -> nat -> C) (Ve : K -> K -> nat -> nat -> C).
Notation cov_q_hat := (cov_q_hat Vt Ve).
(** the covariance that applies to one pair of keys *)
Definition V_of (model : string) (k1 k2 : K) (t i j : nat) : C := if string_dec model "dsets" then Vt k1 k2 t i j else Ve k1 k2 i j.
Fixpoint recip_sum (l : list C) : C := match l with [] => C0 | z :: l' => Cadd (Cdiv C1 z) (recip_sum l') end.

Lemma entry_sum_spec model pairs t i j : (forall kk, In kk pairs -> V_of model (fst kk) (snd kk) t i j <> C0) -> forall acc,
  fold_left (fun acc kk => oadd acc (if string_dec model "dsets" then odiv C1 (Some (Vt (fst kk) (snd kk) t i j)) else odiv C1 (Some (Ve (fst kk) (snd kk) i j)))) pairs (Some acc)
  = Some (Cadd acc (recip_sum (map (fun kk => V_of model (fst kk) (snd kk) t i j) pairs))).
Proof.
  induction pairs as [| kk pairs IH]; intros H acc; cbn.
  - destruct acc as [x y]. unfold Cadd, C0. cbn. do 2 f_equal; ring.
  - pose proof (H kk (or_introl eq_refl)) as N. unfold V_of in N at 1.
    assert (E : (if string_dec model "dsets" then if Ceqb0 (Vt (fst kk) (snd kk) t i j) then None else Some (Cdiv C1 (Vt (fst kk) (snd kk) t i j))
                 else if Ceqb0 (Ve (fst kk) (snd kk) i j) then None else Some (Cdiv C1 (Ve (fst kk) (snd kk) i j))) = Some (Cdiv C1 (V_of model (fst kk) (snd kk) t i j))).
    { unfold V_of. destruct (string_dec model "dsets"); rewrite Ceqb0_false by assumption; reflexivity. }
    rewrite E. cbn. rewrite IH by (intros; apply H; right; assumption). f_equal. unfold Cadd. cbn. f_equal; ring.
Qed.
Lemma time_list_None nt : time_list nt TNone = Ok (map Z.of_nat (seq 0 nt)).
Proof.
  unfold time_list. replace (forallb _ (map Z.of_nat (seq 0 nt))) with true; [reflexivity |]. symmetry. apply forallb_forall. intros t Ht. apply in_map_iff in Ht.
  destruct Ht as (n & <- & Hn). apply in_seq in Hn. apply andb_true_iff. split; [apply Z.leb_le | apply Z.leb_le]; lia.
Qed.
(** One pair of keys, all times: the covariance matrix of each time; an entry that is exactly zero comes out as nan *)
Theorem covq_single :
  forall nt model k1 k2, model = "dsets"%string \/ model = "empirical"%string ->
    exists out, cov_q_hat nt model (One k1) (One k2) TNone = Ok out /\ length out = nt /\
      forall t m i j, nth_error out t = Some m -> m i j = if Ceqb0 (V_of model k1 k2 t i j) then None else Some (V_of model k1 k2 t i j).
Proof.
  intros nt model k1 k2 HM. unfold CovqModel.cov_q_hat. cbn [is_many as_list length]. rewrite Nat.eqb_refl. cbn [Bool.eqb andb require]. rewrite time_list_None. cbn [bind].
  assert (NE : existsb (fun t => t =? Z.of_nat nt)%Z (map Z.of_nat (seq 0 nt)) = false).
  { apply not_true_iff_false. intros Q. apply existsb_exists in Q. destruct Q as (t & Ht & Q). apply in_map_iff in Ht. destruct Ht as (n & <- & Hn). apply in_seq in Hn. apply Z.eqb_eq in Q. lia. }
  rewrite NE. cbn [andb].
  assert (E : exists out, (if (if string_dec model "dsets" then true else false) then Ok (map (fun t i j => odiv (RtoC (INR 1)) (entry_sum Vt Ve model [(k1, k2)] (Z.to_nat t) i j)) (map Z.of_nat (seq 0 nt)))
     else if string_dec model "empirical" then Ok (map (fun t i j => odiv (RtoC (INR 1)) (entry_sum Vt Ve model [(k1, k2)] (Z.to_nat t) i j)) (map Z.of_nat (seq 0 nt)))
     else Ok (map (fun _ _ _ => odiv (RtoC (INR 1)) (Some C0)) (map Z.of_nat (seq 0 nt)))) = Ok out /\ out = map (fun t i j => odiv (RtoC (INR 1)) (entry_sum Vt Ve model [(k1, k2)] (Z.to_nat t) i j)) (map Z.of_nat (seq 0 nt))).
  { destruct (string_dec model "dsets"); [eexists; split; reflexivity |]. destruct (string_dec model "empirical"); [eexists; split; reflexivity |]. destruct HM; contradiction. }
  destruct E as (out & E & Eo). exists out. split; [exact E |]. subst out. split; [rewrite !map_length, seq_length; reflexivity |].
  intros t m i j Hm. rewrite !nth_error_map in Hm. destruct (nth_error (seq 0 nt) t) as [t' |] eqn:Et; [| discriminate]. cbn [option_map] in Hm. injection Hm as <-.
  assert (t' = t). { assert (L : (t < length (seq 0 nt))%nat) by (apply nth_error_Some; congruence). rewrite seq_length in L. apply nth_error_nth with (d := 0%nat) in Et. rewrite seq_nth in Et by assumption. lia. }
  subst t'. cbn beta. rewrite Nat2Z.id. unfold entry_sum.
  destruct (Ceqb0 (V_of model k1 k2 t i j)) eqn:Z0.
  - cbn [fold_left fst snd]. unfold V_of in Z0. destruct (string_dec model "dsets"); unfold odiv; rewrite Z0; reflexivity.
  - assert (N : V_of model k1 k2 t i j <> C0) by (intros Q; rewrite Q, Ceqb0_0 in Z0; discriminate).
    rewrite entry_sum_spec by (intros kk [<- | []]; exact N). cbn [map recip_sum fst snd odiv].
    replace (Cadd C0 (Cadd (Cdiv C1 (V_of model k1 k2 t i j)) C0)) with (Cdiv C1 (V_of model k1 k2 t i j)) by (unfold Cadd, C0; destruct (Cdiv C1 (V_of model k1 k2 t i j)); cbn; f_equal; ring).
    destruct (Cdiv_1_1 _ N) as [N1 E1]. rewrite (Ceqb0_false _ N1). cbn [INR]. change (RtoC 1) with C1. rewrite E1. reflexivity.
Qed.
(** Lists of keys: the number of pairs over the sum of the reciprocals, entry by entry (the harmonic mean, not divided by the number of pairs) *)
Theorem covq_many :
  forall nt model l1 l2 ts out, length l1 = length l2 -> (model = "dsets"%string \/ model = "empirical"%string) -> cov_q_hat nt model (Many l1) (Many l2) (TList ts) = Ok out ->
    length out = length ts /\
    forall a t m i j, nth_error out a = Some m -> nth_error ts a = Some t ->
      (forall kk, In kk (combine l1 l2) -> V_of model (fst kk) (snd kk) (Z.to_nat t) i j <> C0) ->
      let s := recip_sum (map (fun kk => V_of model (fst kk) (snd kk) (Z.to_nat t) i j) (combine l1 l2)) in
      m i j = if Ceqb0 s then None else Some (Cdiv (RtoC (INR (length l1))) s).
Proof.
  intros nt model l1 l2 ts out L HM H. unfold CovqModel.cov_q_hat in H. cbn [is_many as_list Bool.eqb] in H. rewrite L, Nat.eqb_refl in H. cbn [andb require] in H.
  unfold time_list in H. destruct (forallb _ ts) in H; [| discriminate]. cbn [require bind] in H.
  assert (E : out = map (fun t i j => odiv (RtoC (INR (length l2))) (entry_sum Vt Ve model (combine l1 l2) (Z.to_nat t) i j)) ts).
  { destruct (string_dec model "dsets").
    - destruct (existsb _ ts && _)%bool in H; [discriminate |]. injection H as <-. reflexivity.
    - destruct (string_dec model "empirical"); [injection H as <-; reflexivity | destruct HM; contradiction]. }
  subst out. split; [apply map_length |]. intros a t m i j Hm Ht HV s. rewrite nth_error_map, Ht in Hm. cbn [option_map] in Hm. injection Hm as <-.
  unfold entry_sum. rewrite entry_sum_spec by assumption. fold s. cbn [odiv].
  replace (Cadd C0 s) with s by (unfold Cadd, C0; destruct s; cbn; f_equal; ring). rewrite L. reflexivity.
Qed.
(** Times: negative and too large indices are refused, except that the number of times itself passes the check *)
Theorem covq_times :
  forall nt model k1 k2 l, (exists t, In t l /\ (t < 0 \/ Z.of_nat nt < t)%Z) -> exists e, cov_q_hat nt model k1 k2 (TList l) = Err e.
Proof.
  intros nt model k1 k2 l (t & Ht & Q). unfold CovqModel.cov_q_hat. destruct (_ && _)%bool; cbn [require]; [| eexists; reflexivity].
  unfold time_list. replace (forallb _ l) with false; [eexists; reflexivity |]. symmetry. apply not_true_iff_false. rewrite forallb_forall. intros A. specialize (A t Ht).
  apply andb_true_iff in A. destruct A as [A1 A2]. apply Z.leb_le in A1, A2. lia.
Qed.
End C.
Theorem covq_time_range_refuted :
  exists nt, exists out, cov_q_hat (K := unit) (fun _ _ _ _ _ => C1) (fun _ _ _ _ => C1) nt "empirical" (One tt) (One tt) (TInt (Z.of_nat nt)) = Ok out /\ length out = 1%nat.
Proof. exists 3%nat. eexists. split; reflexivity. Qed.
(** two single keys or two lists of the same length: anything else is refused *)
Theorem covq_keys : forall (K : Type) (Vt : K -> K -> nat -> nat -> nat -> C) Ve nt model k1 k2 a, a <> TOther ->
  cov_q_hat Vt Ve nt model k1 k2 a = Err AssertionError <->
  ~ ((exists x y, k1 = One x /\ k2 = One y) \/ (exists l l', k1 = Many l /\ k2 = Many l' /\ length l = length l')).
Proof.
  intros K Vt Ve nt model k1 k2 a Na. unfold cov_q_hat.
  assert (T : forall e, time_list nt a = Err e -> e = ValueError). { intros e. unfold time_list, require. destruct a as [|z|l|]; [|destruct (forallb (fun t => (0 <=? t) && (t <=? Z.of_nat nt))%Z [z])|destruct (forallb (fun t => (0 <=? t) && (t <=? Z.of_nat nt))%Z l)|]; try congruence. destruct (forallb (fun t => (0 <=? t) && (t <=? Z.of_nat nt))%Z (map Z.of_nat (seq 0 nt))); congruence. }
  assert (M : Bool.eqb (is_many k1) (is_many k2) && Nat.eqb (length (as_list k1)) (length (as_list k2)) = true <-> ((exists x y, k1 = One x /\ k2 = One y) \/ (exists l l', k1 = Many l /\ k2 = Many l' /\ length l = length l'))).
  { destruct k1 as [x|l], k2 as [y|l']; cbn.
    - split; [intros _; left; eauto|reflexivity].
    - split; [discriminate|]. intros [(? & ? & ? & ?)|(? & ? & ? & ?)]; discriminate.
    - split; [discriminate|]. intros [(? & ? & ? & ?)|(? & ? & ? & ? & ?)]; discriminate.
    - rewrite Nat.eqb_eq. split; [intros E; right; eauto|]. intros [(? & ? & ? & ?)|(? & ? & E1 & E2 & E3)]; [discriminate|]. injection E1 as <-. injection E2 as <-. exact E3. }
  destruct (Bool.eqb (is_many k1) (is_many k2) && Nat.eqb (length (as_list k1)) (length (as_list k2))) eqn:B.
  - split; [|intros N; exfalso; apply N, M; reflexivity]. intros H. exfalso. destruct a; try congruence; cbn [require] in H;
    (destruct (time_list nt _) as [ts|e] eqn:E; cbn [bind] in H; [|injection H as ->; specialize (T _ eq_refl); discriminate T]);
    (destruct (string_dec model "dsets"); [destruct (_ && negb _)%bool; discriminate H|destruct (string_dec model "empirical"); discriminate H]).
  - split; [intros _ Q; apply M in Q; discriminate Q|]. intros _. destruct a; try congruence; reflexivity.
Qed.
Print Assumptions covq_keys.
(** a model that is not supported (such as "autos", which the documentation lists) is not refused: the result is 1/0 throughout *)
Theorem covq_model_refuted :
  forall nt model k1 k2, model <> "dsets"%string -> model <> "empirical"%string ->
    exists out, cov_q_hat (K := unit) (fun _ _ _ _ _ => C1) (fun _ _ _ _ => C1) nt model (One k1) (One k2) TNone = Ok out /\ length out = nt /\ forall m i j, In m out -> m i j = None.
Proof.
  intros nt model k1 k2 N1 N2. unfold cov_q_hat. cbn [is_many as_list length Bool.eqb]. rewrite Nat.eqb_refl. cbn [andb require]. rewrite time_list_None. cbn [bind].
  destruct (string_dec model "dsets"); [contradiction |]. destruct (string_dec model "empirical"); [contradiction |]. eexists. split; [reflexivity |].
  split; [rewrite !map_length, seq_length; reflexivity |]. intros m i j H. apply in_map_iff in H. destruct H as (t & <- & _). cbn [odiv]. rewrite Ceqb0_0. reflexivity.
Qed.
(** combining n pairs of equal covariance does not reduce the covariance *)
Theorem covq_inverse_weights_refuted :
  ~ (forall (V : C) (n : nat), V <> C0 -> (2 <= n)%nat -> forall out, cov_q_hat (K := unit) (fun _ _ _ _ _ => V) (fun _ _ _ _ => V) 1 "dsets" (Many (repeat tt n)) (Many (repeat tt n)) (TList [0%Z]) = Ok out ->
       forall m, nth_error out 0 = Some m -> m 0%nat 0%nat = Some (Cdiv V (RtoC (INR n)))).
Proof.
  intros H. specialize (H C1 2%nat). assert (N : C1 <> C0) by (intros Q; apply (f_equal re) in Q; cbn in Q; lra). specialize (H N (le_n 2)).
  assert (E : exists out, cov_q_hat (K := unit) (fun _ _ _ _ _ => C1) (fun _ _ _ _ => C1) 1 "dsets" (Many (repeat tt 2)) (Many (repeat tt 2)) (TList [0%Z]) = Ok out) by (eexists; reflexivity).
  destruct E as [out E]. specialize (H out E).
  destruct (covq_many (K := unit) (fun _ _ _ _ _ => C1) (fun _ _ _ _ => C1) 1 "dsets" (repeat tt 2) (repeat tt 2) [0%Z] out eq_refl (or_introl eq_refl) E) as [L S].
  destruct (nth_error out 0) as [m |] eqn:Em; [| apply nth_error_None in Em; cbn in L; lia]. specialize (H m eq_refl).
  specialize (S 0%nat 0%Z m 0%nat 0%nat Em eq_refl). cbn zeta in S. rewrite S in H by (intros kk _; exact N).
  assert (V1 : V_of (K := unit) (fun _ _ _ _ _ => C1) (fun _ _ _ _ => C1) "dsets" tt tt 0 0 0 = C1) by reflexivity.
  cbn [repeat combine map fst snd recip_sum length Z.to_nat] in H. rewrite V1 in H.
  assert (Q1 : Cdiv C1 C1 = C1) by (unfold Cdiv, Cinv, Cmul, Cabs2, C1; cbn; f_equal; field).
  rewrite Q1 in H. assert (Q2 : Cadd C1 (Cadd C1 C0) = mkC 2 0) by (unfold Cadd, C1, C0; cbn; f_equal; ring). rewrite Q2 in H.
  rewrite Ceqb0_false in H by (intros Q; apply (f_equal re) in Q; cbn in Q; lra). 
  injection H as H. unfold Cdiv, Cinv, Cmul, Cabs2, RtoC, C1 in H. cbn in H. field_simplify in H; lra.
Qed.

(** ** noise variance from autocorrelations *)
Lemma insertR_In x l y : In y (insertR x l) <-> y = x \/ In y l.
Proof. induction l as [| z l IH]; cbn; [intuition |]. destruct (Rle_dec x z); cbn; [intuition | rewrite IH; intuition]. Qed.
Lemma sortR_In l y : In y (sortR l) <-> In y l.
Proof. induction l as [| x l IH]; cbn; [tauto |]. rewrite insertR_In, IH. intuition. Qed.
Lemma insertR_length x l : length (insertR x l) = S (length l).
Proof. induction l as [| z l IH]; cbn; [reflexivity |]. destruct (Rle_dec x z); cbn; [reflexivity | rewrite IH; reflexivity]. Qed.
Lemma sortR_length l : length (sortR l) = length l.
Proof. induction l as [| x l IH]; unfold sortR in *; cbn; [reflexivity |]. rewrite insertR_length, IH. reflexivity. Qed.
Lemma median_range l lo hi : l <> [] -> (forall x, In x l -> lo <= x <= hi) -> lo <= medianR l <= hi.
Proof.
  intros N H. unfold medianR. assert (L : (0 < length (sortR l))%nat) by (rewrite sortR_length; destruct l; [congruence | cbn; lia]).
  assert (A : forall k, (k < length (sortR l))%nat -> lo <= nth k (sortR l) 0 <= hi) by (intros k Hk; apply H, sortR_In, nth_In, Hk).
  pose proof (A ((length (sortR l) - 1) / 2)%nat ltac:(apply Nat.div_lt_upper_bound; lia)). pose proof (A (length (sortR l) / 2)%nat ltac:(apply Nat.div_lt_upper_bound; lia)). lra.
Qed.
Lemma posb_spec x : posb x = true <-> 0 < x.
Proof. unfold posb. destruct (Rlt_dec 0 x); split; intros; auto; discriminate. Qed.
(** the number of samples that is used for a channel *)
Theorem autos_nsamples :
  forall ns i n, nth_error ns i = Some n -> (forall x, In x ns -> 0 <= x) ->
    exists n', nth_error (fill_nsamples ns) i = Some n' /\ (0 < n -> n' = n) /\
      (n = 0 -> (forall x, In x ns -> x = 0) -> n' = 0) /\
      (n = 0 -> forall lo hi y, In y ns -> 0 < y -> (forall x, In x ns -> 0 < x -> lo <= x <= hi) -> 0 < lo -> lo <= n' <= hi).
Proof.
  intros ns i n Hi NN. unfold fill_nsamples. rewrite nth_error_map, Hi. cbn [option_map]. eexists. split; [reflexivity |]. split; [| split].
  - intros P. apply posb_spec in P. rewrite P. reflexivity.
  - intros -> Z. replace (posb 0) with false by (symmetry; apply not_true_iff_false; rewrite posb_spec; lra).
    destruct (filter posb ns) as [| y l] eqn:F; [reflexivity |]. exfalso. assert (I : In y (filter posb ns)) by (rewrite F; left; reflexivity). apply filter_In in I. destruct I as [I P]. apply posb_spec in P. rewrite (Z y I) in P. lra.
  - intros -> lo hi y Hy Py HB _. replace (posb 0) with false by (symmetry; apply not_true_iff_false; rewrite posb_spec; lra).
    assert (I : In y (filter posb ns)) by (apply filter_In; split; [assumption | apply posb_spec; assumption]).
    destruct (filter posb ns) as [| z l] eqn:F; [destruct I |]. rewrite <- F in *. apply median_range; [rewrite F; discriminate |]. intros x Hx. apply filter_In in Hx. destruct Hx as [Hx Px]. apply posb_spec in Px. auto.
Qed.
Lemma combine_nth_error {A B} (l : list A) (l' : list B) i x y : nth_error l i = Some x -> nth_error l' i = Some y -> nth_error (combine l l') i = Some (x, y).
Proof. revert l' i. induction l as [| a l IH]; intros [| b l'] [| i] H H'; cbn in *; try discriminate; [congruence | apply IH; assumption]. Qed.
Lemma Cmod_prod a b : Cmod (Cmul a (Cconj b)) = Cmod a * Cmod b.
Proof. unfold Cmod. rewrite <- sqrt_mult by (unfold Cabs2; nra). f_equal. destruct a, b. unfold Cabs2, Cmul, Cconj. cbn. ring. Qed.
(** The variance is |V1||V2| / (dt df n), n the number of samples used; infinite if the window has none; positive otherwise;
    the two antennas play the same role *)
Theorem autos_variance :
  forall tint x1 x2 ns df i a b n w, nth_error x1 i = Some a -> nth_error x2 i = Some b -> nth_error (fill_nsamples ns) i = Some n -> nth_error df i = Some w ->
    medianR tint * w <> 0 ->
    nth_error (var_autos tint x1 x2 ns df) i = Some (if Req_EM_T n 0 then None else Some (Cmod a * Cmod b / (medianR tint * w * n))).
Proof.
  intros tint x1 x2 ns df i a b n w H1 H2 Hn Hw NZ.
  unfold var_autos. rewrite nth_error_map, (combine_nth_error _ _ i (a, b, n) w); [| apply combine_nth_error; [apply combine_nth_error |]; assumption | assumption]. cbn [option_map].
  f_equal. destruct (Req_EM_T n 0); [reflexivity |]. rewrite Cmod_prod. f_equal. field. assert (medianR tint <> 0 /\ w <> 0) as [? ?] by (split; intros Q; apply NZ; rewrite Q; ring). repeat split; assumption.
Qed.
Theorem autos_symmetric : forall tint x1 x2 ns df, length x1 = length x2 -> var_autos tint x1 x2 ns df = var_autos tint x2 x1 ns df.
Proof.
  intros tint x1 x2 ns df L. unfold var_autos. generalize (fill_nsamples ns). intros f. clear ns. revert x2 L f df.
  induction x1 as [| a x1 IH]; intros [| b x2] L f df; cbn in L; try discriminate; [reflexivity |]. destruct f as [| n f]; [reflexivity |]. destruct df as [| w df]; [reflexivity |].
  cbn [combine map]. f_equal; [| apply IH; lia]. destruct (Req_EM_T n 0); [reflexivity |]. rewrite !Cmod_prod. do 4 f_equal. ring.
Qed.
(** the integration time is the median over all baselines, not that of the baseline: with baseline-dependent averaging the variance is off *)
Theorem autos_integration_refuted :
  ~ (forall tint tbl x1 x2 ns df i a b n w, In tbl tint -> 0 < tbl -> (forall t, In t tint -> 0 < t) -> nth_error x1 i = Some a -> nth_error x2 i = Some b -> nth_error ns i = Some n -> 0 < n -> nth_error df i = Some w -> 0 < w ->
       nth_error (var_autos tint x1 x2 ns df) i = Some (Some (Cmod a * Cmod b / (tbl * w * n)))).
Proof.
  intros H. specialize (H [2; 1; 1] 2 [C1] [C1] [1] [1] 0%nat C1 C1 1 1).
  assert (X := H ltac:(left; reflexivity) ltac:(lra) ltac:(intros t [<- | [<- | [<- | []]]]; lra) eq_refl eq_refl eq_refl ltac:(lra) eq_refl ltac:(lra)). clear H.
  assert (M : medianR [2; 1; 1] = 1).
  { unfold medianR, sortR. cbn [fold_right insertR]. destruct (Rle_dec 1 1); [| lra]. cbn [insertR]. destruct (Rle_dec 2 1); [lra |]. cbn. lra. }
  assert (CM : Cmod C1 = 1) by (unfold Cmod, Cabs2, C1; cbn; replace (1 * 1 + 0 * 0) with 1 by ring; apply sqrt_1).
  assert (F : nth_error (fill_nsamples [1]) 0 = Some 1). { unfold fill_nsamples. cbn. unfold posb. destruct (Rlt_dec 0 1); [reflexivity | lra]. }
  assert (Y := autos_variance [2; 1; 1] [C1] [C1] [1] [1] 0%nat C1 C1 1 1 eq_refl eq_refl F eq_refl ltac:(rewrite M; lra)).
  rewrite Y in X. destruct (Req_EM_T 1 0); [lra |]. injection X as X. rewrite M, CM in X. field_simplify in X; lra.
Qed.
Example autos_ex : medianR [2] * 3 <> 0 /\ nth_error (fill_nsamples [4; 0]) 0 = Some 4.
Proof.
  assert (M : medianR [2] = 2) by (unfold medianR, sortR; cbn; lra). rewrite M. split; [lra |]. unfold fill_nsamples. cbn. unfold posb at 1. destruct (Rlt_dec 0 4); [reflexivity | lra].
Qed.
Example covq_ex : exists out, cov_q_hat (K := unit) (fun _ _ t i j => RtoC (INR (1 + t + i + j))) (fun _ _ _ _ => C1) 3 "dsets" (One tt) (One tt) TNone = Ok out.
Proof. eexists; reflexivity. Qed.
Print Assumptions covq_single. Print Assumptions covq_many. Print Assumptions covq_times. Print Assumptions covq_time_range_refuted. Print Assumptions covq_model_refuted.
Print Assumptions covq_inverse_weights_refuted. Print Assumptions autos_nsamples. Print Assumptions autos_variance. Print Assumptions autos_symmetric. Print Assumptions autos_integration_refuted.

(** the number of times itself: an IndexError of the model "dsets" as soon as there is a pair of keys, no error without one *)
Theorem covq_time_at_end : forall (K : Type) (Vt : K -> K -> nat -> nat -> nat -> C) Ve nt k1 k2 l1 l2,
  cov_q_hat Vt Ve nt "dsets" (One k1) (One k2) (TList [Z.of_nat nt]) = Err IndexError /\
  (length l1 = length l2 -> l1 <> [] -> cov_q_hat Vt Ve nt "dsets" (Many l1) (Many l2) (TList [Z.of_nat nt]) = Err IndexError) /\
  exists out, cov_q_hat Vt Ve nt "dsets" (Many []) (Many []) (TList [Z.of_nat nt]) = Ok out /\ length out = 1%nat.
Proof.
  intros K Vt Ve nt k1 k2 l1 l2.
  assert (T : time_list nt (TList [Z.of_nat nt]) = Ok [Z.of_nat nt]).
  { unfold time_list. cbn [forallb]. replace ((0 <=? Z.of_nat nt)%Z && (Z.of_nat nt <=? Z.of_nat nt)%Z)%bool with true; [reflexivity|]. symmetry. apply andb_true_intro. split; apply Z.leb_le; lia. }
  split; [|split].
  - unfold cov_q_hat. cbn [is_many as_list length Bool.eqb]. rewrite T. cbn. rewrite Z.eqb_refl. reflexivity.
  - intros L N. unfold cov_q_hat. cbn [is_many as_list Bool.eqb]. rewrite L, Nat.eqb_refl, T. cbn. rewrite Z.eqb_refl.
    destruct l1 as [|x l1]; [contradiction N; reflexivity|]. destruct l2 as [|y l2]; [discriminate|]. reflexivity.
  - unfold cov_q_hat. cbn [is_many as_list length Bool.eqb]. rewrite T. cbn. rewrite Z.eqb_refl. cbn. eexists. split; reflexivity.
Qed.
