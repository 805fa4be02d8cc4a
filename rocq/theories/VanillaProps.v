(** Property C327: the example object of the tests. *)
From Coq Require Import QArith Qround Permutation ZArith.
From Verif Require Import PyDict.
From Verif Require Import Prelude ListLemmas UvpModel UvpSpec UvpProofs SelectProofs SelectMain SelectTotal CommonProofs LawModel LawProofs LawSelect CombineModel CombineProofs CombineMain CombineSound CombineObject SplitProofs SplitBridge SplitProps VanillaModel.
Open Scope nat_scope.

(** ** two tiled lists *)
Lemma tile_length {A} (l : list A) n : length (tile l n) = n * length l.
Proof. unfold tile. induction n as [|n IH]; [reflexivity|]. cbn. rewrite app_length, IH. reflexivity. Qed.
Lemma tile_nth {A} (l : list A) n k : l <> [] -> k < n * length l -> nth_error (tile l n) k = nth_error l (k mod length l).
Proof.
  intros N. revert k. unfold tile. induction n as [|n IH]; intros k H; [lia|]. cbn. assert (L : length l <> 0) by (destruct l; [congruence|discriminate]).
  destruct (Nat.lt_ge_cases k (length l)) as [C|C].
  - rewrite nth_error_app1 by exact C. rewrite Nat.mod_small by exact C. reflexivity.
  - rewrite nth_error_app2 by exact C. rewrite IH by (cbn in H; lia). f_equal. replace k with (k - length l + 1 * length l) at 2 by lia. rewrite Nat.mod_add by exact L. reflexivity.
Qed.
Lemma mod_unique m n a b : m <> 0 -> n <> 0 -> Nat.gcd m n = 1 -> a < m * n -> b < m * n -> a mod m = b mod m -> a mod n = b mod n -> a = b.
Proof.
  assert (G : forall a b, m <> 0 -> n <> 0 -> Nat.gcd m n = 1 -> a < m * n -> b <= a -> a mod m = b mod m -> a mod n = b mod n -> a = b).
  { clear a b. intros a b Hm Hn G La Lb E1 E2.
    assert (D1 : Nat.divide m (a - b)). { exists (a / m - b / m). pose proof (Nat.div_mod a m Hm). pose proof (Nat.div_mod b m Hm). pose proof (Nat.div_le_mono b a m Hm Lb). nia. }
    assert (D2 : Nat.divide n (a - b)). { exists (a / n - b / n). pose proof (Nat.div_mod a n Hn). pose proof (Nat.div_mod b n Hn). pose proof (Nat.div_le_mono b a n Hn Lb). nia. }
    destruct D1 as [c Hc]. rewrite Hc in D2. rewrite Nat.mul_comm in D2. rewrite Nat.gcd_comm in G. pose proof (Nat.gauss n m c D2 G) as [e He]. subst c. rewrite Nat.gcd_comm in G.
    destruct e as [|e]; [lia|]. assert (m * n <= a - b); [rewrite Hc; cbn; nia|]. lia. }
  intros Hm Hn Gc La Lb E1 E2. destruct (Nat.le_ge_cases b a) as [C|C]; [apply G; assumption|]. symmetry. apply G; auto.
Qed.
(** every pair of indices is met at exactly one place *)
Lemma tile_index m n i j : m <> 0 -> n <> 0 -> Nat.gcd m n = 1 -> i < m -> j < n -> exists k, k < m * n /\ k mod m = i /\ k mod n = j.
Proof.
  intros Hm Hn G Hi Hj. set (f := fun k => (k mod m, k mod n)).
  assert (ND : NoDup (map f (seq 0 (m * n)))).
  { assert (Q : forall l, NoDup l -> (forall x, In x l -> x < m * n) -> NoDup (map f l)).
    { induction l as [|x l IH]; intros N B; cbn; [constructor|]. inversion N as [|? ? N1 N2]; subst. constructor; [|apply IH; [exact N2|intros; apply B; right; assumption]].
      intros I. apply in_map_iff in I. destruct I as [y [E Iy]]. unfold f in E. injection E as E1 E2. apply N1. rewrite <- (mod_unique m n y x Hm Hn G); auto; apply B; [right; exact Iy|left; reflexivity]. }
    apply Q; [apply seq_NoDup|]. intros x Hx. apply in_seq in Hx. lia. }
  assert (I : incl (list_prod (seq 0 m) (seq 0 n)) (map f (seq 0 (m * n)))).
  { apply NoDup_length_incl; [exact ND|rewrite prod_length, map_length, !seq_length; lia|]. intros p Hp. apply in_map_iff in Hp. destruct Hp as [k [<- _]]. unfold f. apply in_prod; apply in_seq; split; [lia|apply Nat.mod_upper_bound; assumption|lia|apply Nat.mod_upper_bound; assumption]. }
  specialize (I (i, j)). rewrite in_prod_iff, !in_seq in I. specialize (I ltac:(lia)). apply in_map_iff in I. destruct I as [k [E Hk]]. apply in_seq in Hk. unfold f in E. injection E as E1 E2. exists k. split; [lia|auto].
Qed.

(** np.tile of two lists whose lengths have no common factor gives all combinations, each once *)
Theorem tile_combinations : forall (A B : Type) (a : list A) (b : list B), a <> [] -> b <> [] -> Nat.gcd (length a) (length b) = 1 ->
  length (combine (tile a (length b)) (tile b (length a))) = length a * length b /\
  forall i j x y, nth_error a i = Some x -> nth_error b j = Some y ->
    exists k, nth_error (combine (tile a (length b)) (tile b (length a))) k = Some (x, y) /\ k mod length a = i /\ k mod length b = j /\
    forall k', k' < length a * length b -> k' mod length a = i -> k' mod length b = j -> k' = k.
Proof.
  intros A B a b Na Nb G. assert (La : length a <> 0) by (destruct a; [congruence|discriminate]). assert (Lb : length b <> 0) by (destruct b; [congruence|discriminate]).
  split; [rewrite List.combine_length, !tile_length; lia|]. intros i j x y Hi Hj. pose proof (nth_error_Some_lt _ _ _ Hi) as Li. pose proof (nth_error_Some_lt _ _ _ Hj) as Lj.
  destruct (tile_index (length a) (length b) i j La Lb G Li Lj) as (k & Hk & K1 & K2). exists k. split; [|split; [exact K1|split; [exact K2|]]].
  - assert (C : forall (l : list A) (m : list B) n u v, nth_error l n = Some u -> nth_error m n = Some v -> nth_error (combine l m) n = Some (u, v)).
    { induction l as [|z l IH]; intros [|w m] [|n] u v H1 H2; cbn in *; try discriminate; [congruence|apply IH; assumption]. }
    apply C; [rewrite tile_nth by (auto; lia); rewrite K1; exact Hi|rewrite tile_nth by (auto; lia); rewrite K2; exact Hj].
  - intros k' Hk' E1 E2. apply (mod_unique (length a) (length b)); auto; congruence.
Qed.
(** with a common factor combinations are missing *)
Theorem tile_common_factor : forall (A B : Type) (a : list A) (b : list B) k x y i j, a <> [] -> b <> [] -> nth_error a i = Some x -> nth_error b j = Some y ->
  k < length a * length b -> k mod length a = i -> k mod length b = j -> i mod Nat.gcd (length a) (length b) = j mod Nat.gcd (length a) (length b).
Proof.
  intros A B a b k x y i j Na Nb _ _ _ <- <-. assert (La : length a <> 0) by (destruct a; [congruence|discriminate]). assert (Lb : length b <> 0) by (destruct b; [congruence|discriminate]).
  destruct (Nat.gcd_divide_l (length a) (length b)) as [c Hc]. destruct (Nat.gcd_divide_r (length a) (length b)) as [d Hd]. set (g := Nat.gcd _ _) in *.
  assert (Lg : g <> 0) by (intros ->; lia).
  assert (Q : forall m q, m = q * g -> m <> 0 -> (k mod m) mod g = k mod g).
  { intros m q E Hm. rewrite (Nat.div_mod k m Hm) at 2. assert (F : m * (k / m) = q * (k / m) * g) by (rewrite E at 1; ring). rewrite F. rewrite Nat.add_comm, Nat.mod_add by exact Lg. reflexivity. }
  rewrite (Q _ _ Hc La), (Q _ _ Hd Lb). reflexivity.
Qed.
Print Assumptions tile_combinations.
Print Assumptions tile_common_factor.

(** ** the example object *)
Section V.
Context {X : Type} (num : Q -> X) (vec : Q -> Q -> Q -> X) (JD2LST : Q -> Q).
Notation vanilla := (vanilla num vec JD2LST).
Lemma map2_length {A B C} (f : A -> B -> C) a b : length a = length b -> length (map2 f a b) = length a.
Proof. revert b. induction a as [|x a IH]; intros [|y b] H; cbn in *; try discriminate; [reflexivity|]. f_equal. apply IH. lia. Qed.
Lemma vanilla_rows_length nd e : length (u_blpair_array (vanilla nd e)) = 30.
Proof. reflexivity. Qed.
End V.

(** valid, for every number of delays, embedding and LST function *)
Theorem vanilla_valid : forall (X : Type) (num : Q -> X) (vec : Q -> Q -> Q -> X) (JD2LST : Q -> Q) nd e, wf (vanilla num vec JD2LST nd e).
Proof.
  intros X num vec JD2LST nd e. set (n := match nd with None => v_Nfreqs | Some n => n end).
  assert (SH : forall f : Z -> list X, shaped (vanilla num vec JD2LST nd e) [(0, map (fun blp => [f blp]) (tile v_blpairs v_Ntimes))]).
  { intros f s [<-|[]]. eexists. split; [reflexivity|]. split; [apply map_length|]. intros r Hr. apply in_map_iff in Hr. destruct Hr as [z [<- _]]. reflexivity. }
  constructor.
  - apply Permutation_refl.
  - cbn [u_freq_array u_spw_freq_array VanillaModel.vanilla]. rewrite map_length, seq_length, repeat_length. reflexivity.
  - cbn [u_dly_array u_spw_dly_array VanillaModel.vanilla]. rewrite map_length, seq_length, repeat_length. reflexivity.
  - intros s Hs. apply repeat_spec in Hs. left. auto.
  - intros s Hs. apply repeat_spec in Hs. left. auto.
  - split; [reflexivity|]. intros r [<-|[]]. reflexivity.
  - reflexivity.
  - destruct e; reflexivity.
  - destruct e; reflexivity.
  - reflexivity.
  - destruct e; reflexivity.
  - destruct e; reflexivity.
  - reflexivity.
  - intros d Hd. cbn in Hd. repeat (destruct Hd as [<-|Hd]; [apply (SH (fun _ => _)) || apply SH|]). destruct Hd.
  - intros r [].
Qed.
(** one row for every baseline-pair at every time, and no other; what the row stores *)
Theorem vanilla_rows : forall (X : Type) (num : Q -> X) (vec : Q -> Q -> Q -> X) (JD2LST : Q -> Q) nd e,
  let u := vanilla num vec JD2LST nd e in
  length (u_blpair_array u) = 30 /\
  forall b k, In b v_blpairs -> k < 10 -> exists i,
    (nth_error (u_blpair_array u) i = Some b /\ nth_error (u_time_1_array u) i = Some (v_time k) /\ nth_error (u_time_2_array u) i = Some (v_time2 e k)) /\
    (forall i', nth_error (u_blpair_array u) i' = Some b -> nth_error (u_time_1_array u) i' = Some (v_time k) -> i' = i) /\
    nth_error (u_lst_1_array u) i = Some (JD2LST (v_time k)) /\
    (exists t, nth_error (u_time_avg_array u) i = Some t /\ Qeq t (v_time k + (if e then 0 else 1 # 360))) /\
    exists row, aget (u_data u) 0 = Some row /\ nth_error row i = Some [repeat (num (inject_Z b / 1000000000)%Q) (match nd with None => 50 | Some n => n end)].
Proof.
  intros X num vec JD2LST nd e u. split; [reflexivity|]. intros b k Hb Hk.
  assert (D : exists j, j < 3 /\ nth_error v_blpairs j = Some b /\ forall j', nth_error v_blpairs j' = Some b -> j' = j).
  { destruct Hb as [<-|[<-|[<-|[]]]]; [exists 0|exists 1|exists 2]; (split; [lia|split; [reflexivity|]]); intros [|[|[|j']]] E; cbn in E; try discriminate; try reflexivity; destruct j'; discriminate. }
  destruct D as (j & Lj & Ej & Uj). destruct (tile_index 3 10 j k ltac:(lia) ltac:(lia) eq_refl Lj Hk) as (i & Li & I1 & I2).
  assert (Tk : forall m, m < 10 -> nth_error v_times m = Some (v_time m)).
  { intros m Hm. unfold v_times. rewrite nth_error_map. rewrite (nth_error_nth' _ 0) by (rewrite seq_length; exact Hm). rewrite seq_nth by exact Hm. reflexivity. }
  assert (B : forall m, m < 30 -> nth_error (u_blpair_array u) m = nth_error v_blpairs (m mod 3)) by (intros m Hm; apply (tile_nth v_blpairs 10 m); [discriminate|exact Hm]).
  assert (T : forall m, m < 30 -> nth_error (u_time_1_array u) m = Some (v_time (m mod 10))).
  { intros m Hm. change (u_time_1_array u) with (tile v_times 3). rewrite tile_nth; [apply Tk, Nat.mod_upper_bound; lia|discriminate|exact Hm]. }
  assert (T2 : forall m, m < 30 -> nth_error (u_time_2_array u) m = Some (v_time2 e (m mod 10))).
  { intros m Hm. unfold v_time2. destruct e; [apply T, Hm|]. change (u_time_2_array u) with (map (fun t => (t + (1 # 180))%Q) (u_time_1_array u)). rewrite nth_error_map, (T m Hm). reflexivity. }
  assert (VT : forall m m', Qeq (v_time m) (v_time m') -> m = m').
  { intros m m' E. unfold v_time in E. apply Qplus_inj_l in E. apply Qmult_inj_r in E; [|discriminate]. unfold Qeq in E. cbn in E. lia. }
  exists i. split; [|split; [|split; [|split]]].
  - rewrite B, I1, T, T2, I2 by exact Li. auto.
  - intros i' E1 E2. assert (Li' : i' < 30) by (apply nth_error_Some_lt in E1; exact E1). rewrite B in E1 by exact Li'. rewrite T in E2 by exact Li'. apply (f_equal (fun o => match o with Some x => x | None => 0%Q end)) in E2. change (v_time (i' mod 10) = v_time k) in E2.
    apply (mod_unique 3 10 i' i); [discriminate|discriminate|reflexivity|exact Li'|exact Li|rewrite I1; apply Uj; exact E1|rewrite I2; apply VT; rewrite E2; reflexivity].
  - change (u_lst_1_array u) with (map JD2LST (u_time_1_array u)). rewrite nth_error_map, (T i Li), I2. reflexivity.
  - exists ((v_time k + v_time2 e k) / 2)%Q. split.
    + change (u_time_avg_array u) with (map2 (fun a b => ((a + b) / 2)%Q) (u_time_1_array u) (u_time_2_array u)).
      assert (M : forall {A B C} (f : A -> B -> C) a b m x y, nth_error a m = Some x -> nth_error b m = Some y -> nth_error (map2 f a b) m = Some (f x y)).
      { clear. intros A B C f. induction a as [|z a IH]; intros [|w b] [|m] x y H1 H2; cbn in *; try discriminate; [congruence|apply IH; assumption]. }
      apply (M _ _ _ (fun a b => ((a + b) / 2)%Q)); [rewrite T, I2 by exact Li; reflexivity|rewrite T2, I2 by exact Li; reflexivity].
    + unfold v_time2. destruct e; field.
  - exists (map (fun blp => [repeat (num (inject_Z blp / 1000000000)%Q) (match nd with None => 50 | Some n => n end)]) (tile v_blpairs v_Ntimes)). split; [reflexivity|].
    assert (Bi : nth_error (tile v_blpairs v_Ntimes) i = Some b). { rewrite (tile_nth v_blpairs v_Ntimes i); [change (length v_blpairs) with 3; rewrite I1; exact Ej|discriminate|exact Li]. }
    rewrite nth_error_map, Bi. reflexivity.
Qed.
(** the weights, the integration times, and the numbers of samples of every row are 1 *)
Theorem vanilla_units : forall (X : Type) (num : Q -> X) (vec : Q -> Q -> Q -> X) (JD2LST : Q -> Q) nd e,
  let u := vanilla num vec JD2LST nd e in
  forall a w, In (a, w) [(u_wgt u, 100); (u_integration u, 1); (u_nsample u, 1)] ->
  exists rows, a = [(0, rows)] /\ length rows = 30 /\ forall r, In r rows -> exists v, r = [v] /\ length v = w /\ forall x, In x v -> x = num 1%Q.
Proof.
  intros X num vec JD2LST nd e u a w H.
  assert (Q : forall n, exists rows, [(0, map (fun blp : Z => [ones num n]) (tile v_blpairs v_Ntimes))] = [(0, rows)] /\ length rows = 30 /\ forall r, In r rows -> exists v, r = [v] /\ length v = n /\ forall x, In x v -> x = num 1%Q).
  { intro n. eexists. split; [reflexivity|]. split; [rewrite map_length; reflexivity|]. intros r Hr. apply in_map_iff in Hr. destruct Hr as [z [<- _]].
    exists (ones num n). split; [reflexivity|]. split; [apply repeat_length|]. intros x Hx. apply repeat_spec in Hx. exact Hx. }
  destruct H as [H|[H|[H|[]]]]; injection H as <- <-; [exact (Q 100)|exact (Q 1)|exact (Q 1)].
Qed.
(** the axes and matrices: frequencies 100 MHz + k 100 kHz, delays k / (n 100 kHz) centred on zero, covariances are identity matrices, everything belongs to window 0 *)
Theorem vanilla_axes : forall (X : Type) (num : Q -> X) (vec : Q -> Q -> Q -> X) (JD2LST : Q -> Q) nd e,
  let u := vanilla num vec JD2LST nd e in let n := match nd with None => 50 | Some n => n end in
  (forall k, nth_error (u_freq_array u) k = if Nat.ltb k 50 then Some (num (inject_Z (100000000 + 100000 * Z.of_nat k))) else None) /\
  (forall k, k < n -> exists q, nth_error (u_dly_array u) k = Some q /\ Qeq (q * inject_Z (Z.of_nat n * 100000)) (inject_Z (Z.of_nat k - Z.of_nat (n / 2)))) /\ length (u_dly_array u) = n /\
  u_spw_freq_array u = repeat 0 50 /\ u_spw_dly_array u = repeat 0 n /\
  (exists c, u_cov u = Some [(0, c)] /\ u_window u = u_cov u /\ forall r m i j, In r c -> In m r -> i < n -> j < n -> nth_error m (i * n + j) = Some (num (if Nat.eqb i j then 1 else 0)%Q)).
Proof.
  intros X num vec JD2LST nd e u n. split; [|split; [|split; [|split; [|split]]]].
  - intros k. change (u_freq_array u) with (map (fun k => num (v_freq k)) (seq 0 50)). rewrite nth_error_map. destruct (Nat.ltb_spec k 50) as [H|H].
    + rewrite (nth_error_nth' _ 0) by (rewrite seq_length; exact H). rewrite seq_nth by exact H. cbn [option_map]. unfold v_freq. do 3 f_equal. cbn [Nat.add]. ring.
    + rewrite (proj2 (nth_error_None (seq 0 50) k)) by (rewrite seq_length; exact H). reflexivity.
  - intros k H. change (u_dly_array u) with (map (v_dly n) (seq 0 n)). exists (v_dly n k). split.
    + rewrite nth_error_map, (nth_error_nth' _ 0) by (rewrite seq_length; exact H). rewrite seq_nth by exact H. reflexivity.
    + unfold v_dly. field. unfold Qeq. cbn. lia.
  - change (u_dly_array u) with (map (v_dly n) (seq 0 n)). rewrite map_length. apply seq_length.
  - reflexivity.
  - reflexivity.
  - eexists. split; [reflexivity|]. split; [reflexivity|]. intros r m i j Hr Hm Hi Hj. apply in_map_iff in Hr. destruct Hr as (b & <- & _). destruct Hm as [<-|[]]. change (match nd with None => v_Nfreqs | Some n => n end) with n. unfold identity.
    assert (G : forall (f : nat -> nat -> X) N s i, i < N -> j < n -> nth_error (flat_map (fun i => map (f i) (seq 0 n)) (seq s N)) (i * n + j) = Some (f (s + i) j)).
    { clear -Hj. intros f. induction N as [|N IH]; intros s i Hi Hj'; [lia|]. cbn [seq flat_map]. destruct i as [|i].
      - rewrite nth_error_app1 by (rewrite map_length, seq_length; lia). rewrite nth_error_map, (nth_error_nth' _ 0) by (rewrite seq_length; lia). rewrite seq_nth by lia. cbn [option_map Nat.mul Nat.add]. rewrite Nat.add_0_r. reflexivity.
      - rewrite nth_error_app2 by (rewrite map_length, seq_length; lia). rewrite map_length, seq_length. replace (S i * n + j - n) with (i * n + j) by lia. rewrite IH by lia. f_equal. f_equal. lia. }
    rewrite (G (fun i j => num (if Nat.eqb i j then 1%Q else 0%Q)) n 0 i Hi Hj). reflexivity.
Qed.
(** the hypotheses of the theorems about splitting (C322-C324) hold of it *)
Theorem vanilla_usual : forall (X : Type) (num : Q -> X) (vec : Q -> Q -> Q -> X) (JD2LST : Q -> Q) zt zf zd step nd e,
  (forall i j, i < 10 -> j < 10 -> zt (v_time i) = zt (v_time j) -> i = j) ->
  usual zt zf zd step (vanilla num vec JD2LST nd e).
Proof.
  intros X num vec JD2LST zt zf zd step nd e Z. set (u := vanilla num vec JD2LST nd e).
  assert (NB : NoDup (c_blpts (to_c zt zf zd u))).
  { pose proof (vanilla_rows X num vec JD2LST nd e) as [_ R]. fold u in R. rewrite NoDup_nth_error. intros i i' Li E. 
    assert (L : length (c_blpts (to_c zt zf zd u)) = 30) by (unfold u; destruct e; reflexivity). rewrite L in Li.
    assert (N : forall m, m < 30 -> nth_error (c_blpts (to_c zt zf zd u)) m = match nth_error (u_blpair_array u) m, nth_error (u_time_1_array u) m, nth_error (u_time_2_array u) m with Some a, Some b, Some c => Some (a, zt b, zt c) | _, _, _ => None end).
    { intros m _. unfold to_c, blpt; cbn [c_blpts].
      assert (C : forall {A B} (l : list A) (r : list B) n, nth_error (combine l r) n = match nth_error l n, nth_error r n with Some a, Some b => Some (a, b) | _, _ => None end).
      { clear. intros A B. induction l as [|x l IH]; intros [|y r] [|n]; cbn; try reflexivity; [destruct (nth_error l n); reflexivity|apply IH]. }
      rewrite !C, !nth_error_map. destruct (nth_error (u_blpair_array u) m), (nth_error (u_time_1_array u) m), (nth_error (u_time_2_array u) m); reflexivity. }
    assert (W : forall m, m < 30 -> exists b k, In b v_blpairs /\ k < 10 /\ nth_error (u_blpair_array u) m = Some b /\ nth_error (u_time_1_array u) m = Some (v_time k)).
    { intros m Hm. destruct (nth_error (u_blpair_array u) m) as [b|] eqn:Eb; [|apply nth_error_None in Eb; change (length (u_blpair_array u)) with 30 in Eb; lia].
      assert (Ib : In b v_blpairs). { apply nth_error_In in Eb. change (u_blpair_array u) with (tile v_blpairs 10) in Eb. unfold tile in Eb. apply in_concat in Eb. destruct Eb as [l [Il Ib]]. apply repeat_spec in Il. subst. exact Ib. }
      destruct (nth_error (u_time_1_array u) m) as [t|] eqn:Et; [|exfalso; apply nth_error_None in Et; assert (length (u_time_1_array u) = 30) by reflexivity; lia].
      assert (It : In t v_times). { apply nth_error_In in Et. change (u_time_1_array u) with (tile v_times 3) in Et. unfold tile in Et. apply in_concat in Et. destruct Et as [l [Il It]]. apply repeat_spec in Il. subst. exact It. }
      unfold v_times in It. apply in_map_iff in It. destruct It as [k [<- Ik]]. apply in_seq in Ik. unfold v_Ntimes in Ik. exists b, k. split; [exact Ib|]. split; [lia|]. split; reflexivity. }
    assert (Li' : i' < 30). { rewrite <- L. apply nth_error_Some. rewrite <- E. apply nth_error_Some. lia. }
    rewrite !N in E by assumption. destruct (W i Li) as (b & k & Hb & Hk & B1 & T1). destruct (W i' Li') as (b' & k' & Hb' & Hk' & B2 & T2). rewrite B1, T1, B2, T2 in E.
    assert (E' : b = b' /\ zt (v_time k) = zt (v_time k')).
    { destruct (nth_error (u_time_2_array u) i) eqn:E3; [|apply nth_error_None in E3; assert (length (u_time_2_array u) = 30) by (unfold u; destruct e; reflexivity); lia].
      destruct (nth_error (u_time_2_array u) i'); [|discriminate]. injection E as -> -> _. auto. }
    destruct E' as [<- E']. apply Z in E'; [|assumption|assumption]. subst k'. destruct (R b k Hb Hk) as (i0 & _ & U0 & _). rewrite (U0 i B1 T1), (U0 i' B2 T2). reflexivity. }
  split.
  - apply vanilla_valid.
  - reflexivity.
  - repeat split; discriminate.
  - constructor; [intros []|constructor].
  - exact NB.
  - constructor; [intros []|constructor].
  - unfold windows_sorted. cbn. repeat constructor.
  - repeat (constructor; [cbn; intuition discriminate|]). constructor.
  - intros bl [<-|[<-|[<-|[]]]]; [exists 101102101102%Z|exists 102103102103%Z|exists 101103101103%Z]; (split; [cbn; tauto|left; reflexivity]).
Qed.
Print Assumptions vanilla_valid.
Print Assumptions vanilla_rows.
Print Assumptions vanilla_axes.
Print Assumptions vanilla_usual.
Example vanilla_times_case : forall i j, i < 10 -> j < 10 -> let zt := fun q => (Qfloor (q * 90))%Q in zt (v_time i) = zt (v_time j) -> i = j.
Proof.
  intros i j Hi Hj zt. assert (G : forall k, k < 10 -> zt (v_time k) = (221223789 + Z.of_nat k)%Z).
  { intros k Hk. do 10 (destruct k as [|k]; [vm_compute; reflexivity|]). lia. }
  rewrite !G by assumption. lia.
Qed.
Print Assumptions vanilla_units.
