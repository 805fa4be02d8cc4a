(** Slicing of UVPSpec objects: omit_flags, key forms, covariances and window functions. *)
From Coq Require Import String Reals Lra Sorted QArith.
From Verif Require Import PyDict.
From Verif Require Import Prelude ListLemmas UvpModel UvpSpec UvpProofs SelectProofs SelectMain KeyProofs BlCodecModel BlCodecProps PolPairModel PolPairProps AccessModel AvgProps.
Open Scope nat_scope.

(** every integration time is stored once per (row, polarization) *)
Definition ints_stored (u : uvp R) : Prop :=
  forall s a r c, dget Nat.eq_dec (u_integration u) s = Some a -> In r a -> In c r -> exists x, c = [x].
Definition known (u : uvp R) (s : nat) (b p : Z) : Prop :=
  In s (u_spw_freq_array u) /\ In s (u_spw_dly_array u) /\ In b (u_blpair_array u) /\ In p (u_polpair_array u).

Definition tf (a : arr R) (k i : nat) : option (list R) := match nth_error a i with Some r => nth_error r k | None => None end.
Lemma take_forall a rows k out : take_rows_pol a rows k = Ok out <-> Forall2 (fun i x => tf a k i = Some x) rows out.
Proof.
  unfold take_rows_pol. split.
  - intro H. apply bind_ok in H. destruct H as [rs [Hg H]]. apply gather_spec in Hg. apply map_res_spec in H.
    revert out H. induction Hg as [|i r idx rs Hi Hg IH]; intros out H; inversion H; subst; constructor.
    + unfold tf. rewrite Hi. destruct (nth_error r k); congruence.
    + apply IH. assumption.
  - intro H.
    assert (E : exists rs, gather a rows = Ok rs /\ map_res (fun r => match nth_error r k with Some x => Ok x | None => Err IndexError end) rs = Ok out).
    { induction H as [|i x rows out Hi H [rs [G M]]]; [exists []; split; reflexivity|].
      unfold tf in Hi. destruct (nth_error a i) as [r|] eqn:E; [|discriminate]. exists (r :: rs).
      split; [cbn; rewrite E, G; reflexivity|]. cbn. rewrite Hi. cbn. rewrite M. reflexivity. }
    destruct E as [rs [-> M]]. exact M.
Qed.

(** ** kept positions *)
Lemma mask_where {A} (keep : list bool) : forall (l : list A), List.length keep = List.length l -> picks (where_ keep) l (mask keep l).
Proof. intros l H. apply mask_picks. exact H. Qed.
Lemma picks_Forall2 {A B} (P : A -> B -> Prop) (l : list A) (r : list B) keep : Forall2 P l r -> Forall2 P (mask keep l) (mask keep r).
Proof.
  intro F. revert keep. induction F as [|x y l r H F IH]; intros [|b keep]; try constructor.
  cbn. destruct b; [constructor; [exact H | apply IH] | apply IH].
Qed.

Section Rows.
Variables (u : uvp R) (s : nat) (b p : Z).
Hypotheses (W : wf u) (N : NoDup (u_polpair_array u)) (I : ints_stored u) (K : known u s b p).

Lemma rows_of_key : exists k idx ia xs keep,
  nth_error (u_polpair_array u) k = Some p /\
  idx = where_ (or_maskZ (u_blpair_array u) [b]) /\
  dget Nat.eq_dec (u_integration u) s = Some ia /\
  Forall2 (fun i x => tf ia k i = Some [x]) idx xs /\ keep = map (fun x => negb (is_zero x)) xs /\
  key_rows u false s b p = Ok (s, idx, k) /\ key_rows u true s b p = Ok (s, mask keep idx, k).
Proof.
  destruct (In_nth_error _ _ (proj2 (proj2 (proj2 K)))) as [k Hk].
  pose proof (key_to_indices_ok u s b p k N K Hk) as E.
  destruct (wf_dicts u W (u_integration u)) with (s := s) as [ia [Ea [La Lr]]];
    [cbn; tauto | apply (wf_freq_in u W), K |].
  set (idx := where_ (or_maskZ (u_blpair_array u) [b])) in *.
  assert (T : exists xs, map_res (int_at ia k) idx = Ok xs /\ Forall2 (fun i x => tf ia k i = Some [x]) idx xs).
  { assert (Rg : Forall (fun i => i < List.length ia) idx).
    { eapply Forall_impl; [|apply where_range]. cbn. intros i. unfold or_maskZ. rewrite map_length, La. auto. }
    clearbody idx. clear E. induction Rg as [|i idx Hi Rg [xs [IH1 IH2]]]; [exists []; split; [reflexivity | constructor]|].
    destruct (nth_error ia i) as [r|] eqn:Er; [|apply nth_error_None in Er; lia].
    assert (Hr : In r ia) by (eapply nth_error_In; exact Er).
    assert (Hl : k < List.length r) by (rewrite (Lr r Hr); apply nth_error_Some; congruence).
    destruct (nth_error r k) as [c|] eqn:Ec; [|apply nth_error_None in Ec; lia].
    destruct (I s ia r c Ea Hr (nth_error_In _ _ Ec)) as [x ->].
    exists (x :: xs). split.
    - cbn. unfold int_at at 1. rewrite Er, Ec. cbn. rewrite IH1. reflexivity.
    - constructor; [|exact IH2]. unfold tf. rewrite Er. exact Ec. }
  destruct T as [xs [T1 T2]]. exists k, idx, ia, xs, (map (fun x => negb (is_zero x)) xs).
  split; [exact Hk|]. split; [reflexivity|]. split; [exact Ea|]. split; [exact T2|]. split; [reflexivity|].
  unfold key_rows. rewrite E. cbn [bind]. split; [reflexivity|].
  unfold lookup_arr, aget. rewrite Ea. cbn [bind]. rewrite T1. reflexivity.
Qed.
End Rows.

Lemma is_zero_false x : negb (is_zero x) = true <-> (/ 100000000 < Rabs x)%R.
Proof. unfold is_zero. destruct (Rle_dec _ _); cbn; split; intro H; try discriminate; try reflexivity; lra. Qed.

(** [h'] holds the entries [kept] of the first axis of [h] *)
Definition sub_rows (kept : list nat) (h h' : harr) : Prop :=
  h_shape h' = List.length kept :: tl (h_shape h) /\
  forall i ix, i < List.length kept -> h_at h' (i :: ix) = h_at h (nth i kept 0 :: ix).

(** there is one list of kept positions, those whose integration time is more than 1e-8 away from zero, such that every getter
    with omit_flags=True returns exactly those of the spectra it returns otherwise, in the same order *)
Theorem omit_flags_rows : forall u s b p, wf u -> NoDup (u_polpair_array u) -> ints_stored u -> known u s b p ->
  exists ints kept, get_field u_integration u false s b p = Ok ints /\
    StronglySorted lt kept /\
    (forall i, In i kept <-> exists x, nth_error ints i = Some [x] /\ (/ 100000000 < Rabs x)%R) /\
    (forall f rows, get_field f u false s b p = Ok rows ->
       exists rows', get_field f u true s b p = Ok rows' /\ Forall2 (fun i x => nth_error rows i = Some x) kept rows') /\
    (forall f rows, get_sliced f u false s b p = Ok rows ->
       exists rows', get_sliced f u true s b p = Ok rows' /\ Forall2 (fun i x => nth_error rows i = Some x) kept rows') /\
    (forall cr ci c h, get_cov u cr ci c false s b p = Ok h ->
       exists h', get_cov u cr ci c true s b p = Ok h' /\ sub_rows kept h h') /\
    (forall w h, get_window_function u w false s b p = Ok h ->
       exists h', get_window_function u w true s b p = Ok h' /\ sub_rows kept h h').
Proof.
  intros u s b p W N I K. destruct (rows_of_key u s b p W N I K) as [k [idx [ia [xs [keep [Hk [Ei [Ea [F [Ek [E0 E1]]]]]]]]]]].
  assert (Lk : List.length keep = List.length idx) by (rewrite Ek, map_length; symmetry; apply (Forall2_len _ _ _ F)).
  exists (map (fun x => [x]) xs), (where_ keep).
  assert (GF : forall f rows, get_field f u false s b p = Ok rows -> get_field f u true s b p = Ok (mask keep rows) /\ List.length rows = List.length keep).
  { intros f rows. unfold get_field. rewrite E0, E1. cbn [bind]. intro H. apply bind_ok in H. destruct H as [a [Ha H]]. rewrite Ha. cbn [bind].
    apply take_forall in H. split.
    - apply take_forall. apply picks_Forall2. exact H.
    - rewrite Lk. symmetry. apply (Forall2_len _ _ _ H). }
  assert (LM : List.length (mask keep idx) = List.length (where_ keep)) by (symmetry; apply (Forall2_len _ _ _ (mask_where keep idx Lk))).
  assert (PB : forall nr, forallb (fun i => i <? nr) idx = true -> forallb (fun i => i <? nr) (mask keep idx) = true).
  { intros nr Q1. apply forallb_forall. intros i Hi. rewrite forallb_forall in Q1. apply Q1.
    destruct (proj1 (picks_In _ _ _ i (mask_where keep idx Lk)) Hi) as [m [_ Hm]]. eapply nth_error_In; exact Hm. }
  assert (PK : forall i, i < List.length (where_ keep) -> nth i (mask keep idx) 0 = nth (nth i (where_ keep) 0) idx 0 /\ nth i (where_ keep) 0 < List.length idx).
    { intros i Hi. pose proof (mask_where keep idx Lk) as P. unfold picks in P.
      destruct (nth_error (where_ keep) i) as [j|] eqn:Ej; [|apply nth_error_None in Ej; lia].
      assert (Ev : exists v, nth_error (mask keep idx) i = Some v /\ nth_error idx j = Some v).
      { clear -P Ej. revert i Ej. induction P as [|a v l r H P IH]; intros [|i] Ej; try discriminate.
        - injection Ej as ->. exists v. split; [reflexivity | exact H].
        - apply IH. exact Ej. }
      destruct Ev as [v [V1 V2]]. rewrite (nth_error_nth _ _ 0 V1), (nth_error_nth _ _ 0 Ej), (nth_error_nth _ _ 0 V2). split; [reflexivity|].
      apply nth_error_Some. congruence. }
    assert (S4 : forall n a h, slice4 n a idx k = Ok h -> exists h', slice4 n a (mask keep idx) k = Ok h' /\ sub_rows (where_ keep) h h').
    { intros n a h0 H. unfold slice4 in *. destruct (h_shape a) as [|nr [|d1 [|d2 [|q [|? ?]]]]]; try discriminate.
      apply require_ok in H. destruct H as [Hq H]. injection H as <-. apply andb_prop in Hq. destruct Hq as [Q1 Q2].
      rewrite (PB _ Q1), Q2. cbn [andb require]. eexists. split; [reflexivity|]. unfold sub_rows. cbn [h_shape h_at tl]. rewrite LM. split; [reflexivity|].
      intros i ix Hi. rewrite (proj1 (PK i Hi)). destruct ix as [|? [|? [|? ?]]]; reflexivity. }

    assert (S5 : forall n a h, slice5 n a idx k = Ok h -> exists h', slice5 n a (mask keep idx) k = Ok h' /\ sub_rows (where_ keep) h h').
    { intros n a h0 H. unfold slice5 in *. destruct (h_shape a) as [|nr [|d1 [|d2 [|q [|q' [|? ?]]]]]]; try discriminate.
      apply require_ok in H. destruct H as [Hq H]. injection H as <-. apply andb_prop in Hq. destruct Hq as [Q1 Q2].
      rewrite (PB _ Q1), Q2. cbn [andb require]. eexists. split; [reflexivity|]. unfold sub_rows. cbn [h_shape h_at tl]. rewrite LM. split; [reflexivity|].
      intros i ix Hi. rewrite (proj1 (PK i Hi)). destruct ix as [|? [|? [|? [|? ?]]]]; reflexivity. }
    assert (SL : forall a h, slice_last a idx k = Ok h -> exists h', slice_last a (mask keep idx) k = Ok h' /\ sub_rows (where_ keep) h h').
    { intros a h0 H. unfold slice_last in *. destruct (h_shape a) as [|nr sh]; try discriminate.
      apply require_ok in H. destruct H as [Hq H]. injection H as <-. apply andb_prop in Hq. destruct Hq as [Hq Q3]. apply andb_prop in Hq. destruct Hq as [Q1 Q2].
      rewrite (PB _ Q1), Q2, Q3. cbn [andb require]. eexists. split; [reflexivity|]. unfold sub_rows. cbn [h_shape h_at tl]. rewrite LM. split; [reflexivity|].
      intros i ix Hi. rewrite (proj1 (PK i Hi)). reflexivity. }
  assert (GEN : (forall w h, get_window_function u w false s b p = Ok h ->
       exists h', get_window_function u w true s b p = Ok h' /\ sub_rows (where_ keep) h h') /\
     (forall cr ci c h, get_cov u cr ci c false s b p = Ok h -> exists h', get_cov u cr ci c true s b p = Ok h' /\ sub_rows (where_ keep) h h')).
  { split.
    - intros w h. unfold get_window_function. rewrite E0, E1. cbn [bind]. intro H. apply bind_ok in H. destruct H as [a [Ha H]]. rewrite Ha. cbn [bind].
      destruct (u_folded u); [|apply SL; exact H].
      destruct (List.length (h_shape a)) as [|[|[|[|[|[|?]]]]]]; try discriminate; [apply S4 | apply S5]; exact H.
    - intros cr ci c h. unfold get_cov. rewrite E0, E1. cbn [bind].
      destruct c; [destruct cr as [d|]|destruct ci as [d|]|]; try discriminate; intro H; apply bind_ok in H; destruct H as [a [Ha H]];
      rewrite Ha; cbn [bind]; apply S4; exact H.
  }
  split; [|split; [apply where_sorted|split; [|split; [|split; [|apply and_comm, GEN]]]]].
  - unfold get_field. rewrite E0. cbn [bind]. unfold lookup_arr, aget. rewrite Ea. cbn [bind]. apply take_forall.
    clear -F. induction F as [|i x idx xs H F IH]; constructor; [exact H | exact IH].
  - intro i. rewrite where_spec, Ek. split.
    + intro H. destruct (nth_error xs i) as [x|] eqn:Ex.
      * rewrite (map_nth_error _ _ _ Ex) in H. injection H as H. exists x. split; [exact (map_nth_error (fun x : R => [x]) i xs Ex) | apply is_zero_false; exact H].
      * exfalso. apply nth_error_None in Ex. assert (nth_error (map (fun x => negb (is_zero x)) xs) i = None) by (apply nth_error_None; rewrite map_length; exact Ex). congruence.
    + intros [x [H1 H2]]. destruct (nth_error xs i) as [y|] eqn:Ex.
      * rewrite (map_nth_error (fun x : R => [x]) i xs Ex) in H1. injection H1 as <-. rewrite (map_nth_error _ _ _ Ex). f_equal. apply is_zero_false. exact H2.
      * apply nth_error_None in Ex. assert (nth_error (map (fun x : R => [x]) xs) i = None) by (apply nth_error_None; rewrite map_length; exact Ex). congruence.
  - intros f rows H. destruct (GF f rows H) as [H1 H2]. eexists. split; [exact H1|]. apply mask_where. symmetry. exact H2.
  - intros f rows H. unfold get_sliced in *. apply bind_ok in H. destruct H as [rows0 [H0 H]]. destruct (GF f rows0 H0) as [H1 H2].
    rewrite H1. cbn [bind]. destruct (u_folded u); injection H as <-; eexists; (split; [reflexivity|]).
    + assert (P := mask_where keep rows0 (eq_sym H2)). clear -P. unfold picks in P. induction P as [|i x l r Hx P IH]; [constructor|].
      cbn [map]. constructor; [apply map_nth_error; exact Hx | exact IH].
    + apply mask_where. symmetry. exact H2.
Qed.
Print Assumptions omit_flags_rows.

(** an object with a fully flagged integration (row 2) *)
Definition flag_obj : uvp R :=
  mkuvp false 1 [0] [0; 0] [0; 0] [1; 2]%R [0; 1]%Q [[1]]%R
    [11; 22; 11; 22]%Z [0; 0; 1; 1]%Q [0; 0; 1; 1]%Q [0; 0; 1; 1]%Q [0; 0; 1; 1]%Q [0; 0; 1; 1]%Q [0; 0; 1; 1]%Q
    [1; 2]%Z [0; 0]%R [505]%Z
    [(0, [[[1; 10]]; [[2; 20]]; [[3; 30]]; [[4; 40]]]%R)]
    [(0, [[[1]]; [[1]]; [[1]]; [[1]]]%R)]
    [(0, [[[1]]; [[1]]; [[0]]; [[1]]]%R)]
    [(0, [[[1]]; [[3]]; [[1]]; [[1]]]%R)]
    None None None [] [] [].
Lemma flag_obj_ok : wf flag_obj /\ NoDup (u_polpair_array flag_obj) /\ ints_stored flag_obj /\ known flag_obj 0 11 505.
Proof.
  split; [|split; [|split]].
  - split; try reflexivity; try (cbn; tauto).
    + cbn. split; [reflexivity|]. intros r [<-|[]]; reflexivity.
    + intros d Hd. cbn in Hd. unfold shaped.
      destruct Hd as [<-|[<-|[<-|[<-|[]]]]]; intros s Hs; cbn in Hs; destruct Hs as [<-|[]];
      (eexists; split; [reflexivity|]; split; [reflexivity|]; cbn; intros r Hr; intuition (subst; reflexivity)).
  - repeat constructor. intros [].
  - intros s a r c Ha Hr Hc. cbn in Ha. apply dget_single in Ha. subst a.
    cbn in Hr. destruct Hr as [<-|[<-|[<-|[<-|[]]]]]; cbn in Hc; destruct Hc as [<-|[]]; eexists; reflexivity.
  - unfold known. cbn. tauto.
Qed.
Example omit_flags_case : get_data_o flag_obj false 0 11 505 = Ok [[1; 10]; [3; 30]]%R /\ get_data_o flag_obj true 0 11 505 = Ok [[1; 10]]%R.
Proof.
  split; [reflexivity|]. unfold get_data_o, get_sliced, get_field, key_rows. cbn.
  assert (E1 : is_zero 1 = false) by (unfold is_zero; destruct (Rle_dec _ _) as [H|]; [rewrite Rabs_R1 in H; lra | reflexivity]).
  assert (E0 : is_zero 0 = true) by (unfold is_zero; destruct (Rle_dec _ _) as [H|H]; [reflexivity | rewrite Rabs_R0 in H; lra]).
  rewrite E1, E0. reflexivity.
Qed.

(** ** key forms *)
(** the same spectra are addressed by a tuple or a dictionary, by the baseline-pair integer or its antenna numbers, by the
    polarization-pair integer, the numbers, the names or one name *)
Theorem key_forms : forall polnum s a1 a2 a3 a4 x y,
  (0 <= a1 < 900)%Z -> (0 <= a2 < 900)%Z -> (0 <= a3 < 900)%Z -> (0 <= a4 < 900)%Z ->
  let b := antnums_to_blpair ((a1, a2), (a3, a4)) in
  let p := ((20 + polnum x) * 100 + (20 + polnum y))%Z in
  let std := (s, b, p) in
  key_parts polnum (KTuple s (BInt b) (PInt p)) = std /\
  key_parts polnum (KTuple s (BAnts ((a1, a2), (a3, a4))) (PNums (polnum x, polnum y))) = std /\
  key_parts polnum (KTuple s (BAnts (blpair_to_antnums b)) (PStrs (x, y))) = std /\
  (x = y -> key_parts polnum (KTuple s (BInt b) (PStr x)) = std) /\
  forall bl pl, key_parts polnum (KDict s bl pl) = key_parts polnum (KTuple s bl pl).
Proof.
  intros polnum s a1 a2 a3 a4 x y H1 H2 H3 H4 b p std.
  destruct (C01_codec_round_trip a1 a2 a3 a4 H1 H2 H3 H4) as [RT _].
  unfold std, p, b. split; [reflexivity|]. split; [reflexivity|]. split; [|split; [|reflexivity]].
  - unfold key_parts, blp_int. rewrite RT. reflexivity.
  - intros ->. reflexivity.
Qed.
Print Assumptions key_forms.
(** different antennas or polarizations address different spectra *)
Theorem key_distinct : forall polnum s s' a1 a2 a3 a4 b1 b2 b3 b4 p1 p2 q1 q2,
  (forall x, In x [a1; a2; a3; a4; b1; b2; b3; b4] -> 0 <= x < 1000)%Z ->
  (forall x, In x [p1; p2; q1; q2] -> -8 <= x <= 4)%Z ->
  key_parts polnum (KTuple s (BAnts ((a1, a2), (a3, a4))) (PNums (p1, p2))) =
  key_parts polnum (KTuple s' (BAnts ((b1, b2), (b3, b4))) (PNums (q1, q2))) ->
  s = s' /\ (a1, a2, a3, a4) = (b1, b2, b3, b4) /\ (p1, p2) = (q1, q2).
Proof.
  intros polnum s s' a1 a2 a3 a4 b1 b2 b3 b4 p1 p2 q1 q2 H P E. unfold key_parts in E.
  apply pair_equal_spec in E. destruct E as [E Ep]. apply pair_equal_spec in E. destruct E as [Es Eb].
  split; [exact Es|]. split.
  - unfold blp_int in Eb. apply C01_blpair_injective in Eb; [congruence|]. cbn [fst snd]. exact H.
  - unfold pol_int in Ep. apply C03_polpair_injective in Ep; [exact Ep| | | |]; apply P; cbn; tauto.
Qed.
Print Assumptions key_distinct.
Example key_distinct_case : (forall x, In x [1; 2; 3; 4; 1; 2; 4; 3] -> 0 <= x < 1000)%Z /\ (forall x, In x [-5; -6; -6; -5] -> -8 <= x <= 4)%Z.
Proof. split; intros x H; cbn in H; lia. Qed.

(** ** covariances and window functions *)
(** the rows of a baseline-pair *)
Definition blp_rows (u : uvp R) (b : Z) : list nat := where_ (or_maskZ (u_blpair_array u) [b]).
Lemma blp_rows_spec u b : StronglySorted lt (blp_rows u b) /\ forall i, In i (blp_rows u b) <-> nth_error (u_blpair_array u) i = Some b.
Proof. split; [apply where_sorted|]. intro i. unfold blp_rows. rewrite where_spec. apply or_mask1. Qed.

Lemma key_rows_false u s b p k : NoDup (u_polpair_array u) -> known u s b p -> nth_error (u_polpair_array u) k = Some p ->
  key_rows u false s b p = Ok (s, blp_rows u b, k).
Proof. intros N K Hk. unfold key_rows. rewrite (key_to_indices_ok u s b p k N K Hk). reflexivity. Qed.

Lemma npos_spec nd : 3 <= nd -> npos nd <> 0 /\ npos nd <= nd /\ nd - npos nd = nd / 2 + 1.
Proof.
  intro H. unfold npos. pose proof (Nat.div_mod nd 2 ltac:(lia)) as D. pose proof (Nat.mod_upper_bound nd 2 ltac:(lia)).
  lia.
Qed.
Lemma neg_len_pos nd : 3 <= nd -> neg_len (npos nd) nd = npos nd /\ neg_from (npos nd) nd = nd / 2 + 1.
Proof.
  intro H. destruct (npos_spec nd H) as [H1 [H2 H3]]. unfold neg_len, neg_from. destruct (npos nd) eqn:E; [congruence|].
  split; [apply Nat.min_l; exact H2 |]. rewrite Nat.min_l by exact H2. lia.
Qed.
Lemma rows_inside u b : forallb (fun i => i <? List.length (u_blpair_array u)) (blp_rows u b) = true.
Proof.
  apply forallb_forall. intros i Hi. apply Nat.ltb_lt. apply blp_rows_spec in Hi. apply nth_error_Some. congruence.
Qed.

(** get_cov: the matrix of the row and polarization; the block of positive delays when the object is folded *)
Theorem get_cov_spec : forall u cr ci comp d a s b p k,
  NoDup (u_polpair_array u) -> known u s b p -> nth_error (u_polpair_array u) k = Some p ->
  (comp = CReal /\ cr = Some d \/ comp = CImag /\ ci = Some d) -> dget Nat.eq_dec d s = Some a ->
  h_shape a = [List.length (u_blpair_array u); ndlys u s; ndlys u s; List.length (u_polpair_array u)] ->
  exists h, get_cov u cr ci comp false s b p = Ok h /\
  let rows := blp_rows u b in
  if u_folded u then
    3 <= ndlys u s ->
    h_shape h = [List.length rows; npos (ndlys u s); npos (ndlys u s)] /\
    forall i x y, h_at h [i; x; y] = h_at a [nth i rows 0; ndlys u s / 2 + 1 + x; ndlys u s / 2 + 1 + y; k]
  else h_shape h = [List.length rows; ndlys u s; ndlys u s] /\
       forall i x y, h_at h [i; x; y] = h_at a [nth i rows 0; x; y; k].
Proof.
  intros u cr ci comp d a s b p k N K Hk Hc Ha Hs.
  assert (Lk : k <? List.length (u_polpair_array u) = true) by (apply Nat.ltb_lt, nth_error_Some; congruence).
  assert (E : get_cov u cr ci comp false s b p = slice4 (if u_folded u then npos (ndlys u s) else 0) a (blp_rows u b) k).
  { unfold get_cov. rewrite (key_rows_false u s b p k N K Hk). cbn [bind].
    destruct Hc as [[-> ->]|[-> ->]]; unfold hget; rewrite Ha; reflexivity. }
  rewrite E. unfold slice4. rewrite Hs, rows_inside, Lk. cbn [andb require]. eexists. split; [reflexivity|]. cbv zeta.
  destruct (u_folded u).
  - intro H3. cbn [h_shape h_at]. destruct (neg_len_pos _ H3) as [-> ->]. split; [reflexivity|]. intros. reflexivity.
  - cbn [h_shape h_at neg_len neg_from]. split; [reflexivity|]. reflexivity.
Qed.
Print Assumptions get_cov_spec.

(** without the array, or for another component, an error; an unknown key is found first *)
Theorem get_cov_errors : forall u cr ci s b p omit,
  (forall comp, ~ known u s b p -> get_cov u cr ci comp omit s b p = Err AssertionError) /\
  (omit = false -> NoDup (u_polpair_array u) -> known u s b p ->
   get_cov u None ci CReal omit s b p = Err AttributeError /\ get_cov u cr None CImag omit s b p = Err AttributeError /\
   get_cov u cr ci COther omit s b p = Err ValueError).
Proof.
  intros u cr ci s b p omit. split.
  - intros comp K. unfold get_cov, key_rows.
    assert (E : key_to_indices u s b p = Err AssertionError).
    { unfold key_to_indices.
      destruct (memN s (u_spw_freq_array u)) eqn:E1; [|reflexivity].
      destruct (memN s (u_spw_dly_array u)) eqn:E2; [|reflexivity].
      destruct (memZ b (u_blpair_array u)) eqn:E3; [|reflexivity].
      destruct (memZ p (u_polpair_array u)) eqn:E4; [|reflexivity].
      exfalso. apply K. split; [apply memN_In; exact E1|]. split; [apply memN_In; exact E2|].
      split; apply memZ_In; assumption. }
    rewrite E. reflexivity.
  - intros -> N K. destruct (In_nth_error _ _ (proj2 (proj2 (proj2 K)))) as [k Hk].
    unfold get_cov. rewrite (key_rows_false u s b p k N K Hk). repeat split; reflexivity.
Qed.
Print Assumptions get_cov_errors.

(** estimated window functions: (row, delay, k_par, pol) *)
Theorem window_function_spec : forall u w a s b p k,
  NoDup (u_polpair_array u) -> known u s b p -> nth_error (u_polpair_array u) k = Some p -> dget Nat.eq_dec w s = Some a ->
  h_shape a = [List.length (u_blpair_array u); ndlys u s; ndlys u s; List.length (u_polpair_array u)] ->
  exists h, get_window_function u w false s b p = Ok h /\
  let rows := blp_rows u b in
  if u_folded u then
    3 <= ndlys u s ->
    h_shape h = [List.length rows; npos (ndlys u s); npos (ndlys u s)] /\
    forall i x y, h_at h [i; x; y] = h_at a [nth i rows 0; ndlys u s / 2 + 1 + x; ndlys u s / 2 + 1 + y; k]
  else h_shape h = [List.length rows; ndlys u s; ndlys u s] /\
       forall i x y, h_at h [i; x; y] = h_at a [nth i rows 0; x; y; k].
Proof.
  intros u w a s b p k N K Hk Ha Hs.
  assert (Lk : k <? List.length (u_polpair_array u) = true) by (apply Nat.ltb_lt, nth_error_Some; congruence).
  unfold get_window_function. rewrite (key_rows_false u s b p k N K Hk). cbn [bind]. unfold hget. rewrite Ha. cbn [bind].
  unfold slice4, slice_last. rewrite Hs. cbn [List.length Nat.eqb negb last]. rewrite rows_inside, Lk. cbn [andb require].
  destruct (u_folded u); eexists; (split; [reflexivity|]); cbv zeta.
  - intro H3. cbn [h_shape h_at]. destruct (neg_len_pos _ H3) as [-> ->]. split; reflexivity.
  - split; reflexivity.
Qed.
Print Assumptions window_function_spec.

(** exact window functions (row, delay, k_perp, k_par, pol) of an object that is not folded *)
Theorem exact_window_function_spec : forall u w a s b p k nkp nkl,
  NoDup (u_polpair_array u) -> known u s b p -> nth_error (u_polpair_array u) k = Some p -> dget Nat.eq_dec w s = Some a ->
  u_folded u = false ->
  h_shape a = [List.length (u_blpair_array u); ndlys u s; nkp; nkl; List.length (u_polpair_array u)] ->
  exists h, get_window_function u w false s b p = Ok h /\ h_shape h = [List.length (blp_rows u b); ndlys u s; nkp; nkl] /\
    forall i x y z, h_at h [i; x; y; z] = h_at a [nth i (blp_rows u b) 0; x; y; z; k].
Proof.
  intros u w a s b p k nkp nkl N K Hk Ha Hf Hs.
  assert (Lk : k <? List.length (u_polpair_array u) = true) by (apply Nat.ltb_lt, nth_error_Some; congruence).
  unfold get_window_function. rewrite (key_rows_false u s b p k N K Hk). cbn [bind]. unfold hget. rewrite Ha. cbn [bind]. rewrite Hf.
  unfold slice_last. rewrite Hs. cbn [List.length Nat.eqb negb last]. rewrite rows_inside, Lk. cbn [andb require].
  eexists. split; [reflexivity|]. split; reflexivity.
Qed.
Print Assumptions exact_window_function_spec.

(** ... of a folded object: the polarization number selects a k_par bin, all polarizations are returned and only part of k_perp *)
Theorem exact_window_folded : forall u w a s b p k nkp nkl,
  NoDup (u_polpair_array u) -> known u s b p -> nth_error (u_polpair_array u) k = Some p -> dget Nat.eq_dec w s = Some a ->
  u_folded u = true -> 3 <= ndlys u s -> k < nkl ->
  h_shape a = [List.length (u_blpair_array u); ndlys u s; nkp; nkl; List.length (u_polpair_array u)] ->
  exists h, get_window_function u w false s b p = Ok h /\
    h_shape h = [List.length (blp_rows u b); npos (ndlys u s); Nat.min (npos (ndlys u s)) nkp; List.length (u_polpair_array u)] /\
    forall i x y q, h_at h [i; x; y; q] =
      h_at a [nth i (blp_rows u b) 0; ndlys u s / 2 + 1 + x; nkp - Nat.min (npos (ndlys u s)) nkp + y; k; q].
Proof.
  intros u w a s b p k nkp nkl N K Hk Ha Hf H3 Lk Hs. apply Nat.ltb_lt in Lk.
  unfold get_window_function. rewrite (key_rows_false u s b p k N K Hk). cbn [bind]. unfold hget. rewrite Ha. cbn [bind]. rewrite Hf.
  unfold slice5. rewrite Hs. cbn [List.length]. rewrite rows_inside, Lk. cbn [andb require].
  eexists. split; [reflexivity|]. cbn [h_shape h_at]. destruct (neg_len_pos _ H3) as [-> ->].
  destruct (npos_spec _ H3) as [Hn _].
  assert (E : neg_len (npos (ndlys u s)) nkp = Nat.min (npos (ndlys u s)) nkp /\ neg_from (npos (ndlys u s)) nkp = nkp - Nat.min (npos (ndlys u s)) nkp)
    by (unfold neg_len, neg_from; destruct (npos (ndlys u s)); [congruence | split; reflexivity]).
  destruct E as [-> ->]. split; reflexivity.
Qed.
Print Assumptions exact_window_folded.

Definition fold_obj : uvp R :=
  mkuvp true 1 [0] [0; 0; 0; 0] [0; 0; 0; 0] [1; 2; 3; 4]%R [-2; -1; 0; 1]%Q [[1]]%R
    [11; 22; 11; 22]%Z [0; 0; 1; 1]%Q [0; 0; 1; 1]%Q [0; 0; 1; 1]%Q [0; 0; 1; 1]%Q [0; 0; 1; 1]%Q [0; 0; 1; 1]%Q
    [1; 2]%Z [0; 0]%R [505]%Z [] [] [] [] None None None [] [] [].
Theorem exact_window_folded_refuted :
  ~ (forall u w a s b p k nkp nkl,
     NoDup (u_polpair_array u) -> known u s b p -> nth_error (u_polpair_array u) k = Some p -> dget Nat.eq_dec w s = Some a ->
     u_folded u = true -> 3 <= ndlys u s ->
     h_shape a = [List.length (u_blpair_array u); ndlys u s; nkp; nkl; List.length (u_polpair_array u)] ->
     exists h, get_window_function u w false s b p = Ok h /\
       h_shape h = [List.length (blp_rows u b); npos (ndlys u s); nkp; nkl] /\
       forall i x y z, h_at h [i; x; y; z] = h_at a [nth i (blp_rows u b) 0; ndlys u s / 2 + 1 + x; y; z; k]).
Proof.
  intro H.
  destruct (H fold_obj [(0, mkharr [4; 4; 5; 6; 1] (fun _ => 0%R))] (mkharr [4; 4; 5; 6; 1] (fun _ => 0%R)) 0 11%Z 505%Z 0 5 6) as [h [E [S _]]];
    try reflexivity.
  - repeat constructor. intros [].
  - unfold known. cbn. tauto.
  - cbn. lia.
  - vm_compute in E. injection E as <-. discriminate S.
Qed.
Print Assumptions exact_window_folded_refuted.
Example window_cases : NoDup (u_polpair_array fold_obj) /\ known fold_obj 0 11 505 /\ 3 <= ndlys fold_obj 0 /\ npos (ndlys fold_obj 0) = 1 /\ blp_rows fold_obj 11 = [0; 2].
Proof. split; [repeat constructor; intros []|]. split; [unfold known; cbn; tauto|]. split; [cbn; lia|]. split; reflexivity. Qed.

(** ** statistics of folded objects *)
From Verif Require StatModel.
(** set_stats accepts an array of the shape of get_data, unless the object is folded: then it wants all delays *)
Theorem set_stats_shape : forall (nd : nat -> nat) S name spw rows pol cplx v,
  (exists S', StatModel.set_stats nd S name spw rows pol (List.length rows, nd spw) cplx v = Ok S') /\
  (3 <= nd spw -> StatModel.set_stats nd S name spw rows pol (List.length rows, npos (nd spw)) cplx v = Err ValueError).
Proof.
  intros nd S name spw rows pol cplx v. unfold StatModel.set_stats. cbn [fst snd]. split.
  - rewrite !Nat.eqb_refl. cbn [andb require]. eexists. reflexivity.
  - intro H. destruct (npos_spec _ H) as [_ [H2 H3]]. assert (E : Nat.eqb (npos (nd spw)) (nd spw) = false) by (apply Nat.eqb_neq; lia).
    rewrite E, andb_false_r. reflexivity.
Qed.
Print Assumptions set_stats_shape.
Theorem set_stats_folded_refuted :
  ~ (forall (nd : nat -> nat) S name spw rows pol cplx v, 3 <= nd spw ->
     exists S', StatModel.set_stats nd S name spw rows pol (List.length rows, npos (nd spw)) cplx v = Ok S').
Proof.
  intro H. destruct (H (fun _ => 4) [] "x"%string 0 [0; 1] 0 false (fun _ _ => CNum.RtoC 0) ltac:(cbn; lia)) as [S' E].
  vm_compute in E. discriminate E.
Qed.
Print Assumptions set_stats_folded_refuted.
(** get_data of a folded object has that many delays (when the window has three or more) *)
Theorem folded_width : forall (u : uvp R) (f : uvp R -> list (nat * arr R)) omit s b p rows, u_folded u = true -> 3 <= ndlys u s ->
  (forall a r c, dget Nat.eq_dec (f u) s = Some a -> In r a -> In c r -> List.length c = ndlys u s) ->
  get_sliced f u omit s b p = Ok rows -> Forall (fun x => List.length x = npos (ndlys u s)) rows.
Proof.
  intros u f omit s b p rows Hf H3 Hw H. unfold get_sliced in H. apply bind_ok in H. destruct H as [r0 [H0 H]]. rewrite Hf in H.
  injection H as <-. fold (ndlys u s). fold (npos (ndlys u s)). apply Forall_forall. intros x Hx. apply in_map_iff in Hx. destruct Hx as [c [<- Hc]].
  unfold get_field in H0. apply bind_ok in H0. destruct H0 as [[[s' rows'] k] [K0 H0]]. apply bind_ok in H0. destruct H0 as [a [Ha H0]].
  assert (s' = s).
  { unfold key_rows in K0. apply bind_ok in K0. destruct K0 as [[[s1 r1] k1] [K1 K0]].
    assert (s1 = s).
    { unfold key_to_indices in K1. apply require_ok in K1. destruct K1 as [_ K1]. apply require_ok in K1. destruct K1 as [_ K1].
      apply require_ok in K1. destruct K1 as [_ K1]. apply bind_ok in K1. destruct K1 as [pi [_ K1]]. destruct pi as [|q [|? ?]]; try discriminate K1.
      apply bind_ok in K1. destruct K1 as [rr [_ K1]]. congruence. }
    destruct omit; [|congruence]. apply bind_ok in K0. destruct K0 as [ai [_ K0]]. apply bind_ok in K0. destruct K0 as [xs [_ K0]]. congruence. }
  subst s'. apply take_forall in H0. unfold lookup_arr, aget in Ha.
  assert (Ea : dget Nat.eq_dec (f u) s = Some a) by (destruct (dget Nat.eq_dec (f u) s); congruence). clear Ha.
  assert (Lc : List.length c = ndlys u s).
  { clear -H0 Hc Hw Ea. induction H0 as [|i x idx out Hi H0 IH]; [destruct Hc|]. destruct Hc as [->|Hc]; [|apply IH; exact Hc].
    unfold tf in Hi. destruct (nth_error a i) as [r|] eqn:Er; [|discriminate].
    eapply Hw; [exact Ea | eapply nth_error_In; exact Er | eapply nth_error_In; exact Hi]. }
  change (List.length (from_neg (npos (ndlys u s)) c) = npos (ndlys u s)).
  destruct (npos_spec _ H3) as [P1 [P2 _]]. unfold from_neg. destruct (npos (ndlys u s)) as [|n] eqn:E; [congruence|].
  rewrite skipn_length, Lc. lia.
Qed.
Print Assumptions folded_width.
