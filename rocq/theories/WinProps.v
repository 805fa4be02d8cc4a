(** Exact window functions: statements and proofs. *)
From Coq Require Import String.
From Coq Require Import Reals Lra Permutation.
From Verif Require Import Prelude ListLemmas CNum WinModel.
Open Scope R_scope.

(** ** Spectral ranges *)
Theorem spw_range_accepts :
  forall r n, check_spw_range r n = true <-> exists a b, r = [a; b] /\ (0 <= a < b)%Z /\ (forall m, n = Some m -> (b <= Z.of_nat m)%Z).
Proof.
  intros r n. destruct r as [| a [| b [| c r]]]; cbn [check_spw_range]; try (split; [discriminate | intros (? & ? & E & _); discriminate]). split.
  - destruct (Z.leb_spec (b - a) 0); [discriminate |]. destruct (Z.ltb_spec (Z.min a b) 0); [discriminate |]. intros H1. exists a, b. split; [reflexivity |]. split; [lia |].
    intros m ->. destruct (Z.ltb_spec (Z.of_nat m) (Z.max a b)); [discriminate | lia].
  - intros (a' & b' & E & L & M). injection E as <- <-. destruct (Z.leb_spec (b - a) 0); [lia |]. destruct (Z.ltb_spec (Z.min a b) 0); [lia |].
    destruct n as [m |]; [| reflexivity]. specialize (M m eq_refl). destruct (Z.ltb_spec (Z.of_nat m) (Z.max a b)); [lia | reflexivity].
Qed.
Lemma slice_nth {A} a b (l : list A) i : (i < b - a)%nat -> nth_error (slice a b l) i = nth_error l (a + i).
Proof.
  intros H. unfold slice. assert (S : forall k (q : list A) j, nth_error (skipn k q) j = nth_error q (k + j)).
  { induction k as [| k IH]; intros q j; [reflexivity |]. destruct q as [| x q]; [destruct j; reflexivity | apply IH]. }
  rewrite S. assert (F : forall k (q : list A) j, (j < k)%nat -> nth_error (firstn k q) j = nth_error q j).
  { induction k as [| k IH]; intros q j Hj; [lia |]. destruct q as [| x q]; [reflexivity |]. destruct j as [| j]; [reflexivity |]. cbn. apply IH. lia. }
  apply F. lia.
Qed.
Lemma slice_length {A} a b (l : list A) : (b <= length l)%nat -> length (slice a b l) = (b - a)%nat.
Proof. intros H. unfold slice. rewrite skipn_length, firstn_length. lia. Qed.
(** update_spw keeps exactly the channels start, ..., stop - 1 of frequencies and maps, and nothing else changes. *)
Theorem update_spw_channels :
  forall A (f : ftbeam A) r, length (ft_data f) = length (ft_freq f) ->
    ((exists g, update_spw r f = Ok g) <-> exists a b, r = [Z.of_nat a; Z.of_nat b] /\ (a < b <= length (ft_freq f))%nat) /\
    forall a b g, update_spw [Z.of_nat a; Z.of_nat b] f = Ok g ->
      length (ft_freq g) = (b - a)%nat /\ length (ft_data g) = (b - a)%nat /\ ft_pol g = ft_pol f /\ ft_map g = ft_map f /\
      forall i, (i < b - a)%nat -> nth_error (ft_freq g) i = nth_error (ft_freq f) (a + i) /\ nth_error (ft_data g) i = nth_error (ft_data f) (a + i).
Proof.
  intros A f r L. split.
  - unfold update_spw. split.
    + intros (g & H). apply require_ok in H. destruct H as [H _]. apply spw_range_accepts in H. destruct H as (a & b & -> & R0 & M). specialize (M _ eq_refl).
      exists (Z.to_nat a), (Z.to_nat b). rewrite ! Z2Nat.id by lia. split; [reflexivity | lia].
    + intros (a & b & -> & H). replace (check_spw_range _ _) with true. { cbn. eexists. reflexivity. }
      symmetry. apply spw_range_accepts. exists (Z.of_nat a), (Z.of_nat b). split; [reflexivity |]. split; [lia |]. intros m E. injection E as <-. lia.
  - intros a b g H. unfold update_spw in H. apply require_ok in H. destruct H as [H E]. apply spw_range_accepts in H. destruct H as (a' & b' & E' & R0 & M). injection E' as <- <-. specialize (M _ eq_refl).
    injection E as <-. cbn. rewrite ! Nat2Z.id, ! slice_length by lia. repeat split; try lia; apply slice_nth; assumption.
Qed.
Theorem ftbeam_accepts :
  forall A num2str nd s1 s2 (data : list A) pol freqs ms,
    (exists f, new_ftbeam num2str nd s1 s2 data pol freqs ms = Ok f) <->
    nd = 3%nat /\ s1 = s2 /\ length freqs = length data /\
    ((exists s, pol = PolStr s /\ In s ["pI"; "pQ"; "pU"; "pV"; "xx"; "yy"; "xy"; "yx"]%string) \/ (exists z, pol = PolNum z /\ (1 <= z <= 4 \/ -8 <= z <= -5)%Z)).
Proof.
  intros. unfold new_ftbeam, require. destruct (Nat.eqb_spec nd 3); [| split; [intros (f & H); discriminate | tauto]]. destruct (Nat.eqb_spec s1 s2); [| split; [intros (f & H); discriminate | tauto]].
  destruct pol as [s | z |]; cbn [bind].
  - assert (PS : polstr_ok s = true <-> In s ["pI"; "pQ"; "pU"; "pV"; "xx"; "yy"; "xy"; "yx"]%string).
    { unfold polstr_ok, str_in. rewrite existsb_exists. split; [intros (y & Hy & E); apply String.eqb_eq in E; subst y; cbn in *; tauto | intros H; exists s; split; [cbn in *; tauto | apply String.eqb_refl]]. }
    destruct (polstr_ok s) eqn:PE; cbn [bind].
    + destruct (Nat.eqb_spec (length freqs) (length data)); split; try (intros (f & H); discriminate); try tauto; [| eauto].
      intros _. split; [assumption |]. split; [assumption |]. split; [assumption |]. left. exists s. split; [reflexivity | apply PS; reflexivity].
    + split; [intros (f & H); discriminate |]. intros (_ & _ & _ & [(s' & E & H) | (z & E & _)]); [| discriminate]. injection E as <-. apply PS in H. discriminate.
  - assert (PS : polnum_ok z = true <-> (1 <= z <= 4 \/ -8 <= z <= -5)%Z).
    { unfold polnum_ok. rewrite existsb_exists. split; [intros (y & Hy & E); apply Z.eqb_eq in E; subst y; cbn in Hy; lia |].
      intros H. exists z. split; [cbn; lia | apply Z.eqb_refl]. }
    destruct (polnum_ok z) eqn:PE; cbn [bind].
    + destruct (Nat.eqb_spec (length freqs) (length data)); split; try (intros (f & H); discriminate); try tauto; [| eauto].
      intros _. split; [assumption |]. split; [assumption |]. split; [assumption |]. right. exists z. split; [reflexivity | apply PS; reflexivity].
    + split; [intros (f & H); discriminate |]. intros (_ & _ & _ & [(s' & E & _) | (z' & E & H)]); [discriminate |]. injection E as <-. apply PS in H. discriminate.
  - split; [intros (f & H); discriminate |]. intros (_ & _ & _ & [(s' & E & _) | (z' & E & H)]); discriminate.
Qed.

(** ** The beams of a pair of polarizations *)
(** what the caller wants: each polarization's own beam, limited to the frequencies of the window *)
Definition limited {A} (f : ftbeam A) (s len : nat) : ftbeam A := mkft (slice s (s + len) (ft_freq f)) (slice s (s + len) (ft_data f)) (ft_pol f) (ft_map f).
Lemma update_limited {A} (f g : ftbeam A) s len : update_spw [Z.of_nat s; Z.of_nat (s + len)] f = Ok g -> g = limited f s len.
Proof. unfold update_spw. intros H. apply require_ok in H. destruct H as [_ H]. rewrite ! Nat2Z.id in H. injection H as <-. reflexivity. Qed.
Lemma same_chars_spec pol b : same_chars pol = Ok b -> (b = true <-> String.get 0 pol = String.get 1 pol).
Proof.
  unfold same_chars, char_at. destruct (String.get 1 pol) as [x |]; cbn [bind]; [| discriminate]. destruct (String.get 0 pol) as [y |]; cbn [bind]; [| discriminate].
  intros E. injection E as <-. destruct (Ascii.ascii_dec x y) as [-> | N]; split; intros H; try reflexivity; try discriminate. injection H as ->. congruence.
Qed.
Theorem window_beams_own :
  forall A load pols freqs (g0 g1 : ftbeam A), window_beams load pols freqs = Ok (g0, g1) ->
    fst pols = snd pols \/ String.get 0 (snd pols) <> String.get 1 (snd pols) ->
    exists f0 f1 s, load (fst pols) = Ok f0 /\ load (snd pols) = Ok f1 /\ g0 = limited f0 s (length freqs) /\ g1 = limited f1 s (length freqs).
Proof.
  intros A load pols freqs g0 g1 H Own. unfold window_beams in H. apply bind_ok in H. destruct H as (f0 & L0 & H). apply bind_ok in H. destruct H as (sh & SC & H).
  apply bind_ok in H. destruct H as (f1 & L1 & H). destruct freqs as [| x freqs]; [discriminate |]. destruct (first_ge _ _) as [s |]; [| discriminate].
  apply bind_ok in H. destruct H as (g0' & U0 & H). apply update_limited in U0. destruct sh.
  - injection H as <- <-. injection L1 as <-. apply same_chars_spec in SC. destruct Own as [E | N]; [| exfalso; apply N, SC; reflexivity].
    exists f0, f0, s. rewrite <- E. repeat split; assumption.
  - apply bind_ok in H. destruct H as (g1' & U1 & H). injection H as <- <-. apply update_limited in U1. exists f0, f1, s. repeat split; assumption.
Qed.
(** For ('xx', 'yy') both polarizations get the beam of the first. *)
Theorem window_beams_refuted :
  exists (load : string -> result (ftbeam nat)) freqs f, load "xx"%string = Ok (mkft [1; 2; 3] [1; 1; 1]%nat "xx" 1) /\ load "yy"%string = Ok (mkft [1; 2; 3] [2; 2; 2]%nat "yy" 1) /\
    window_beams load ("xx", "yy")%string freqs = Ok (f, f) /\ ft_pol f = "xx"%string /\ uvwindow_pols (f, f) = Ok ("xx", "xx")%string.
Proof.
  exists (fun p => if string_dec p "xx" then Ok (mkft [1; 2; 3] [1; 1; 1]%nat "xx"%string 1) else Ok (mkft [1; 2; 3] [2; 2; 2]%nat "yy"%string 1)), [1; 2].
  exists (mkft [1; 2] [1; 1]%nat "xx"%string 1). split; [reflexivity |]. split; [reflexivity |]. split; [| split; [reflexivity |]].
  - unfold window_beams. cbn [fst snd]. destruct (string_dec "xx" "xx") as [_ | C]; [| congruence]. cbn [bind same_chars char_at String.get]. destruct (Ascii.ascii_dec _ _) as [_ | C]; [| congruence].
    cbn [bind ft_freq first_ge]. destruct (Rle_dec _ 1) as [_ | C]; [reflexivity |]. exfalso. apply C. assert (0 < / 10 ^ 9) by (apply Rinv_0_lt_compat, pow_lt; lra). lra.
  - unfold uvwindow_pols, req_list. cbn [fst snd ft_freq ft_map ft_pol length Nat.eqb require]. destruct (list_eq_dec _ _ _); [| congruence]. cbn [require]. destruct (Req_EM_T 1 1); [reflexivity | congruence].
Qed.
(** The window is the block of channels of the beam that holds the object's frequencies. *)
Theorem window_frequencies :
  forall A load pols x freqs (g0 g1 f0 : ftbeam A) pre post, window_beams load pols (x :: freqs) = Ok (g0, g1) -> load (fst pols) = Ok f0 ->
    ft_freq f0 = pre ++ (x :: freqs) ++ post -> (forall y, In y pre -> y < x - / 10 ^ 9) ->
    ft_freq g0 = x :: freqs /\ ft_data g0 = slice (length pre) (length pre + S (length freqs)) (ft_data f0).
Proof.
  intros A load pols x freqs g0 g1 f0 pre post H L0 E Lt. unfold window_beams in H. rewrite L0 in H. cbn [bind] in H. apply bind_ok in H. destruct H as (sh & SC & H). apply bind_ok in H. destruct H as (f1 & L1 & H).
  assert (FG : first_ge (x - / 10 ^ 9) (ft_freq f0) = Some (length pre)).
  { rewrite E. clear - Lt. induction pre as [| y pre IH]; cbn [app first_ge length].
    - destruct (Rle_dec (x - / 10 ^ 9) x) as [_ | C]; [reflexivity |]. exfalso. apply C. assert (0 < / 10 ^ 9) by (apply Rinv_0_lt_compat, pow_lt; lra). lra.
    - destruct (Rle_dec (x - / 10 ^ 9) y) as [C | _]; [pose proof (Lt y (or_introl eq_refl)); lra |]. assert (IH' := IH (fun y0 Hy => Lt y0 (or_intror Hy))). cbn [app] in IH'. rewrite IH'. reflexivity. }
  rewrite FG in H. apply bind_ok in H. destruct H as (g & U & H). apply update_limited in U.
  assert (G : g = g0) by (destruct sh; [injection H as <- <-; reflexivity | apply bind_ok in H; destruct H as (g' & _ & H); injection H as <- <-; reflexivity]). rewrite <- G, U. cbn [limited ft_freq ft_data]. split; [| reflexivity].
  rewrite E. unfold slice. cbn [length]. rewrite firstn_app, skipn_app. rewrite firstn_all2 by lia. replace (length pre + S (length freqs) - length pre)%nat with (length (x :: freqs)) by (cbn; lia).
  rewrite skipn_all2, Nat.sub_diag by lia. rewrite skipn_O. change (x :: freqs ++ post) with ((x :: freqs) ++ post). rewrite firstn_app, Nat.sub_diag, firstn_all, firstn_O, app_nil_r. reflexivity.
Qed.
Example window_frequencies_example :
  exists g, window_beams (fun p => Ok (mkft [1; 2; 3; 4] [1; 2; 3; 4]%nat p 1)) ("pI", "pI")%string [2; 3] = Ok (g, g) /\ ft_data g = [2; 3]%nat.
Proof.
  exists (mkft [2; 3] [2; 3]%nat "pI"%string 1). split; [| reflexivity]. unfold window_beams. cbn [fst snd bind same_chars char_at String.get]. destruct (Ascii.ascii_dec _ _) as [C | _]; [discriminate |].
  cbn [bind ft_freq first_ge]. assert (0 < / 10 ^ 9 < 1 / 2). { split; [apply Rinv_0_lt_compat, pow_lt; lra |]. apply (Rmult_lt_reg_r (10 ^ 9)); [apply pow_lt; lra |]. rewrite Rinv_l by (apply pow_nonzero; lra). lra. }
  destruct (Rle_dec _ 1) as [C | _]; [lra |]. destruct (Rle_dec _ 2) as [_ | C]; [reflexivity | lra].
Qed.
(** ** The pair of polarizations of a UVWindow
    Two beams make one UVWindow exactly when they were computed at the same frequencies and with the same map size, and the window
    then carries their two polarizations, in this order; otherwise the constructor raises ValueError. *)
Theorem uvwindow_pols_spec :
  forall A (f g : ftbeam A),
    (forall p, uvwindow_pols (f, g) = Ok p <-> ft_freq f = ft_freq g /\ ft_map f = ft_map g /\ p = (ft_pol f, ft_pol g)) /\
    (~ (ft_freq f = ft_freq g /\ ft_map f = ft_map g) -> uvwindow_pols (f, g) = Err ValueError).
Proof.
  intros A f g. unfold uvwindow_pols, req_list. cbn [fst snd].
  assert (C : (ft_freq f = ft_freq g /\ ft_map f = ft_map g /\ uvwindow_pols (f, g) = Ok (ft_pol f, ft_pol g)) \/
              (~ (ft_freq f = ft_freq g /\ ft_map f = ft_map g) /\ uvwindow_pols (f, g) = Err ValueError)).
  { unfold uvwindow_pols, req_list. cbn [fst snd]. destruct (Nat.eqb_spec (length (ft_freq f)) (length (ft_freq g))) as [L | L]; cbn [require].
    - destruct (list_eq_dec Req_EM_T (ft_freq f) (ft_freq g)) as [E | N]; cbn [require]; [| right; tauto].
      destruct (Req_EM_T (ft_map f) (ft_map g)) as [E2 | N]; cbn [require]; [left | right]; tauto.
    - right. split; [| reflexivity]. intros [E _]. apply L. rewrite E. reflexivity. }
  unfold uvwindow_pols, req_list in C. cbn [fst snd] in C. destruct C as [(E1 & E2 & ->) | (N & ->)].
  - split; [| tauto]. intros p. split; [intros H; injection H as <-; repeat split; assumption | intros (_ & _ & ->); reflexivity].
  - split; [| reflexivity]. intros p. split; [discriminate | tauto].
Qed.
