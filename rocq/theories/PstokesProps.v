(** C37, C71: pseudo-Stokes visibilities. *)
From Coq Require Import Reals Lra.
From Verif Require Import Prelude ListLemmas CNum PstokesModel.
Open Scope Z_scope.

Lemma map2_nth {A B D} (f : A -> B -> D) l l' i a b : nth_error l i = Some a -> nth_error l' i = Some b ->
  nth_error (map2 f l l') i = Some (f a b).
Proof.
  unfold map2. rewrite nth_error_map. revert l' i. induction l as [| x l IH]; intros [| y l'] [| i]; cbn; try discriminate.
  - intros [= ->] [= ->]. reflexivity.
  - apply IH.
Qed.
Lemma map2_length {A B D} (f : A -> B -> D) l l' : length l = length l' -> length (map2 f l l') = length l.
Proof. intros H. unfold map2. rewrite map_length, combine_length, <- H. apply Nat.min_id. Qed.
Lemma nth_some {A} (l : list A) i : (i < length l)%nat -> exists x, nth_error l i = Some x.
Proof. intros H. destruct (nth_error l i) eqn:E; [eauto |]. apply nth_error_None in E. lia. Qed.

(** ** specification: the documented matrix (pstokes.py:335-341), for the order XX, XY, YX, YY *)
Definition stokes_matrix (ps : Z) : C * C * C * C :=
  if Z.eqb ps 1 then (C1, C0, C0, C1)
  else if Z.eqb ps 2 then (C1, C0, C0, Copp C1)
  else if Z.eqb ps 3 then (C0, C1, C1, C0)
  else (C0, Copp Ci, Ci, C0).
Definition stokes_of (c : conv) (ps : Z) (xx xy yx yy : C) : C :=
  let '(a, b, c', d) := stokes_matrix ps in
  Cmul (match c with Avg => RtoC (/ 2) | _ => C1 end) (Cadd (Cadd (Cmul a xx) (Cmul b xy)) (Cadd (Cmul c' yx) (Cmul d yy))).

(** a dataset with the polarizations xx, yy, xy, yx (in any order) *)
Definition has_col (u : uvd) (p : Z) (c : col) : Prop := filter (fun c => Z.eqb (cpol c) p) (ucols u) = [c].
(** the two linear polarizations entering a pseudo-Stokes parameter *)
Definition needs (ps : Z) : Z * Z := if Z.leb ps 2 then (-5, -6) else (-7, -8).
Definition same_grid (u1 u2 : uvd) : Prop :=
  uspw u1 = uspw u2 /\ ufreqs u1 = ufreqs u2 /\ utimes u1 = utimes u2 /\ ubls u1 = ubls u2.

Lemma has_col_select u p c : has_col u p c -> ucols (select_pol u p) = [c] /\ existsb (Z.eqb p) (upols u) = true /\ cpol c = p.
Proof.
  intros H. unfold has_col in H.
  assert (Hin : In c (filter (fun c => Z.eqb (cpol c) p) (ucols u))) by (rewrite H; left; reflexivity).
  apply filter_In in Hin. destruct Hin as [Hin E]. apply Z.eqb_eq in E.
  split; [| split; [apply existsb_exists; exists p; split; [apply in_map_iff; exists c; auto | apply Z.eqb_refl] | assumption]].
  unfold select_pol. destruct (Nat.ltb_spec 1 (length (ucols u))) as [L | L]; [exact H |].
  destruct (ucols u) as [| c0 [| c1 l]]; [destruct Hin | | cbn in L; lia]. destruct Hin as [-> | []]. reflexivity.
Qed.
Lemma select_meta u p : uspw (select_pol u p) = uspw u /\ ufreqs (select_pol u p) = ufreqs u /\ utimes (select_pol u p) = utimes u
  /\ ubls (select_pol u p) = ubls u /\ the_conv (select_pol u p) = the_conv u.
Proof. unfold select_pol. destruct (Nat.ltb _ _); repeat split. Qed.
Lemma zlist_eqb_refl l : zlist_eqb l l = true.
Proof. unfold zlist_eqb. destruct (list_eq_dec _ _ _); congruence. Qed.
Lemma pw ps : 1 <= ps <= 4 -> exists w1 w2, pol_weights ps = Some [(fst (needs ps), w1); (snd (needs ps), w2)] /\
  forall c a b, (match c with Avg => Cmul (Cadd (Cmul w1 a) (Cmul w2 b)) (RtoC (/ 2)) | _ => Cadd (Cmul w1 a) (Cmul w2 b) end)
    = if Z.leb ps 2 then stokes_of c ps a C0 C0 b else stokes_of c ps C0 a b C0.
Proof.
  intros H. assert (ps = 1 \/ ps = 2 \/ ps = 3 \/ ps = 4) as [-> | [-> | [-> | ->]]] by lia;
    (eexists; eexists; split; [reflexivity |]); intros [] a b; unfold stokes_of; cbn -[Cmul Cadd RtoC C1 C0 Ci Copp]; ring.
Qed.

Definition well_shaped (n : nat) (c : col) : Prop := length (cdata c) = n /\ length (cflags c) = n /\ length (cns c) = n.

(** construct_pstokes succeeds on two datasets on the same grid with the same convention that have the two
    polarizations, and element k of its result is the documented combination of elements k of the two inputs. *)
Theorem pstokes_combination :
  forall u1 u2 ps c1 c2 n,
    1 <= ps <= 4 -> same_grid u1 u2 -> the_conv u1 = the_conv u2 -> the_conv u1 <> OtherConv ->
    has_col u1 (fst (needs ps)) c1 -> has_col u2 (snd (needs ps)) c2 -> well_shaped n c1 -> well_shaped n c2 ->
    exists u c, construct_pstokes u1 u2 ps = Ok u /\ ucols u = [c] /\ cpol c = ps /\ same_grid u u1 /\ well_shaped n c /\
      forall k v1 v2 f1 f2 n1 n2,
        nth_error (cdata c1) k = Some v1 -> nth_error (cdata c2) k = Some v2 ->
        nth_error (cflags c1) k = Some f1 -> nth_error (cflags c2) k = Some f2 ->
        nth_error (cns c1) k = Some n1 -> nth_error (cns c2) k = Some n2 ->
        nth_error (cdata c) k = Some (if Z.leb ps 2 then stokes_of (the_conv u1) ps v1 C0 C0 v2 else stokes_of (the_conv u1) ps C0 v1 v2 C0) /\
        (exists f, nth_error (cflags c) k = Some f /\
           (f = true <-> f1 = true \/ f2 = true \/ (n1 <= 0)%R \/ (n2 <= 0)%R)) /\
        (exists m, nth_error (cns c) k = Some m /\
           (((0 < n1)%R /\ (0 < n2)%R /\ (0 < m)%R /\ (1 / m = (1 / n1 + 1 / n2) / 4)%R) \/
            (((n1 <= 0)%R \/ (n2 <= 0)%R) /\ m = 0%R))).
Proof.
  intros u1 u2 ps c1 c2 n Hps (G1 & G2 & G3 & G4) Hc Hco H1 H2 (L1 & L2 & L3) (M1 & M2 & M3).
  destruct (pw ps Hps) as (w1 & w2 & PW & PV).
  destruct (has_col_select _ _ _ H1) as (S1 & P1 & Q1), (has_col_select _ _ _ H2) as (S2 & P2 & Q2).
  destruct (select_meta u1 (fst (needs ps))) as (A1 & A2 & A3 & A4 & A5), (select_meta u2 (snd (needs ps))) as (B1 & B2 & B3 & B4 & B5).
  assert (NE : Z.eqb (snd (needs ps)) (fst (needs ps)) = false) by (unfold needs; destruct (Z.leb ps 2); reflexivity).
  set (cc := mkcol ps (comb_data w1 w2 (the_conv u1) (cdata c1) (cdata c2))
     (comb_flags (cflags c1) (cflags c2) (Some (cns c1, cns c2))) (comb_ns (cns c1) (cns c2))).
  exists (mkuvd (uspw u1) (ufreqs u1) (utimes u1) (ubls u1) (Some (the_conv u1)) [cc]), cc. unfold cc. clear cc.
  split.
  - unfold construct_pstokes. rewrite G1, G2, G3, G4, Z.eqb_refl, !zlist_eqb_refl, PW. cbn [require].
    rewrite P1, P2. cbn [require]. unfold combine_pol. rewrite A5, B5, Hc.
    replace (conv_eqb (the_conv u2) (the_conv u2)) with true by (destruct (the_conv u2); reflexivity). cbn [require].
    rewrite S1, S2. unfold combine_pol_arrays. rewrite PW. cbn [lookup]. rewrite !Z.eqb_refl, NE.
    cbn [same_len]. rewrite L1, L2, L3, M1, M2, M3, !Nat.eqb_refl. cbn [andb require].
    rewrite <- Hc. destruct (the_conv u1) eqn:E; [| | congruence]; cbn [bind option_map fst snd]; rewrite A1, A2, A3, A4, G1, G2, G3, G4; reflexivity.
  - split; [reflexivity |]. split; [reflexivity |]. split; [repeat split |].
    split.
    { unfold well_shaped. cbn [cdata cflags cns]. split; [| split].
      - unfold comb_data. destruct (the_conv u1); rewrite ?map_length, map2_length; congruence.
      - assert (LF : length (map2 orb (cflags c1) (cflags c2)) = n) by (rewrite map2_length; congruence).
        assert (LV : length (valid_ns (cns c1) (cns c2)) = n) by (unfold valid_ns; rewrite map2_length; congruence).
        unfold comb_flags. cbv zeta. match goal with |- context [existsb ?p ?l] => destruct (existsb p l) end; [rewrite map2_length; congruence | assumption].
      - unfold comb_ns. rewrite map2_length; congruence. }
    intros k v1 v2 f1 f2 n1 n2 D1 D2 F1 F2 N1 N2. cbn [cdata cflags cns]. split; [| split].
    + rewrite <- PV. unfold comb_data.
      pose proof (map2_nth (fun a b => Cadd (Cmul w1 a) (Cmul w2 b)) _ _ _ _ _ D1 D2) as E. cbv beta in E.
      destruct (the_conv u1); [| exact E | exact E]. rewrite nth_error_map, E. reflexivity.
    + exists (f1 || f2 || negb (posb n1 && posb n2)). split.
      * unfold comb_flags. pose proof (map2_nth orb _ _ _ _ _ F1 F2) as EF.
        pose proof (map2_nth (fun a b => posb a && posb b) _ _ _ _ _ N1 N2) as EV. cbv beta in EV.
        cbv zeta. match goal with |- context [existsb ?p ?l] => destruct (existsb p l) eqn:EX end.
        -- apply (map2_nth (fun f v => f || negb v) _ _ _ _ _ EF EV).
        -- rewrite EF. f_equal. unfold valid_ns in EX.
           pose proof (map2_nth (fun v f => negb v && negb f) _ _ _ _ _ EV EF) as EB. cbv beta in EB.
           apply nth_error_In in EB. destruct (posb n1 && posb n2); cbn; [rewrite Bool.orb_false_r; reflexivity |].
           destruct (f1 || f2) eqn:Ef; [reflexivity |]. exfalso. cbn in EB.
           assert (existsb (fun b => b) (map2 (fun v f => negb v && negb f) (map2 (fun a b => posb a && posb b) (cns c1) (cns c2)) (map2 orb (cflags c1) (cflags c2))) = true)
             by (apply existsb_exists; exists true; auto). congruence.
      * unfold posb. destruct (Rlt_dec 0 n1), (Rlt_dec 0 n2), f1, f2; cbn; split; intros; try reflexivity; try discriminate; try tauto;
          try (right; right; lra); repeat match goal with H : _ \/ _ |- _ => destruct H end; try discriminate; try lra;
          try (left; reflexivity).
    + exists (if posb n1 && posb n2 then (4 / (1 / n1 + 1 / n2))%R else 0%R). split.
      * apply (map2_nth (fun a b => if posb a && posb b then (4 / (1 / a + 1 / b))%R else 0%R) _ _ _ _ _ N1 N2).
      * unfold posb. destruct (Rlt_dec 0 n1) as [Q | Q], (Rlt_dec 0 n2) as [Q' | Q']; cbn [andb]; try (right; split; [lra | reflexivity]).
        left. split; [assumption |]. split; [assumption |].
        assert (0 < 1 / n1)%R by (apply Rdiv_lt_0_compat; lra). assert (0 < 1 / n2)%R by (apply Rdiv_lt_0_compat; lra).
        split; [apply Rdiv_lt_0_compat; lra |]. field. repeat split; nra.
Qed.

(** combine_pol_arrays: the three kinds of arrays are optional and combined independently; it succeeds exactly if each given pair has one
    length, and returns what was given *)
Definition lengths_agree {A} (p : option (list A * list A)) : Prop := forall a b, p = Some (a, b) -> length a = length b.
Lemma same_len_iff {A} (p : option (list A * list A)) : same_len p = true <-> lengths_agree p.
Proof.
  unfold lengths_agree. destruct p as [[a b]|]; cbn [same_len]; split.
  - intros H a' b' [= <- <-]. apply Nat.eqb_eq, H.
  - intro H. apply Nat.eqb_eq, H. reflexivity.
  - discriminate.
  - reflexivity.
Qed.
Theorem pol_arrays_combined :
  forall ps c data flags ns, 1 <= ps <= 4 -> c <> OtherConv ->
    let r := combine_pol_arrays (fst (needs ps)) (snd (needs ps)) ps c data flags ns in
    ((exists x, r = Ok x) <-> lengths_agree data /\ lengths_agree flags /\ lengths_agree ns) /\
    forall d f n, r = Ok (d, f, n) ->
      ((d = None <-> data = None) /\ (f = None <-> flags = None) /\ (n = None <-> ns = None)) /\
      (forall d1 d2 d', data = Some (d1, d2) -> d = Some d' -> length d' = length d1 /\
         forall k v1 v2, nth_error d1 k = Some v1 -> nth_error d2 k = Some v2 ->
           nth_error d' k = Some (if Z.leb ps 2 then stokes_of c ps v1 C0 C0 v2 else stokes_of c ps C0 v1 v2 C0)) /\
      (ns = None -> forall f1 f2 f', flags = Some (f1, f2) -> f = Some f' -> length f' = length f1 /\
         forall k b1 b2, nth_error f1 k = Some b1 -> nth_error f2 k = Some b2 -> nth_error f' k = Some (b1 || b2)) /\
      (forall n1 n2 n', ns = Some (n1, n2) -> n = Some n' -> length n' = length n1 /\
         forall k a b, nth_error n1 k = Some a -> nth_error n2 k = Some b ->
           exists m, nth_error n' k = Some m /\
           (((0 < a)%R /\ (0 < b)%R -> (m * (1 / a + 1 / b) = 4)%R) /\ ((a <= 0)%R \/ (b <= 0)%R -> m = 0%R))).
Proof.
  intros ps c data flags ns Hps Hco r. destruct (pw ps Hps) as (w1 & w2 & PW & PV).
  assert (NE : Z.eqb (snd (needs ps)) (fst (needs ps)) = false) by (unfold needs; destruct (Z.leb ps 2); reflexivity).
  set (out := (option_map (fun d => comb_data w1 w2 c (fst d) (snd d)) data, option_map (fun f => comb_flags (fst f) (snd f) ns) flags, option_map (fun n => comb_ns (fst n) (snd n)) ns)).
  assert (E : r = require (same_len data && same_len flags && same_len ns) AssertionError (Ok out)).
  { unfold r, combine_pol_arrays. rewrite PW. cbn [lookup]. rewrite !Z.eqb_refl, NE. destruct c; [reflexivity|reflexivity|congruence]. }
  split.
  - rewrite E, <- !same_len_iff. unfold require. destruct (same_len data), (same_len flags), (same_len ns); cbn [andb]; split; intro H; try (destruct H as [x H]; discriminate H); try (destruct H as (? & ? & ?); discriminate); try (eexists; reflexivity); auto.
  - intros d f n R. rewrite E in R. apply require_ok in R. destruct R as [T R]. apply andb_prop in T. destruct T as [T T3]. apply andb_prop in T. destruct T as [T1 T2].
    apply same_len_iff in T1. apply same_len_iff in T2. apply same_len_iff in T3. injection R as <- <- <-. split; [|split; [|split]].
    + destruct data, flags, ns; cbn; repeat split; intros; congruence.
    + intros d1 d2 d' -> [= <-]. specialize (T1 _ _ eq_refl). cbn [fst snd]. split; [unfold comb_data; destruct c; rewrite ?map_length, map2_length; congruence|].
      intros k v1 v2 H1 H2. rewrite <- PV. unfold comb_data. pose proof (map2_nth (fun a b => Cadd (Cmul w1 a) (Cmul w2 b)) _ _ _ _ _ H1 H2) as Q. cbv beta in Q.
      destruct c; [|exact Q|exact Q]. rewrite nth_error_map, Q. reflexivity.
    + intros -> f1 f2 f' -> [= <-]. specialize (T2 _ _ eq_refl). cbn [fst snd comb_flags]. split; [rewrite map2_length; congruence|]. intros k b1 b2 H1 H2. apply (map2_nth orb _ _ _ _ _ H1 H2).
    + intros n1 n2 n' -> [= <-]. specialize (T3 _ _ eq_refl). cbn [fst snd]. split; [unfold comb_ns; rewrite map2_length; congruence|]. intros k a b H1 H2.
      eexists. split; [apply (map2_nth (fun a b => if posb a && posb b then (4 / (1 / a + 1 / b))%R else 0%R) _ _ _ _ _ H1 H2)|].
      unfold posb. destruct (Rlt_dec 0 a) as [Q|Q], (Rlt_dec 0 b) as [Q'|Q']; cbn [andb]; (split; [intros [? ?]; try lra | intros [?|?]; try lra; reflexivity]).
      assert (0 < 1 / a)%R by (apply Rdiv_lt_0_compat; lra). assert (0 < 1 / b)%R by (apply Rdiv_lt_0_compat; lra). field. repeat split; nra.
Qed.

(** The combinations invert back to the linear visibilities. *)
Theorem pstokes_invert :
  forall xx xy yx yy,
    let S c p := stokes_of c p xx xy yx yy in
    xx = Cadd (S Avg 1) (S Avg 2) /\ yy = Csub (S Avg 1) (S Avg 2) /\
    xy = Cadd (S Avg 3) (Cmul Ci (S Avg 4)) /\ yx = Csub (S Avg 3) (Cmul Ci (S Avg 4)) /\
    Cadd xx xx = Cadd (S Sum 1) (S Sum 2) /\ Cadd yy yy = Csub (S Sum 1) (S Sum 2) /\
    Cadd xy xy = Cadd (S Sum 3) (Cmul Ci (S Sum 4)) /\ Cadd yx yx = Csub (S Sum 3) (Cmul Ci (S Sum 4)).
Proof. intros. unfold S, stokes_of. cbn -[Rinv]. repeat split; apply Ceq; cbn -[Rinv]; field. Qed.
(** only the two needed polarizations matter *)
Theorem pstokes_unused :
  forall c ps xx xy yx yy,
    (1 <= ps <= 2 -> stokes_of c ps xx xy yx yy = stokes_of c ps xx C0 C0 yy) /\
    (3 <= ps <= 4 -> stokes_of c ps xx xy yx yy = stokes_of c ps C0 xy yx C0).
Proof.
  intros. split; intros H; [assert (ps = 1 \/ ps = 2) as [-> | ->] by lia | assert (ps = 3 \/ ps = 4) as [-> | ->] by lia];
    unfold stokes_of; cbn -[Cmul Cadd RtoC C1 C0 Ci Copp]; ring.
Qed.

(** Everything else is refused. *)
Theorem pstokes_rejects :
  forall u1 u2 ps u, construct_pstokes u1 u2 ps = Ok u ->
    1 <= ps <= 4 /\ same_grid u1 u2 /\ the_conv u1 = the_conv u2 /\ the_conv u1 <> OtherConv /\
    In (fst (needs ps)) (upols u1) /\ In (snd (needs ps)) (upols u2).
Proof.
  intros u1 u2 ps u H. unfold construct_pstokes in H.
  apply require_ok in H. destruct H as [E1 H]. apply require_ok in H. destruct H as [E2 H].
  apply require_ok in H. destruct H as [E3 H]. apply require_ok in H. destruct H as [E4 H].
  assert (Hps : 1 <= ps <= 4).
  { unfold pol_weights in H. destruct (Z.eqb_spec ps 1), (Z.eqb_spec ps 2), (Z.eqb_spec ps 3), (Z.eqb_spec ps 4); try lia. discriminate. }
  split; [assumption |]. destruct (pw ps Hps) as (w1 & w2 & PW & _). rewrite PW in H.
  apply require_ok in H. destruct H as [E5 H]. apply require_ok in H. destruct H as [E6 H].
  assert (ZL : forall a b, zlist_eqb a b = true -> a = b) by (intros a b; unfold zlist_eqb; destruct (list_eq_dec _ _ _); congruence).
  split; [apply Z.eqb_eq in E1; repeat split; auto |].
  unfold combine_pol in H. apply require_ok in H. destruct H as [E7 H].
  destruct (select_meta u1 (fst (needs ps))) as (_ & _ & _ & _ & A5), (select_meta u2 (snd (needs ps))) as (_ & _ & _ & _ & B5).
  rewrite A5, B5 in E7. assert (EC : the_conv u1 = the_conv u2) by (destruct (the_conv u1), (the_conv u2); try discriminate; reflexivity).
  split; [exact EC |]. split.
  - intros EO. rewrite A5, EO in H. destruct (ucols (select_pol u1 _)); [discriminate |]. destruct (ucols (select_pol u2 _)); [discriminate |].
    unfold combine_pol_arrays in H. rewrite PW in H. destruct (lookup _ _); [| discriminate]. destruct (lookup _ _); discriminate.
  - rewrite existsb_exists in E5, E6. destruct E5 as (x & X1 & X2), E6 as (y & Y1 & Y2). apply Z.eqb_eq in X2, Y2. subst. auto.
Qed.

(** filter_dset_on_stokes_pol returns the first datasets whose first polarizations are the two needed ones, and
    construct_pstokes finds these polarizations in them. *)
Theorem filter_dsets_spec :
  forall us ps a b, filter_dset_on_stokes_pol us ps = Ok (a, b) ->
    In a us /\ In b us /\ hd_error (upols a) = Some (fst (needs ps)) /\ hd_error (upols b) = Some (snd (needs ps)) /\
    forall pre post, us = pre ++ a :: post -> ~ In a pre -> forall u, In u pre -> hd_error (upols u) <> Some (fst (needs ps)).
Proof.
  assert (FP : forall p us a, find_pol p us = Some a -> In a us /\ hd_error (upols a) = Some p /\
     forall pre post, us = pre ++ a :: post -> ~ In a pre -> forall u, In u pre -> hd_error (upols u) <> Some p).
  { intros p us. induction us as [| u us IH]; intros a H; [discriminate |]. cbn [find_pol] in H.
    assert (K : hd_error (upols u) = Some p /\ a = u \/ hd_error (upols u) <> Some p /\ find_pol p us = Some a).
    { destruct (upols u) as [| q l]; cbn; [right; split; [discriminate | assumption] |].
      destruct (Z.eqb_spec q p) as [-> | N]; [left; split; [reflexivity | congruence] | right; split; [congruence | assumption]]. }
    destruct K as [[K1 ->] | [K1 K2]].
    - split; [left; reflexivity |]. split; [assumption |]. intros [| x pre] post E Hn w Hw; [destruct Hw |].
      cbn in E. injection E as -> _. exfalso. apply Hn. left. reflexivity.
    - destruct (IH a K2) as (I1 & I2 & I3). split; [right; assumption |]. split; [assumption |].
      intros [| x pre] post E Hn w Hw; [destruct Hw |]. cbn in E. injection E as <- E.
      destruct Hw as [<- | Hw]; [assumption |]. apply (I3 pre post E); [intros N; apply Hn; right; assumption | assumption]. }
  intros us ps a b H. unfold filter_dset_on_stokes_pol in H. apply bind_ok in H. destruct H as (l & _ & H).
  assert (Hps : 1 <= ps <= 4).
  { unfold pol_weights in H. destruct (Z.eqb_spec ps 1), (Z.eqb_spec ps 2), (Z.eqb_spec ps 3), (Z.eqb_spec ps 4); try lia. discriminate. }
  destruct (pw ps Hps) as (w1 & w2 & PW & _). rewrite PW in H.
  destruct (find_pol (fst (needs ps)) us) as [a' |] eqn:E1; [| discriminate]. destruct (find_pol (snd (needs ps)) us) as [b' |] eqn:E2; [| discriminate].
  injection H as -> ->. destruct (FP _ _ _ E1) as (X1 & X2 & X3), (FP _ _ _ E2) as (Y1 & Y2 & Y3). auto.
Qed.
Theorem filter_dsets_accepts :
  forall us ps, (exists r, filter_dset_on_stokes_pol us ps = Ok r) <->
    1 <= ps <= 4 /\ (forall u, In u us -> upols u <> []) /\
    (exists a, In a us /\ hd_error (upols a) = Some (fst (needs ps))) /\ (exists b, In b us /\ hd_error (upols b) = Some (snd (needs ps))).
Proof.
  assert (FN : forall p us, (exists a, In a us /\ hd_error (upols a) = Some p) -> exists a, find_pol p us = Some a).
  { intros p us. induction us as [| u us IH]; intros (a & Ha & E); [destruct Ha |]. cbn [find_pol].
    destruct (upols u) as [| q l] eqn:Eu.
    - apply IH. destruct Ha as [<- | Ha]; [rewrite Eu in E; discriminate | eauto].
    - destruct (Z.eqb_spec q p); [eauto |]. apply IH. destruct Ha as [<- | Ha]; [rewrite Eu in E; cbn in E; congruence | eauto]. }
  assert (FM : forall us, (exists l, map_res first_pol us = Ok l) <-> forall u, In u us -> upols u <> []).
  { intros us. induction us as [| u us IH]; cbn; [split; [intros _ ? [] | eauto] |]. unfold first_pol at 1. split.
    - intros (l & H). apply bind_ok in H. destruct H as (x & H1 & H2). apply bind_ok in H2. destruct H2 as (y & H2 & _).
      intros w [<- | Hw]; [destruct (upols u); [discriminate | discriminate] | apply IH; eauto].
    - intros H. destruct (upols u) eqn:E; [exfalso; apply (H u); auto |]. cbn. destruct (proj2 IH) as (l' & ->); [intros; apply H; auto |]. cbn. eauto. }
  intros us ps. split.
  - intros ([a b] & H). destruct (filter_dsets_spec us ps a b H) as (X1 & X2 & X3 & X4 & _).
    unfold filter_dset_on_stokes_pol in H. apply bind_ok in H. destruct H as (l & Hl & H).
    split.
    { unfold pol_weights in H. destruct (Z.eqb_spec ps 1), (Z.eqb_spec ps 2), (Z.eqb_spec ps 3), (Z.eqb_spec ps 4); try lia. discriminate. }
    split; [apply FM; eauto |]. split; [exists a | exists b]; auto.
  - intros (Hps & Hne & Ha & Hb). unfold filter_dset_on_stokes_pol. destruct (proj2 (FM us) Hne) as (l & ->). cbn [bind].
    destruct (pw ps Hps) as (w1 & w2 & -> & _). destruct (FN _ _ Ha) as (a & ->), (FN _ _ Hb) as (b & ->). eauto.
Qed.

(** The call can change its arguments: without a recorded convention, an argument with one polarization leaves the
    call with the convention "avg". Objects with a recorded convention or several polarizations are untouched. *)
Theorem pstokes_arguments_partial :
  forall u, uconv u <> None \/ (1 < length (ucols u))%nat -> arg_after u = u.
Proof.
  intros u H. unfold arg_after. destruct (Nat.ltb_spec 1 (length (ucols u))); [reflexivity |].
  unfold set_conv. destruct (uconv u) eqn:E; [reflexivity |]. destruct H; [congruence | lia].
Qed.
Theorem pstokes_arguments_refuted : exists u1 u2 u, construct_pstokes u1 u2 1 = Ok u /\ arg_after u1 <> u1.
Proof.
  exists (mkuvd 0 [1] [2] [3] None [mkcol (-5) [C1] [false] [1%R]]), (mkuvd 0 [1] [2] [3] None [mkcol (-6) [C1] [false] [1%R]]).
  eexists. split; [reflexivity |]. intros E. apply (f_equal uconv) in E. discriminate.
Qed.

(** a dataset to which the main theorem applies *)
Definition ex_uvd : uvd := mkuvd 0 [100; 101] [5] [12] (Some Sum)
  [mkcol (-6) [C1; Ci] [false; true] [2%R; 2%R]; mkcol (-5) [Ci; Ci] [false; false] [1%R; 0%R]].
Example pstokes_applies :
  same_grid ex_uvd ex_uvd /\ has_col ex_uvd (fst (needs 2)) (mkcol (-5) [Ci; Ci] [false; false] [1%R; 0%R]) /\
  has_col ex_uvd (snd (needs 2)) (mkcol (-6) [C1; Ci] [false; true] [2%R; 2%R]) /\
  exists u, construct_pstokes ex_uvd ex_uvd 2 = Ok u.
Proof. repeat split; try reflexivity. eexists. reflexivity. Qed.
Print Assumptions pstokes_combination.
Print Assumptions filter_dsets_accepts.
Print Assumptions pol_arrays_combined.
