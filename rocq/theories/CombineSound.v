(** Correctness of [combine_uvpspec] for aligned inputs. *)
From Coq Require Import Permutation Sorted.
From Verif Require Import Prelude ListLemmas UvpModel CommonProofs CombineModel CombineProofs CombineMain.

Lemma index_of_nth {A} dec (x : A) l i : index_of dec x l = Some i -> nth_error l i = Some x.
Proof.
  revert i; induction l as [|y l IH]; intros i H; cbn in H; [discriminate|].
  destruct (dec x y); [injection H as <-; cbn; congruence|].
  destruct (index_of dec x l) as [j|]; [|discriminate]. injection H as <-. cbn. apply IH; reflexivity.
Qed.
Lemma index_res_ok {A} dec (x : A) l i : index_res dec x l = Ok i -> nth_error l i = Some x.
Proof. unfold index_res. destruct (index_of dec x l) eqn:E; [|discriminate]. intro H. injection H as <-. eapply index_of_nth; exact E. Qed.
Lemma index_res_total {A} dec (x : A) l : In x l -> exists i, index_res dec x l = Ok i.
Proof.
  intro H. unfold index_res. destruct (index_of dec x l) eqn:E; [eauto|]. exfalso.
  induction l as [|y l IH]; [destruct H|]. cbn in E. destruct (dec x y); [discriminate|].
  destruct H as [->|H]; [congruence|]. destruct (index_of dec x l); [discriminate|]. auto.
Qed.
Lemma nth_res_ok {A} (l : list A) i x : nth_res l i = Ok x <-> nth_error l i = Some x.
Proof. unfold nth_res. destruct (nth_error l i); split; intro H; congruence. Qed.
Lemma nth_error_lt {A} (l : list A) i : i < length l -> exists x, nth_error l i = Some x.
Proof. intro H. destruct (nth_error l i) eqn:E; [eauto|]. apply nth_error_None in E. lia. Qed.
Lemma nth_error_Some_lt {A} (l : list A) i x : nth_error l i = Some x -> i < length l.
Proof. intro H. apply nth_error_Some. congruence. Qed.
Lemma NoDup_nth_inj {A} (l : list A) i j x : NoDup l -> nth_error l i = Some x -> nth_error l j = Some x -> i = j.
Proof. intros N H1 H2. rewrite NoDup_nth_error in N. apply N; [eapply nth_error_Some_lt; eauto | congruence]. Qed.

Lemma indexed_nth {A} (l : list A) i x : nth_error l i = Some x -> nth_error (indexed l) i = Some (i, x).
Proof.
  unfold indexed.
  assert (G : forall k, nth_error l i = Some x -> nth_error (combine (seq k (length l)) l) i = Some (k + i, x)).
  { revert i. induction l as [|y l IH]; intros [|i] k H; cbn in *; try discriminate.
    - injection H as ->. f_equal. f_equal. lia.
    - rewrite (IH i (S k) H). f_equal. f_equal. lia. }
  intro H. apply (G 0 H).
Qed.
Lemma indexed_length {A} (l : list A) : length (indexed l) = length l.
Proof. unfold indexed. rewrite combine_length, seq_length. lia. Qed.
Lemma indexed_In {A} (l : list A) i x : In (i, x) (indexed l) -> nth_error l i = Some x.
Proof.
  intro H. apply In_nth_error in H. destruct H as [k Hk].
  assert (k < length l) by (apply nth_error_Some_lt in Hk; rewrite indexed_length in Hk; exact Hk).
  destruct (nth_error_lt l k H) as [y Hy]. rewrite (indexed_nth l k y Hy) in Hk. injection Hk as -> ->. exact Hy.
Qed.
Lemma map_res_nth {A B} (f : A -> result B) l r i x : map_res f l = Ok r -> nth_error l i = Some x ->
  exists y, nth_error r i = Some y /\ f x = Ok y.
Proof.
  intro H. apply map_res_spec in H. revert i. induction H as [|a b l r H0 H IH]; intros [|i] E; try discriminate.
  - injection E as ->. exists b. auto.
  - apply IH. exact E.
Qed.
Lemma map_res_len {A B} (f : A -> result B) l r : map_res f l = Ok r -> length r = length l.
Proof. intro H. apply map_res_spec, Forall2_len in H. congruence. Qed.
Lemma Forall2_nth_r {A B} (P : A -> B -> Prop) l r i y : Forall2 P l r -> nth_error r i = Some y -> exists x, nth_error l i = Some x /\ P x y.
Proof.
  intro H. revert i. induction H as [|a b l r H0 H IH]; intros [|i] E; try discriminate.
  - injection E as ->. exists a. auto.
  - apply IH. exact E.
Qed.
Lemma map_res_nth_r {A B} (f : A -> result B) l r i y : map_res f l = Ok r -> nth_error r i = Some y ->
  exists x, nth_error l i = Some x /\ f x = Ok y.
Proof. intro H. apply map_res_spec in H. exact (Forall2_nth_r _ _ _ _ _ H). Qed.

Section Sound.
Context {V M Sc Vec : Type}.
Variable isclose : Sc -> Sc -> bool.
Variable round8 : Z -> Z.
Variable step : list Z -> Z.
Notation obj := (cobj V M Sc Vec).
Notation spws := (spws step).
Notation holds := (holds step).
Notation wfc := (wfc step).
Notation differ := (differ step).
Notation unique_lookup := (unique_lookup round8).

Lemma where_single {A} (f : A -> bool) l n x : nth_error l n = Some x -> f x = true ->
  (forall i y, nth_error l i = Some y -> f y = true -> i = n) -> where_ (map f l) = [n].
Proof.
  intros Hn Hf Hu. pose proof (where_sorted (map f l)) as S. apply sorted_ext; [exact S | repeat constructor |].
  intro i. rewrite where_spec, nth_error_map. split.
  - destruct (nth_error l i) as [y|] eqn:E; [|discriminate]. cbn. intro H. injection H as H. left. symmetry. eapply Hu; eassumption.
  - intros [<-|[]]. rewrite Hn. cbn. congruence.
Qed.

Lemma lookup_match_refl b : lookup_match round8 b b = true.
Proof. destruct b as [[p t] t2]. unfold lookup_match. rewrite !Z.eqb_refl. reflexivity. Qed.
Lemma lookup_match_sym a b : lookup_match round8 a b = lookup_match round8 b a.
Proof. destruct a as [[p t] t2], b as [[p' t'] t2']. cbn. rewrite (Z.eqb_sym p), (Z.eqb_sym (round8 t)). reflexivity. Qed.

(** with unambiguous rows the lookup finds the row *)
Lemma fast_lookup_nth src bs j b : NoDup src -> unique_lookup src -> (forall x, In x bs -> In x src) ->
  nth_error bs j = Some b -> exists n, nth_error (fast_lookup round8 src bs) j = Some n /\ nth_error src n = Some b.
Proof.
  intros N U Hin Hj. unfold fast_lookup.
  assert (E : forall q, In q src -> exists n, where_ (map (lookup_match round8 q) src) = [n] /\ nth_error src n = Some q).
  { intros q Hq. apply In_nth_error in Hq. destruct Hq as [n Hn]. exists n. split; [|exact Hn].
    apply (where_single _ _ n q Hn); [apply lookup_match_refl|]. intros i y Hi Hy.
    assert (q = y) by (apply U; [eapply nth_error_In; exact Hn | eapply nth_error_In; exact Hi | exact Hy]). subst y.
    eapply NoDup_nth_inj; eassumption. }
  revert j Hj. induction bs as [|q bs IH]; intros [|j] Hj; try discriminate.
  - injection Hj as ->. destruct (E b (Hin b (or_introl eq_refl))) as [n [H1 H2]]. exists n. cbn [flat_map]. rewrite H1. auto.
  - destruct (E q (Hin q (or_introl eq_refl))) as [n [H1 _]]. cbn [flat_map]. rewrite H1. cbn [app nth_error].
    apply IH; [intros; apply Hin; right; assumption | exact Hj].
Qed.

(** * the setting: a list of objects accepted by the overlap check *)
Variables (us : list obj) (u0 : obj) (ax : axis).
Hypothesis Hu0 : hd_error us = Some u0.
Hypothesis Wf : forall u, In u us -> wfc u.
Hypothesis Hd : forall a u b v c, us = a ++ u :: b ++ v :: c -> differ ax u v.
Definition same_rows : Prop := forall u, In u us -> c_blpts u = c_blpts u0.
Hypothesis Hal : (ax <> AxBlpts -> same_rows /\ unique_lookup (c_blpts u0)) /\ (ax <> AxSpw -> windows_sorted step u0).

Let S := sorted_set key_dec lex_leb (concat (map spws us)).
Let B := sorted_set blpt_dec blpt_leb (concat (map c_blpts us)).
Let P := sorted_set Z.eq_dec abs_leb (concat (map c_pols us)).

Lemma u0_in : In u0 us.
Proof using Wf Hd Hal Hu0. destruct us; [discriminate|]. injection Hu0 as ->. left; reflexivity. Qed.

Lemma in_S s : In s S <-> exists u, In u us /\ In s (spws u).
Proof.
  unfold S. rewrite sorted_set_In, in_concat. split.
  - intros [l [Hl Hs]]. apply in_map_iff in Hl. destruct Hl as [u [<- Hu]]. eauto.
  - intros [u [Hu Hs]]. exists (spws u). split; [apply in_map; exact Hu | exact Hs].
Qed.
Lemma in_B b : In b B <-> exists u, In u us /\ In b (c_blpts u).
Proof.
  unfold B. rewrite sorted_set_In, in_concat. split.
  - intros [l [Hl Hs]]. apply in_map_iff in Hl. destruct Hl as [u [<- Hu]]. eauto.
  - intros [u [Hu Hs]]. exists (c_blpts u). split; [apply in_map; exact Hu | exact Hs].
Qed.
Lemma in_P p : In p P <-> exists u, In u us /\ In p (c_pols u).
Proof.
  unfold P. rewrite sorted_set_In, in_concat. split.
  - intros [l [Hl Hs]]. apply in_map_iff in Hl. destruct Hl as [u [<- Hu]]. eauto.
  - intros [u [Hu Hs]]. exists (c_pols u). split; [apply in_map; exact Hu | exact Hs].
Qed.

(** two objects at different places differ along the axis only *)
Lemma two_places u v : In u us -> In v us -> u = v \/ differ ax u v \/ differ ax v u.
Proof using Wf Hd Hal Hu0.
  intros Hu Hv. apply in_split in Hu. destruct Hu as [a [b E]]. rewrite E in Hv.
  apply in_app_or in Hv. destruct Hv as [Hv|[Hv|Hv]].
  - apply in_split in Hv. destruct Hv as [a1 [a2 ->]]. right. right. apply (Hd a1 v a2 u b). rewrite E, <- app_assoc. reflexivity.
  - left; exact Hv.
  - apply in_split in Hv. destruct Hv as [b1 [b2 ->]]. right. left. apply (Hd a u b1 v b2). exact E.
Qed.
Lemma agree_s u v : In u us -> In v us -> ax <> AxSpw -> agree (spws u) (spws v).
Proof using Wf Hd Hal Hu0.
  intros Hu Hv N. destruct (two_places u v Hu Hv) as [->|[D|D]]; [intro; tauto| |];
  destruct ax; try congruence; destruct D as [D1 [D2 D3]]; try assumption; intro x; symmetry; apply D1.
Qed.
Lemma agree_b u v : In u us -> In v us -> ax <> AxBlpts -> agree (c_blpts u) (c_blpts v).
Proof using Wf Hd Hal Hu0.
  intros Hu Hv N. destruct (two_places u v Hu Hv) as [->|[D|D]]; [intro; tauto| |];
  destruct ax; try congruence; destruct D as [D1 [D2 D3]]; try assumption; intro x; symmetry; apply D2.
Qed.
Lemma agree_p u v : In u us -> In v us -> ax <> AxPols -> agree (c_pols u) (c_pols v).
Proof using Wf Hd Hal Hu0.
  intros Hu Hv N. destruct (two_places u v Hu Hv) as [->|[D|D]]; [intro; tauto| |];
  destruct ax; try congruence; destruct D as [D1 [D2 D3]]; try assumption; intro x; symmetry; apply D3.
Qed.
(** an element of the concatenation axis is in one object only *)
Definition on_axis (s : key) (b : blpt) (p : Z) (u : obj) : Prop :=
  match ax with AxSpw => In s (spws u) | AxBlpts => In b (c_blpts u) | AxPols => In p (c_pols u) end.
Lemma one_owner s b p u v : In u us -> In v us -> on_axis s b p u -> on_axis s b p v -> u = v.
Proof using Wf Hd Hal Hu0.
  intros Hu Hv A1 A2. unfold on_axis in *.
  destruct (two_places u v Hu Hv) as [->|[D|D]]; [reflexivity| |]; exfalso;
  destruct ax; destruct D as [D1 [D2 D3]].
  - destruct D1 as [D1 _]; exact (D1 _ A1 A2).
  - destruct D2 as [D2 _]; exact (D2 _ A1 A2).
  - destruct D3 as [D3 _]; exact (D3 _ A1 A2).
  - destruct D1 as [D1 _]; exact (D1 _ A2 A1).
  - destruct D2 as [D2 _]; exact (D2 _ A2 A1).
  - destruct D3 as [D3 _]; exact (D3 _ A2 A1).
Qed.

Lemma find_owner s b p : In s S -> In b B -> In p P -> exists u, owner step ax us s b p = Ok u /\ In u us /\ on_axis s b p u.
Proof.
  intros Hs Hb Hp. unfold owner, owner_of.
  match goal with |- context [find ?f us] => destruct (find f us) as [u|] eqn:E; [| exfalso; pose proof (find_none _ _ E) as F] end.
  - apply find_some in E. destruct E as [Hu E]. exists u. split; [reflexivity|]. split; [exact Hu|].
    unfold on_axis. destruct ax; apply mem_In in E; exact E.
  - destruct ax.
    + apply in_S in Hs. destruct Hs as [u [Hu Hs]]. specialize (F u Hu). cbn in F. apply mem_false in F. contradiction.
    + apply in_B in Hb. destruct Hb as [u [Hu Hb]]. specialize (F u Hu). cbn in F. apply mem_false in F. contradiction.
    + apply in_P in Hp. destruct Hp as [u [Hu Hp]]. specialize (F u Hu). cbn in F. apply mem_false in F. contradiction.
Qed.

(** the owner has the other two coordinates too *)
Lemma owner_has s b p u : In s S -> In b B -> In p P -> In u us -> on_axis s b p u ->
  In s (spws u) /\ In b (c_blpts u) /\ In p (c_pols u).
Proof using Wf Hd Hal Hu0.
  intros Hs Hb Hp Hu Ha. unfold on_axis in Ha.
  apply in_S in Hs. destruct Hs as [us' [Hus Hs]]. apply in_B in Hb. destruct Hb as [ub [Hub Hb]]. apply in_P in Hp. destruct Hp as [up [Hup Hp]].
  destruct (Bool.bool_dec (axis_eqb ax AxSpw) true) as [E1|E1]; [apply axis_eqb_spec in E1|].
  - rewrite E1 in Ha. repeat split; [exact Ha | |].
    + apply (agree_b ub u Hub Hu); [congruence | exact Hb].
    + apply (agree_p up u Hup Hu); [congruence | exact Hp].
  - destruct (Bool.bool_dec (axis_eqb ax AxBlpts) true) as [E2|E2]; [apply axis_eqb_spec in E2|].
    + rewrite E2 in Ha. repeat split; [| exact Ha |].
      * apply (agree_s us' u Hus Hu); [congruence | exact Hs].
      * apply (agree_p up u Hup Hu); [congruence | exact Hp].
    + assert (E3 : ax = AxPols) by (destruct ax; cbn in *; congruence). rewrite E3 in Ha. repeat split; [| | exact Ha].
      * apply (agree_s us' u Hus Hu); [congruence | exact Hs].
      * apply (agree_b ub u Hub Hu); [congruence | exact Hb].
Qed.

Lemma row_index_ok s p u j b : nth_error B j = Some b -> In u us -> on_axis s b p u -> In b (c_blpts u) ->
  exists n, row_index round8 ax u B j b = Ok n /\ nth_error (c_blpts u) n = Some b.
Proof using Wf Hd Hal Hu0.
  intros Hj Hu Ha Hb. destruct Hal as [Hal1 _].
  assert (G : ax <> AxBlpts -> exists n, nth_res (fast_lookup round8 (c_blpts u) B) j = Ok n /\ nth_error (c_blpts u) n = Some b).
  { intro N. destruct (Hal1 N) as [SR UL].
    destruct (fast_lookup_nth (c_blpts u) B j b) as [n [H1 H2]].
    - apply (wfc_b step u), Wf, Hu.
    - rewrite (SR u Hu). exact UL.
    - intros x Hx. apply in_B in Hx. destruct Hx as [v [Hv Hx]]. apply (agree_b v u Hv Hu N), Hx.
    - exact Hj.
    - exists n. split; [apply nth_res_ok, H1 | exact H2]. }
  unfold row_index. destruct ax.
  - apply G. discriminate.
  - destruct (index_res_total blpt_dec b (c_blpts u) Hb) as [n Hn]. exists n. split; [exact Hn|]. eapply index_res_ok; exact Hn.
  - apply G. discriminate.
Qed.

Lemma cell_exists u m n q : In u us -> m < length (spws u) -> n < length (c_blpts u) -> q < length (c_pols u) ->
  exists r c v, nth_error (c_cells u) m = Some r /\ nth_error r n = Some c /\ nth_error c q = Some v.
Proof using Wf Hd Hal Hu0.
  intros Hu Hm Hn Hq. destruct (Wf u Hu) as [_ _ _ [W1 W2] _ _]. unfold CombineModel.spws in Hm. rewrite map_length in Hm.
  destruct (nth_error_lt (c_cells u) m ltac:(lia)) as [r Hr]. destruct (W2 r (nth_error_In _ _ Hr)) as [L1 L2].
  destruct (nth_error_lt r n ltac:(lia)) as [c Hc]. pose proof (L2 c (nth_error_In _ _ Hc)) as L3.
  destruct (nth_error_lt c q ltac:(lia)) as [v Hv]. eauto 6.
Qed.

Lemma entry_ok s j b p : In s S -> nth_error B j = Some b -> In p P ->
  exists u v, In u us /\ holds u s b p v /\ on_axis s b p u /\ entry round8 step ax us B s j b p = Ok v.
Proof using Wf Hd Hal Hu0.
  intros Hs Hj Hp. assert (Hb : In b B) by (eapply nth_error_In; exact Hj).
  destruct (find_owner s b p Hs Hb Hp) as [u [Eo [Hu Ha]]].
  destruct (owner_has s b p u Hs Hb Hp Hu Ha) as [Is [Ib Ip]].
  destruct (index_res_total key_dec s (spws u) Is) as [m Hm]. destruct (index_res_total Z.eq_dec p (c_pols u) Ip) as [q Hq].
  destruct (row_index_ok s p u j b Hj Hu Ha Ib) as [n [Hn Hn']].
  pose proof (index_res_ok _ _ _ _ Hm) as Hm'. pose proof (index_res_ok _ _ _ _ Hq) as Hq'.
  destruct (cell_exists u m n q Hu) as [r [c [v [H1 [H2 H3]]]]]; try (eapply nth_error_Some_lt; eassumption).
  exists u, v. split; [exact Hu|]. split; [exists m, n, q, r, c; auto 6|]. split; [exact Ha|].
  unfold entry. rewrite Eo. cbn [bind]. rewrite Hm. cbn [bind]. rewrite Hq. cbn [bind]. rewrite Hn. cbn [bind].
  unfold get3, nth_res. rewrite H1. cbn [bind]. rewrite H2. cbn [bind]. rewrite H3. reflexivity.
Qed.

Lemma holds_fun u s b p v v' : In u us -> holds u s b p v -> holds u s b p v' -> v = v'.
Proof using Wf Hd Hal Hu0.
  intros Hu (m & n & q & r & c & H1 & H2 & H3 & H4 & H5 & H6) (m' & n' & q' & r' & c' & H1' & H2' & H3' & H4' & H5' & H6').
  destruct (Wf u Hu) as [Ns Nb Np _ _ _].
  assert (m' = m) by (eapply NoDup_nth_inj; [exact Ns | eassumption | eassumption]). subst.
  assert (n' = n) by (eapply NoDup_nth_inj; [exact Nb | eassumption | eassumption]). subst.
  assert (q' = q) by (eapply NoDup_nth_inj; [exact Np | eassumption | eassumption]). subst. congruence.
Qed.

Lemma holds_in (u : obj) s b p v : holds u s b p v -> In s (spws u) /\ In b (c_blpts u) /\ In p (c_pols u).
Proof. intros (m & n & q & r & c & H1 & H2 & H3 & _). repeat split; eapply nth_error_In; eassumption. Qed.
Lemma holds_axis (u : obj) s b p v : holds u s b p v -> on_axis s b p u.
Proof. intro H. apply holds_in in H. unfold on_axis. destruct ax; tauto. Qed.

(** the entry copied for a key is the one the inputs hold *)
Lemma entry_iff s j b p v : In s S -> nth_error B j = Some b -> In p P ->
  (entry round8 step ax us B s j b p = Ok v <-> exists u, In u us /\ holds u s b p v).
Proof using Wf Hd Hal Hu0.
  intros Hs Hj Hp. destruct (entry_ok s j b p Hs Hj Hp) as [u [v' [Hu [Hh [Ha He]]]]]. split.
  - intro H. exists u. split; [exact Hu|]. congruence.
  - intros [w [Hw Hh']]. assert (w = u) by (eapply one_owner; eauto; eapply holds_axis; eassumption). subst w.
    rewrite He. f_equal. eapply holds_fun; eassumption.
Qed.

(** rows *)
Lemma first_in {A} (l : list A) d : l <> [] -> In (hd d l) l.
Proof. destruct l; [congruence | intros _; left; reflexivity]. Qed.
Lemma row_ok j b : S <> [] -> P <> [] -> nth_error B j = Some b ->
  exists x, row_entry round8 step ax us u0 B (hd [] S) (hd 0%Z P) j b = Ok (b, x) /\
    exists u, In u us /\ (ax <> AxBlpts -> u = u0) /\ row_of u b x.
Proof using Wf Hd Hal Hu0.
  intros Sne Pne Hj. assert (Hb : In b B) by (eapply nth_error_In; exact Hj).
  pose proof (first_in S [] Sne) as Hs. pose proof (first_in P 0%Z Pne) as Hp.
  set (s := hd [] S) in *. set (p := hd 0%Z P) in *.
  destruct (find_owner s b p Hs Hb Hp) as [u [Eo [Hu Ha]]].
  destruct (owner_has s b p u Hs Hb Hp Hu Ha) as [Is [Ib Ip]].
  destruct (row_index_ok s p u j b Hj Hu Ha Ib) as [n [Hn Hn']].
  set (src := match ax with AxBlpts => u | _ => u0 end).
  assert (Esrc : In src us /\ c_blpts src = c_blpts u /\ (ax <> AxBlpts -> src = u0)).
  { pose proof u0_in as U0. destruct Hal as [Hal1 _]. unfold src. clear -Hal1 U0 Hu. destruct ax; repeat split; auto; try congruence;
    destruct (Hal1 ltac:(discriminate)) as [SR _]; rewrite (SR u Hu); reflexivity. }
  destruct Esrc as [Hsrc [Eb E0]].
  destruct (nth_error_lt (c_rows src) n) as [x Hx].
  { destruct (Wf src Hsrc) as [_ _ _ _ WR _]. rewrite WR, Eb. eapply nth_error_Some_lt; exact Hn'. }
  exists x. split.
  - unfold row_entry. rewrite Eo. cbn [bind]. rewrite Hn. cbn [bind]. fold src. unfold nth_res. rewrite Eb, Hn'. cbn [bind].
    rewrite Hx. reflexivity.
  - exists src. split; [exact Hsrc|]. split; [exact E0|]. exists n. rewrite Eb. auto.
Qed.

(** windows *)
Lemma windows_ok : exists ws, new_windows step ax us u0 S = Ok ws /\ map (wkey step) ws = S /\
  forall w, In w ws -> exists u, In u us /\ In w (c_windows u).
Proof using Wf Hd Hal Hu0.
  assert (G : ax <> AxSpw -> exists ws, Ok (c_windows u0) = Ok ws /\ map (wkey step) ws = S /\
     forall w, In w ws -> exists u, In u us /\ In w (c_windows u)).
  { intro N. exists (c_windows u0). split; [reflexivity|]. split.
    - symmetry. unfold S. apply (sorted_set_fix key_dec lex_leb); [apply lex_order | apply (wfc_s step u0), Wf, u0_in | apply (proj2 Hal N)|].
      intro x. rewrite in_concat. split.
      + intros [l [Hl Hx]]. apply in_map_iff in Hl. destruct Hl as [v [<- Hv]]. apply (agree_s v u0 Hv u0_in N), Hx.
      + intro Hx. exists (spws u0). split; [apply in_map, u0_in | exact Hx].
    - intros w Hw. exists u0. split; [apply u0_in | exact Hw]. }
  unfold new_windows. destruct ax eqn:Eax; [|apply G; discriminate | apply G; discriminate]. clear G.
  match goal with |- exists ws, map_res ?f S = _ /\ _ => destruct (map_res_total f S) as [ws Hws] end.
  { apply Forall_forall. intros s Hs. apply in_S in Hs. destruct Hs as [u [Hu Hs]]. unfold owner_of.
    destruct (find (fun u1 => mem key_dec s (spws u1)) us) as [v|] eqn:E.
    - apply find_some in E. destruct E as [Hv Hm]. apply mem_In in Hm. cbn [bind].
      destruct (index_res_total key_dec s (spws v) Hm) as [m Hm']. rewrite Hm'. cbn [bind].
      apply index_res_ok in Hm'. unfold CombineModel.spws in Hm'. rewrite nth_error_map in Hm'. unfold nth_res.
      destruct (nth_error (c_windows v) m); [eauto|discriminate].
    - pose proof (find_none _ _ E u Hu) as F. cbn in F. apply mem_false in F. contradiction. }
  exists ws. split; [exact Hws|]. apply map_res_spec in Hws.
  assert (F : Forall2 (fun s w => wkey step w = s /\ exists u, In u us /\ In w (c_windows u)) S ws).
  { clear -Hws. induction Hws as [|s w S' ws H0 H IH]; constructor; [|exact IH].
    unfold owner_of in H0. destruct (find (fun u1 => mem key_dec s (spws u1)) us) as [v|] eqn:E; [|discriminate].
    apply find_some in E. destruct E as [Hv _]. cbn [bind] in H0. apply bind_ok in H0. destruct H0 as [m [Hm H0]].
    apply index_res_ok in Hm. apply nth_res_ok in H0. unfold CombineModel.spws in Hm. rewrite nth_error_map, H0 in Hm.
    injection Hm as Hm. split; [exact Hm|]. exists v. split; [exact Hv|]. eapply nth_error_In; exact H0. }
  split.
  - clear -F. induction F as [|s w S' ws [H0 _] F IH]; [reflexivity|]. cbn. congruence.
  - intros w Hw. clear -F Hw. induction F as [|s w' S' ws [_ H0] F IH]; [destruct Hw|]. destruct Hw as [->|Hw]; auto.
Qed.

(** scalars *)
Lemma scalar_ok s p : In s S -> In p P -> B <> [] ->
  exists u x, In u us /\ on_axis s (hd (0, 0, 0)%Z B) p u /\ scalar_of step u s p x /\ scalar_entry step ax us (hd (0, 0, 0)%Z B) s p = Ok x.
Proof using Wf Hd Hal Hu0.
  intros Hs Hp Bne. pose proof (first_in B (0, 0, 0)%Z Bne) as Hb. set (b := hd (0, 0, 0)%Z B) in *.
  destruct (find_owner s b p Hs Hb Hp) as [u [Eo [Hu Ha]]].
  destruct (owner_has s b p u Hs Hb Hp Hu Ha) as [Is [Ib Ip]].
  destruct (index_res_total key_dec s (spws u) Is) as [m Hm]. destruct (index_res_total Z.eq_dec p (c_pols u) Ip) as [q Hq].
  pose proof (index_res_ok _ _ _ _ Hm) as Hm'. pose proof (index_res_ok _ _ _ _ Hq) as Hq'.
  destruct (Wf u Hu) as [_ _ _ _ _ [W1 W2]].
  destruct (nth_error_lt (c_scalar u) m) as [r Hr].
  { rewrite W1. apply nth_error_Some_lt in Hm'. unfold CombineModel.spws in Hm'. rewrite map_length in Hm'. exact Hm'. }
  destruct (nth_error_lt r q) as [x Hx]. { rewrite (W2 r (nth_error_In _ _ Hr)). eapply nth_error_Some_lt; exact Hq'. }
  exists u, x. split; [exact Hu|]. split; [exact Ha|]. split; [exists m, q, r; auto|].
  unfold scalar_entry. rewrite Eo. cbn [bind]. rewrite Hm. cbn [bind]. rewrite Hq. cbn [bind]. unfold nth_res. rewrite Hr. cbn [bind]. rewrite Hx. reflexivity.
Qed.
End Sound.
