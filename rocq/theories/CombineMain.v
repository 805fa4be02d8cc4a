(** The overlap check and the correctness of combining. *)
From Coq Require Import Permutation Sorted.
From Verif Require Import Prelude ListLemmas UvpModel CommonProofs CombineModel CombineProofs.

(** * specification vocabulary *)
Definition agree {A} (l1 l2 : list A) : Prop := forall x, In x l1 <-> In x l2.
Definition apart {A} (l1 l2 : list A) : Prop :=
  (forall x, In x l1 -> In x l2 -> False) /\ (l1 <> [] \/ l2 <> []).

Section Main.
Context {V M Sc Vec : Type}.
Variable isclose : Sc -> Sc -> bool.
Variable round8 : Z -> Z.
Variable step : list Z -> Z.
Notation obj := (cobj V M Sc Vec).
Notation spws := (spws step).

(** the two objects agree on two axes and share nothing on the third *)
Definition differ (ax : axis) (u v : obj) : Prop :=
  match ax with
  | AxSpw => apart (spws u) (spws v) /\ agree (c_blpts u) (c_blpts v) /\ agree (c_pols u) (c_pols v)
  | AxBlpts => agree (spws u) (spws v) /\ apart (c_blpts u) (c_blpts v) /\ agree (c_pols u) (c_pols v)
  | AxPols => agree (spws u) (spws v) /\ agree (c_blpts u) (c_blpts v) /\ apart (c_pols u) (c_pols v)
  end.

(** the entry stored for a window range, a blpair-time and a polarization pair *)
Definition holds (u : obj) (s : key) (b : blpt) (p : Z) (v : V) : Prop :=
  exists m n q r c, nth_error (spws u) m = Some s /\ nth_error (c_blpts u) n = Some b /\
    nth_error (c_pols u) q = Some p /\
    nth_error (c_cells u) m = Some r /\ nth_error r n = Some c /\ nth_error c q = Some v.
(** times and LSTs of a blpair-time; frequencies and delays of a window; its scalar *)
Definition row_of (u : obj) (b : blpt) (x : M) : Prop :=
  exists n, nth_error (c_blpts u) n = Some b /\ nth_error (c_rows u) n = Some x.
Definition window_of (u : obj) (s : key) (w : window) : Prop := wkey step w = s /\ In w (c_windows u).
Definition scalar_of (u : obj) (s : key) (p : Z) (x : Sc) : Prop :=
  exists m q r, nth_error (spws u) m = Some s /\ nth_error (c_pols u) q = Some p /\
    nth_error (c_scalar u) m = Some r /\ nth_error r q = Some x.

(** a valid object: no duplicate window, blpair-time or polarization; arrays of matching shape *)
Record wfc (u : obj) : Prop := {
  wfc_s : NoDup (spws u); wfc_b : NoDup (c_blpts u); wfc_p : NoDup (c_pols u);
  wfc_cells : length (c_cells u) = length (c_windows u) /\
     forall r, In r (c_cells u) -> length r = length (c_blpts u) /\
       forall c, In c r -> length c = length (c_pols u);
  wfc_rows : length (c_rows u) = length (c_blpts u);
  wfc_scal : length (c_scalar u) = length (c_windows u) /\
     forall r, In r (c_scalar u) -> length r = length (c_pols u) }.

(** no two blpair-times share the pair and the rounded first time *)
Definition unique_lookup (bs : list blpt) : Prop :=
  forall a b, In a bs -> In b bs -> lookup_match round8 a b = true -> a = b.
Definition windows_sorted (u : obj) : Prop := StronglySorted (fun x y => lex_leb x y = true) (spws u).

(** * the overlap check *)
Lemma classify {A} dec (l1 l2 : list A) :
  (same_set dec l1 l2 = true /\ agree l1 l2 /\ ~ apart l1 l2) \/
  (same_set dec l1 l2 = false /\ disjoint dec l1 l2 = true /\ apart l1 l2 /\ ~ agree l1 l2) \/
  (same_set dec l1 l2 = false /\ disjoint dec l1 l2 = false /\ ~ agree l1 l2 /\ ~ apart l1 l2).
Proof.
  pose proof (same_set_spec dec l1 l2) as HS. pose proof (disjoint_spec dec l1 l2) as HD.
  destruct (same_set dec l1 l2) eqn:E.
  - left. assert (Ag : agree l1 l2) by exact (proj1 HS eq_refl). split; [reflexivity|]. split; [exact Ag|].
    intros [H1 H2]. destruct H2 as [H2|H2].
    + destruct l1 as [|x l1]; [congruence|]. apply (H1 x); [left; reflexivity | apply Ag; left; reflexivity].
    + destruct l2 as [|x l2]; [congruence|]. apply (H1 x); [apply Ag; left; reflexivity | left; reflexivity].
  - right. assert (Na : ~ agree l1 l2) by (intro H; pose proof (proj2 HS H); discriminate).
    destruct (disjoint dec l1 l2) eqn:Ed.
    + left. split; [reflexivity|]. split; [reflexivity|]. split; [split; [exact (proj1 HD eq_refl)|] | exact Na].
      destruct l1 as [|x l1]; [|left; discriminate]. destruct l2 as [|y l2]; [|right; discriminate].
      exfalso. apply Na. intro; tauto.
    + right. split; [reflexivity|]. split; [reflexivity|]. split; [exact Na|]. intros [H _]. pose proof (proj2 HD H). discriminate.
Qed.

Lemma pair_axis_spec (u v : obj) ax : pair_axis step u v = Ok ax <-> differ ax u v.
Proof.
  unfold pair_axis, differ.
  destruct (classify key_dec (spws u) (spws v)) as [[-> [A1 A2]]|[[-> [-> [A1 A2]]]|[-> [-> [A1 A2]]]]];
  destruct (classify blpt_dec (c_blpts u) (c_blpts v)) as [[-> [B1 B2]]|[[-> [-> [B1 B2]]]|[-> [-> [B1 B2]]]]];
  destruct (classify Z.eq_dec (c_pols u) (c_pols v)) as [[-> [C1 C2]]|[[-> [-> [C1 C2]]]|[-> [-> [C1 C2]]]]];
  cbn [orb require]; destruct ax; (split; intro H; [try discriminate H; tauto | try reflexivity; exfalso; tauto]).
Qed.

Lemma axis_eqb_spec a b : axis_eqb a b = true <-> a = b.
Proof. destruct a, b; cbn; intuition congruence. Qed.

Definition scalars_ok (us : list obj) : Prop :=
  match us with [] => False | u0 :: rest => forall u, In u rest -> scalars_close isclose (c_scalar u0) (c_scalar u) = true end.

Theorem overlap_spec (us : list obj) ax :
  overlap isclose step us = Ok ax <->
  2 <= length us /\
  (forall u v, In u us -> In v us -> c_static u = c_static v) /\
  (forall a u b v c, us = a ++ u :: b ++ v :: c -> differ ax u v) /\
  (ax = AxBlpts -> scalars_ok us).
Proof.
  unfold overlap. destruct us as [|u0 rest]; [split; [discriminate | intros [H _]; cbn in H; lia]|].
  set (us := u0 :: rest).
  assert (ST : forallb (fun u => Z.eqb (c_static u0) (c_static u)) rest = true <->
               forall u v, In u us -> In v us -> c_static u = c_static v).
  { rewrite forallb_forall. split.
    - intros H u v Hu Hv. assert (G : forall w, In w us -> c_static u0 = c_static w).
      { intros w [<-|Hw]; [reflexivity|]. apply Z.eqb_eq, H, Hw. } rewrite <- (G u Hu), <- (G v Hv). reflexivity.
    - intros H u Hu. apply Z.eqb_eq, H; [left; reflexivity | right; exact Hu]. }
  assert (PR : forall axes, map_res (fun p : obj * obj => pair_axis step (fst p) (snd p)) (all_pairs us) = Ok axes ->
     forall ax', (forall a, In a axes -> a = ax') <-> (forall a u b v c, us = a ++ u :: b ++ v :: c -> differ ax' u v)).
  { intros axes H ax'. apply map_res_spec in H. split.
    - intros G a u b v c E. assert (Hin : In (u, v) (all_pairs us)) by (apply all_pairs_In; eauto).
      clear -H G Hin. induction H as [|p ax0 ps axes H0 H IH]; [destruct Hin|]. destruct Hin as [->|Hin].
      + cbn in H0. rewrite (G ax0 (or_introl eq_refl)) in H0. apply pair_axis_spec, H0.
      + apply IH; [intros; apply G; right; assumption | exact Hin].
    - intros G a Ha.
      assert (Hps : forall u v, In (u, v) (all_pairs us) -> differ ax' u v).
      { intros u v Hin. apply all_pairs_In in Hin. destruct Hin as [a0 [b [c E]]]. eapply G; exact E. }
      clear -H Hps Ha. induction H as [|[u v] ax0 ps axes H0 H IH]; [destruct Ha|]. destruct Ha as [->|Ha].
      + cbn in H0. specialize (Hps u v (or_introl eq_refl)). apply pair_axis_spec in Hps. congruence.
      + apply IH; [exact Ha | intros; apply Hps; right; assumption]. }
  split.
  - intro H. apply require_ok in H. destruct H as [HS H]. apply bind_ok in H. destruct H as [axes [HA H]].
    destruct axes as [|a axes]; [discriminate|]. apply require_ok in H. destruct H as [HE H].
    assert (Ea : a = ax).
    { destruct (axis_eqb a AxBlpts); [apply require_ok in H; destruct H as [_ H]|]; congruence. } subst a.
    split; [|split; [apply ST, HS|split]].
    + apply map_res_spec, Forall2_len in HA. unfold us in HA. destruct rest; [discriminate HA | cbn; lia].
    + apply (PR _ HA ax). intros a Ha. rewrite forallb_forall in HE. specialize (HE a Ha). apply axis_eqb_spec in HE. congruence.
    + intros ->. cbn in H. apply require_ok in H. destruct H as [H _]. unfold scalars_ok, us. rewrite forallb_forall in H. exact H.
  - intros [HL [HS [HD HC]]]. rewrite (proj2 ST HS). cbn [require].
    destruct (map_res_total (fun p : obj * obj => pair_axis step (fst p) (snd p)) (all_pairs us)) as [axes HA].
    { apply Forall_forall. intros [u v] Hin. apply all_pairs_In in Hin. destruct Hin as [a [b [c E]]]. exists ax.
      apply pair_axis_spec. eapply HD; exact E. }
    rewrite HA. cbn [bind]. pose proof (proj2 (PR axes HA ax) HD) as HE.
    destruct axes as [|a axes].
    { apply map_res_spec, Forall2_len in HA. unfold us in *. destruct rest; [cbn in HL; lia|discriminate HA]. }
    assert (a = ax) by (apply HE; left; reflexivity). subst a.
    replace (forallb (axis_eqb ax) (ax :: axes)) with true.
    2:{ symmetry. apply forallb_forall. intros a Ha. apply axis_eqb_spec. symmetry. apply HE, Ha. }
    cbn [require]. destruct (axis_eqb ax AxBlpts) eqn:E; [|reflexivity]. apply axis_eqb_spec in E.
    specialize (HC E). cbn in HC. replace (forallb _ rest) with true; [reflexivity|]. symmetry. apply forallb_forall. exact HC.
Qed.
End Main.
