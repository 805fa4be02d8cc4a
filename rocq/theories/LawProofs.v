(** Proofs of the laws about two selections. *)
From Coq Require Import QArith Qabs Sorted Permutation.
From Verif Require Import PyDict.
From Verif Require Import Prelude ListLemmas UvpModel UvpSpec UvpProofs SelectProofs SelectMain LawModel.
Open Scope nat_scope.

(** * composition of index lists *)
Lemma picks_comp {A} R1 R2 R3 (l l1 l2 : list A) : picks R1 l l1 -> picks R2 l1 l2 -> picks R2 R1 R3 -> picks R3 l l2.
Proof.
  intros H1 H2 H3. revert l2 H2. induction H3 as [|j i R2 R3 Hj H3 IH]; intros l2 H2; inversion H2; subst; constructor.
  - pose proof (picks_nth _ _ _ j i H1 Hj). congruence.
  - apply IH. assumption.
Qed.
Lemma sorted_nth (l : list nat) i j x y : StronglySorted lt l -> nth_error l i = Some x -> nth_error l j = Some y -> i < j -> x < y.
Proof.
  intros S. revert i j. induction S as [|a l S IH F]; intros [|i] [|j] Hx Hy L; try lia; try discriminate.
  - injection Hx as <-. rewrite Forall_forall in F. apply F. eapply nth_error_In; exact Hy.
  - apply (IH i j Hx Hy). lia.
Qed.
Lemma comp_sorted R1 R2 R3 : StronglySorted lt R1 -> StronglySorted lt R2 -> picks R2 R1 R3 -> StronglySorted lt R3.
Proof.
  intros S1 S2 H. induction H as [|j i R2 R3 Hj H IH]; constructor.
  - apply IH. inversion S2; assumption.
  - inversion S2 as [|? ? S2' F]; subst. apply Forall_forall. intros x Hx. apply (picks_In _ _ _ _ H) in Hx. destruct Hx as [k [Hk Ek]].
    rewrite Forall_forall in F. eapply sorted_nth; [exact S1|exact Hj|exact Ek|apply F, Hk].
Qed.
(** rows [R] and columns [P] *)
Definition sub2 {A} (R P : list nat) (a a' : list (list A)) : Prop := exists rows, picks R a rows /\ Forall2 (fun r r' => picks P r r') rows a'.
Lemma sub2_fun {A} R P (a x y : list (list A)) : sub2 R P a x -> sub2 R P a y -> x = y.
Proof.
  intros [r [H1 H2]] [r' [H3 H4]]. assert (r' = r) by (eapply picks_fun; eassumption). subst r'. clear -H2 H4. revert y H4.
  induction H2 as [|u v r x Huv H2 IH]; intros y H4; inversion H4; subst; [reflexivity|]. f_equal; [eapply picks_fun; eassumption|apply IH; assumption].
Qed.
Lemma F2_picks {A B} (Q : A -> B -> Prop) R l l' r : Forall2 Q l l' -> picks R l r -> exists r', picks R l' r' /\ Forall2 Q r r'.
Proof.
  intros F H. induction H as [|i x R r Hi H IH]; [exists []; split; constructor|]. destruct IH as [r' [I1 I2]].
  assert (exists y, nth_error l' i = Some y /\ Q x y) as [y [Hy Hq]].
  { clear -F Hi. revert i Hi. induction F as [|a b l l' Hab F IH]; intros [|i] Hi; try discriminate; [injection Hi as <-; exists b; split; [reflexivity|assumption]|apply IH, Hi]. }
  exists (y :: r'). split; constructor; assumption.
Qed.
Lemma sub2_comp {A} R1 R2 R3 P1 P2 P3 (a a1 a2 : list (list A)) :
  sub2 R1 P1 a a1 -> sub2 R2 P2 a1 a2 -> picks R2 R1 R3 -> picks P2 P1 P3 -> sub2 R3 P3 a a2.
Proof.
  intros [r1 [H1 H2]] [r2 [H3 H4]] HR HP.
  assert (T : exists r', picks R2 r1 r').
  { assert (F2' : Forall2 (fun x y => picks P1 y x) a1 r1) by (clear -H2; induction H2; constructor; auto).
    destruct (F2_picks _ _ _ _ _ F2' H3) as [r' [I _]]. eauto. }
  destruct T as [r' Hr']. destruct (F2_picks _ _ _ _ _ H2 Hr') as [r2' [I1 I2]].
  assert (r2' = r2) by (eapply picks_fun; eassumption). subst r2'.
  exists r'. split; [eapply picks_comp; eassumption|]. clear -I2 H4 HP. revert a2 H4.
  induction I2 as [|x y r' r2 Hxy I2 IH]; intros a2 H4; inversion H4; subst; constructor; [eapply picks_comp; eassumption|apply IH; assumption].
Qed.
Lemma F2_gather {A} P (rows a' : list (list A)) : Forall2 (fun r r' => gather r P = Ok r') rows a' <-> Forall2 (fun r r' => picks P r r') rows a'.
Proof. split; intros H; induction H; constructor; auto; apply gather_spec; assumption. Qed.
Lemma sub_array_sub2 {X} R P (a a' : arr X) : sub_array R P a a' <-> sub2 R P a a'.
Proof.
  unfold sub_array, sub2. split; intros [rows [H1 H2]]; exists rows.
  - split; [apply gather_spec, H1|apply F2_gather, H2].
  - split; [apply gather_spec, H1|apply F2_gather, H2].
Qed.
Lemma sub2_seq_l {A} P (a a' : list (list A)) : sub2 (seq 0 (length a)) P a a' <-> Forall2 (fun r r' => picks P r r') a a'.
Proof.
  split; [intros [rows [H1 H2]]; assert (rows = a) by (eapply picks_fun; [exact H1|apply picks_seq]); subst; exact H2|].
  intros H. exists a. split; [apply picks_seq|exact H].
Qed.
Lemma combine_inj {A B} (a c : list A) (b d : list B) : length b = length a -> length d = length c -> combine a b = combine c d -> a = c /\ b = d.
Proof.
  revert b c d. induction a as [|x a IH]; intros [|y b] [|z c] [|w d] L1 L2 E; cbn in *; try discriminate; [split; reflexivity|].
  injection E as -> -> E. destruct (IH b c d) as [-> ->]; [lia|lia|exact E|]. split; reflexivity.
Qed.

Section S.
Context {X : Type}.
Notation uvp := (uvp X).

(** the conditions on one row and one polarization pair *)
Definition row_ok (a : select_args) (b : Z) (t l : Q) : Prop :=
  ((a_bls a = None /\ a_blpairs a = None) \/
     (exists bls, a_bls a = Some bls /\
        if a_only_pairs_in_bls a then In (b / 1000000)%Z bls /\ In (b mod 1000000)%Z bls
        else In (b / 1000000)%Z bls \/ In (b mod 1000000)%Z bls) \/
     (exists bps, a_blpairs a = Some bps /\ In b bps)) /\
    (forall ts, a_times a = Some ts -> exists t', In t' ts /\ close t t') /\
    (forall ts, a_lsts a = Some ts -> exists l', In l' ts /\ close l l').
Definition pol_ok (a : select_args) (p : Z) : Prop := match a_polpairs a with None => True | Some pols => In p pols end.
Lemma row_wanted_ok (u : uvp) a i : row_wanted u a i <-> exists b t l,
    nth_error (u_blpair_array u) i = Some b /\ nth_error (u_time_avg_array u) i = Some t /\ nth_error (u_lst_avg_array u) i = Some l /\ row_ok a b t l.
Proof. unfold row_wanted, row_ok. reflexivity. Qed.

(** [c] asks for what both [a] and [b] ask for *)
Record conj_args (a b c : select_args) : Prop := {
  ca_row : forall x t l, row_ok c x t l <-> row_ok a x t l /\ row_ok b x t l;
  ca_pol : forall p, pol_ok c p <-> pol_ok a p /\ pol_ok b p;
  ca_spw : (a_spws b = None /\ a_spws c = a_spws a) \/ (a_spws a = None /\ a_spws c = a_spws b);
  ca_none : no_row_args c <-> no_row_args a /\ no_row_args b }.

(** baselines and their vectors stay together *)
Lemma select_bl_vecs (u : uvp) a u' : wf u -> select u a = Ok u' ->
  (no_row_args a /\ u_bl_array u' = u_bl_array u /\ u_bl_vecs u' = u_bl_vecs u) \/
  (~ no_row_args a /\ combine (u_bl_array u') (u_bl_vecs u') =
     filter (fun bv => existsb (fun b => (fst bv =? b / 1000000)%Z || (fst bv =? b mod 1000000)%Z) (u_blpair_array u')) (combine (u_bl_array u) (u_bl_vecs u))).
Proof.
  intros W H. unfold select, _select in H.
  destruct (match a_spws a with None => Ok (u, u_spw_array u) | Some spws => select_spws u spws end) as [[u1 mapping]|] eqn:E1; [|discriminate].
  assert (S1 := stage1 u u1 a mapping W E1). assert (RL := row_lens_stage1 u u1 a mapping W S1).
  assert (B1 : u_bl_array u1 = u_bl_array u /\ u_bl_vecs u1 = u_bl_vecs u).
  { pose proof (ss_rest _ _ _ _ S1) as R. destruct R; split; assumption. }
  destruct B1 as [B1 B2].
  destruct (bind (row_mask u1 a) (select_rows_meta u1)) as [[u2 rs]|] eqn:E2; [|discriminate].
  destruct (select_pols_meta u2 (a_polpairs a)) as [[u3 ps]|] eqn:E3; [|discriminate].
  destruct (select_data u3 mapping rs ps) as [u4|] eqn:E4; [|discriminate]. injection H as <-.
  assert (B34 : u_bl_array u4 = u_bl_array u2 /\ u_bl_vecs u4 = u_bl_vecs u2 /\ u_blpair_array u4 = u_blpair_array u2).
  { unfold select_data in E4. repeat (apply bind_ok in E4; destruct E4 as [? [_ E4]]). injection E4 as <-. cbn.
    unfold select_pols_meta in E3. destruct (a_polpairs a) as [[|p0 pl]|]; [discriminate| |injection E3 as <- _; repeat split].
    repeat (apply bind_ok in E3; destruct E3 as [? [_ E3]]). injection E3 as <- _. repeat split. }
  destruct B34 as [-> [-> ->]].
  apply bind_ok in E2. destruct E2 as [m [Em E2]]. pose proof (row_mask_spec u1 a m RL Em) as M. unfold select_rows_meta in E2. destruct m as [m|].
  - right. split; [apply M|]. apply require_ok in E2. destruct E2 as [_ E2]. repeat (apply bind_ok in E2; destruct E2 as [? [_ E2]]).
    injection E2 as <- _. cbn. rewrite B1, B2.
    match goal with |- context [flat_map _ ?l] => set (ba := l) end.
    pose proof (wf_bl u W) as L. revert L. generalize (u_bl_array u) (u_bl_vecs u).
    induction l as [|zz l IH]; intros [|y q] L; cbn in *; try discriminate; [reflexivity|].
    assert (EQ : memZ zz (flat_map (fun b => [(b / 1000000)%Z; (b mod 1000000)%Z]) ba) = existsb (fun b => (zz =? b / 1000000)%Z || (zz =? b mod 1000000)%Z) ba).
    { clear. induction ba as [|b ba IH]; [reflexivity|]. cbn. unfold memZ in IH. rewrite IH. destruct (zz =? b / 1000000)%Z; reflexivity. }
    rewrite EQ. destruct (existsb _ ba); cbn; rewrite IH by lia; reflexivity.
  - left. injection E2 as <- _. repeat split; try assumption; apply M.
Qed.

Lemma select_opts (u : uvp) a u' : wf u -> select u a = Ok u' ->
  exists ss rs ps, select_dict (u_data u) rs ps ss = Ok (u_data u') /\ select_dict (u_wgt u) rs ps ss = Ok (u_wgt u') /\
    select_dict (u_integration u) rs ps ss = Ok (u_integration u') /\ select_dict (u_nsample u) rs ps ss = Ok (u_nsample u') /\
    select_opt (u_cov u) rs ps ss = Ok (u_cov u') /\ select_opt (u_window u) rs ps ss = Ok (u_window u') /\ select_opt (u_stats u) rs ps ss = Ok (u_stats u').
Proof.
  intros W H. unfold select, _select in H.
  destruct (match a_spws a with None => Ok (u, u_spw_array u) | Some spws => select_spws u spws end) as [[u1 mapping]|] eqn:E1; [|discriminate].
  destruct (bind (row_mask u1 a) (select_rows_meta u1)) as [[u2 rs]|] eqn:E2; [|discriminate].
  destruct (select_pols_meta u2 (a_polpairs a)) as [[u3 ps]|] eqn:E3; [|discriminate].
  destruct (select_data u3 mapping rs ps) as [u4|] eqn:E4; [|discriminate]. injection H as <-.
  assert (D1 : u_data u1 = u_data u /\ u_wgt u1 = u_wgt u /\ u_integration u1 = u_integration u /\ u_nsample u1 = u_nsample u /\ u_cov u1 = u_cov u /\ u_window u1 = u_window u /\ u_stats u1 = u_stats u).
  { destruct (a_spws a); [|injection E1 as <- _; repeat split]. unfold select_spws in E1.
    repeat (apply bind_ok in E1; destruct E1 as [? [_ E1]]). destruct x8 as [[? ?] ?]. injection E1 as <- _. repeat split. }
  assert (D2 : u_data u2 = u_data u1 /\ u_wgt u2 = u_wgt u1 /\ u_integration u2 = u_integration u1 /\ u_nsample u2 = u_nsample u1 /\ u_cov u2 = u_cov u1 /\ u_window u2 = u_window u1 /\ u_stats u2 = u_stats u1).
  { apply bind_ok in E2. destruct E2 as [m [_ E2]]. unfold select_rows_meta in E2. destruct m; [|injection E2 as <- _; repeat split].
    apply require_ok in E2. destruct E2 as [_ E2]. repeat (apply bind_ok in E2; destruct E2 as [? [_ E2]]). injection E2 as <- _. repeat split. }
  assert (D3 : u_data u3 = u_data u2 /\ u_wgt u3 = u_wgt u2 /\ u_integration u3 = u_integration u2 /\ u_nsample u3 = u_nsample u2 /\ u_cov u3 = u_cov u2 /\ u_window u3 = u_window u2 /\ u_stats u3 = u_stats u2).
  { unfold select_pols_meta in E3. destruct (a_polpairs a) as [[|p0 pl]|]; [discriminate| |injection E3 as <- _; repeat split].
    repeat (apply bind_ok in E3; destruct E3 as [? [_ E3]]). injection E3 as <- _. repeat split. }
  destruct D1 as (A1 & A2 & A3 & A4 & A5 & A6 & A7). destruct D2 as (B1 & B2 & B3 & B4 & B5 & B6 & B7). destruct D3 as (C1 & C2 & C3 & C4 & C5 & C6 & C7).
  unfold select_data in E4. exists (combine (u_spw_array u3) mapping), rs, ps.
  repeat (apply bind_ok in E4; let x := fresh "v" in let e := fresh "F" in destruct E4 as [x [e E4]]). injection E4 as <-. cbn.
  rewrite C1, B1, A1 in F. rewrite C2, B2, A2 in F0. rewrite C3, B3, A3 in F1. rewrite C4, B4, A4 in F2. rewrite C5, B5, A5 in F3. rewrite C6, B6, A6 in F4. rewrite C7, B7, A7 in F5.
  repeat split; assumption.
Qed.
(** the optional dictionaries stay present or absent *)
Definition same_shape (d d' : option (list (nat * arr X))) : Prop := match d, d' with Some _, Some _ => True | None, None => True | _, _ => False end.
Lemma select_shapes (u : uvp) a u' : wf u -> select u a = Ok u' ->
  same_shape (u_cov u) (u_cov u') /\ same_shape (u_window u) (u_window u') /\ same_shape (u_stats u) (u_stats u').
Proof.
  intros W H. destruct (select_opts u a u' W H) as (ss & rs & ps & _ & _ & _ & _ & H1 & H2 & H3).
  assert (G : forall d d', select_opt d rs ps ss = Ok d' -> same_shape d d').
  { intros [d|] d' E; cbn in E; [apply bind_ok in E; destruct E as [x [_ E]]; injection E as <-|injection E as <-]; exact I. }
  repeat split; apply G; assumption.
Qed.
Lemma dicts_split (P : list (nat * arr X) -> list (nat * arr X) -> Prop) (u v : uvp) :
  same_shape (u_cov u) (u_cov v) -> same_shape (u_window u) (u_window v) -> same_shape (u_stats u) (u_stats v) ->
  (Forall2 P (dicts u) (dicts v) <->
   P (u_data u) (u_data v) /\ P (u_wgt u) (u_wgt v) /\ P (u_integration u) (u_integration v) /\ P (u_nsample u) (u_nsample v) /\
   (forall x y, u_cov u = Some x -> u_cov v = Some y -> P x y) /\ (forall x y, u_window u = Some x -> u_window v = Some y -> P x y) /\
   (forall x y, u_stats u = Some x -> u_stats v = Some y -> P x y)).
Proof.
  unfold dicts, same_shape. intros S1 S2 S3. destruct (u_cov u), (u_cov v); try contradiction; destruct (u_window u), (u_window v); try contradiction; destruct (u_stats u), (u_stats v); try contradiction; cbn;
  (split; [intros F; repeat match goal with H : Forall2 _ (_ :: _) _ |- _ => inversion H; subst; clear H end; repeat split; try assumption; intros ? ? E1 E2; try discriminate; injection E1 as <-; injection E2 as <-; assumption
          |intros (A1 & A2 & A3 & A4 & A5 & A6 & A7); repeat constructor; auto]).
Qed.
End S.
