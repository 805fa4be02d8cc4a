(** The combined object. *)
From Coq Require Import Permutation Sorted.
From Verif Require Import Prelude ListLemmas UvpModel CommonProofs CombineModel CombineProofs CombineMain CombineSound.

Lemma nth_error_ext' {A} (l1 l2 : list A) : (forall i, nth_error l1 i = nth_error l2 i) -> l1 = l2.
Proof.
  revert l2; induction l1 as [|x l1 IH]; intros [|y l2] H; [reflexivity | discriminate (H 0) | discriminate (H 0)|].
  pose proof (H 0) as H0. injection H0 as ->. f_equal. apply IH. intro i. apply (H (S i)).
Qed.

Section Obj.
Context {V M Sc Vec : Type}.
Variable isclose : Sc -> Sc -> bool.
Variable round8 : Z -> Z.
Variable step : list Z -> Z.
Notation obj := (cobj V M Sc Vec).

Definition nonempty (u : obj) : Prop := c_windows u <> [] /\ c_blpts u <> [] /\ c_pols u <> [].
(** rows in the same order and unambiguous when windows or polarizations are concatenated;
    windows in increasing order when they are copied from the first object *)
Definition aligned (ax : axis) (us : list obj) : Prop :=
  forall u0, hd_error us = Some u0 ->
  (ax <> AxBlpts -> (forall u, In u us -> c_blpts u = c_blpts u0) /\ unique_lookup round8 (c_blpts u0)) /\
  (ax <> AxSpw -> windows_sorted step u0).

Lemma bls_total (us : list obj) : exists bls, new_bls us = Ok bls.
Proof.
  unfold new_bls. apply map_res_total. apply Forall_forall. intros bl Hbl. apply sorted_set_In in Hbl.
  apply in_concat in Hbl. destruct Hbl as [l [Hl Hbl]]. apply in_map_iff in Hl. destruct Hl as [u [<- Hu]].
  unfold owner_of. destruct (find (fun u0 => mem Z.eq_dec bl (map fst (c_bls u0))) us) as [v|] eqn:E.
  - apply find_some in E. destruct E as [Hv Hm]. apply mem_In in Hm. cbn [bind].
    destruct (index_res_total Z.eq_dec bl _ Hm) as [h Hh]. rewrite Hh. cbn [bind]. apply index_res_ok in Hh.
    rewrite nth_error_map in Hh. unfold nth_res. destruct (nth_error (c_bls v) h); [eauto|discriminate].
  - pose proof (find_none _ _ E u Hu) as F. cbn in F. apply mem_false in F. contradiction.
Qed.

Theorem combine_spec (us : list obj) ax rp :
  overlap isclose step us = Ok ax -> (forall u, In u us -> wfc step u /\ nonempty u) -> aligned ax us ->
  merge_rparams (map c_rparams us) = Ok rp ->
  exists u', combine_objs isclose round8 step us = Ok u' /\ wfc step u' /\ nonempty u' /\
    spws step u' = sorted_set key_dec lex_leb (concat (map (spws step) us)) /\
    c_blpts u' = sorted_set blpt_dec blpt_leb (concat (map c_blpts us)) /\
    c_pols u' = sorted_set Z.eq_dec abs_leb (concat (map c_pols us)) /\
    (forall s b p v, holds step u' s b p v <-> exists u, In u us /\ holds step u s b p v) /\
    (forall b x, row_of u' b x -> exists u, In u us /\ (ax <> AxBlpts -> hd_error us = Some u) /\ row_of u b x) /\
    (forall s w, window_of step u' s w -> exists u, In u us /\ window_of step u s w) /\
    (forall s p x, scalar_of step u' s p x -> exists u, In u us /\ scalar_of step u s p x /\ In s (spws step u) /\ In p (c_pols u)) /\
    (forall u0, hd_error us = Some u0 -> c_static u' = c_static u0 /\ (ax <> AxSpw -> c_windows u' = c_windows u0)) /\
    c_rparams u' = rp /\
    (ax = AxBlpts -> exists u, In u us /\ In (hd (0, 0, 0)%Z (c_blpts u')) (c_blpts u) /\
       forall s p x, scalar_of step u' s p x -> scalar_of step u s p x) /\
    new_bls us = Ok (c_bls u').
Proof.
  intros HO HW HA HR. pose proof (proj1 (overlap_spec isclose step us ax) HO) as [HL [_ [HD _]]].
  destruct us as [|u0 [|u1 rest]]; try (cbn in HL; lia). clear HL. set (us := u0 :: u1 :: rest) in *.
  assert (Hu0 : hd_error us = Some u0) by reflexivity.
  assert (Wf : forall u, In u us -> wfc step u) by (intros u Hu; apply HW, Hu).
  specialize (HA u0 Hu0). fold (same_rows us u0) in HA.
  set (S := sorted_set key_dec lex_leb (concat (map (spws step) us))).
  set (B := sorted_set blpt_dec blpt_leb (concat (map c_blpts us))).
  set (P := sorted_set Z.eq_dec abs_leb (concat (map c_pols us))).
  assert (U0 : In u0 us) by (left; reflexivity).
  destruct (HW u0 U0) as [_ [Ne1 [Ne2 Ne3]]].
  assert (Sne : S <> []).
  { intro E. destruct (c_windows u0) as [|w l] eqn:Ew; [congruence|]. assert (In (wkey step w) S).
    { apply (in_S step us). exists u0. split; [exact U0|]. unfold spws. rewrite Ew. left; reflexivity. } rewrite E in H. destruct H. }
  assert (Bne : B <> []).
  { intro E. destruct (c_blpts u0) as [|w l] eqn:Ew; [congruence|]. assert (In w B).
    { apply (in_B us). exists u0. split; [exact U0|]. rewrite Ew. left; reflexivity. } rewrite E in H. destruct H. }
  assert (Pne : P <> []).
  { intro E. destruct (c_pols u0) as [|w l] eqn:Ew; [congruence|]. assert (In w P).
    { apply (in_P us). exists u0. split; [exact U0|]. rewrite Ew. left; reflexivity. } rewrite E in H. destruct H. }
  (* cells *)
  assert (HE : forall s j b p, In s S -> nth_error B j = Some b -> In p P ->
     exists u v, In u us /\ holds step u s b p v /\ on_axis step ax s b p u /\ entry round8 step ax us B s j b p = Ok v)
    by (intros; eapply (entry_ok round8 step us u0 ax); eassumption).
  destruct (map_res_total (fun s => map_res (fun jb : nat * blpt => map_res (entry round8 step ax us B s (fst jb) (snd jb)) P) (indexed B)) S) as [cells HC].
  { apply Forall_forall. intros s Hs. apply map_res_total. apply Forall_forall. intros [j b] Hjb. cbn [fst snd]. apply indexed_In in Hjb.
    apply map_res_total. apply Forall_forall. intros p Hp. destruct (HE s j b p Hs Hjb Hp) as [u [v [_ [_ [_ E]]]]]. eauto. }
  destruct (map_res_total (fun s => map_res (scalar_entry step ax us (hd (0, 0, 0)%Z B) s) P) S) as [scal HSc].
  { apply Forall_forall. intros s Hs. apply map_res_total. apply Forall_forall. intros p Hp.
    destruct (scalar_ok round8 step us u0 ax Hu0 Wf HD HA s p Hs Hp Bne) as [u [x [_ [_ [_ E]]]]]. eauto. }
  destruct (map_res_total (fun jb : nat * blpt => row_entry round8 step ax us u0 B (hd [] S) (hd 0%Z P) (fst jb) (snd jb)) (indexed B)) as [rows HRo].
  { apply Forall_forall. intros [j b] Hjb. apply indexed_In in Hjb.
    destruct (row_ok round8 step us u0 ax Hu0 Wf HD HA j b Sne Pne Hjb) as [x [E _]]. eauto. }
  destruct (windows_ok round8 step us u0 ax Hu0 Wf HD HA) as [ws [HWs [EWs HWin]]]. fold S in EWs, HWs.
  destruct (bls_total us) as [bls Hbls].
  assert (ERows : map fst rows = B).
  { apply nth_error_ext'. intro j. rewrite nth_error_map. destruct (nth_error B j) as [b|] eqn:Ej.
    - destruct (map_res_nth _ _ _ j (j, b) HRo (indexed_nth B j b Ej)) as [y [Hy Ey]]. cbn [fst snd] in Ey.
      destruct (row_ok round8 step us u0 ax Hu0 Wf HD HA j b Sne Pne Ej) as [x [E _]]. rewrite Hy. cbn.
      fold S P B in E. rewrite E in Ey. injection Ey as <-. reflexivity.
    - destruct (nth_error rows j) eqn:E; [|reflexivity]. apply nth_error_Some_lt in E. rewrite (map_res_len _ _ _ HRo), indexed_length in E.
      apply nth_error_None in Ej. lia. }
  set (u' := mkc ws (map fst rows) P cells (map snd rows) scal bls rp (c_static u0)).
  exists u'. split.
  { unfold combine_objs, us at 1. fold us. rewrite HO. cbn [bind]. unfold us at 1. fold us. fold S B P. rewrite HR. cbn [bind]. rewrite HC. cbn [bind].
    rewrite HSc. cbn [bind]. rewrite HRo. cbn [bind]. rewrite HWs. cbn [bind]. rewrite Hbls. reflexivity. }
  assert (ES : spws step u' = S) by exact EWs.
  assert (Lrows : length rows = length B) by (rewrite <- ERows, map_length; reflexivity).
  assert (W' : wfc step u').
  { split.
    - rewrite ES. apply sorted_set_NoDup.
    - cbn. rewrite ERows. apply sorted_set_NoDup.
    - cbn. apply sorted_set_NoDup.
    - cbn. split; [rewrite (map_res_len _ _ _ HC), <- EWs, map_length; reflexivity|].
      intros r Hr. apply In_nth_error in Hr. destruct Hr as [i Hr]. destruct (map_res_nth_r _ _ _ _ _ HC Hr) as [s [_ E]].
      split; [rewrite (map_res_len _ _ _ E), indexed_length, map_length; congruence|].
      intros c Hc. apply In_nth_error in Hc. destruct Hc as [j Hc]. destruct (map_res_nth_r _ _ _ _ _ E Hc) as [jb [_ E2]].
      apply (map_res_len _ _ _ E2).
    - cbn. rewrite !map_length. reflexivity.
    - cbn. split; [rewrite (map_res_len _ _ _ HSc), <- EWs, map_length; reflexivity|].
      intros r Hr. apply In_nth_error in Hr. destruct Hr as [i Hr]. destruct (map_res_nth_r _ _ _ _ _ HSc Hr) as [s [_ E]].
      apply (map_res_len _ _ _ E). }
  split; [exact W'|]. split.
  { repeat split; cbn; [|rewrite ERows; exact Bne | exact Pne]. intro E. rewrite E in EWs. cbn in EWs. apply Sne. symmetry. exact EWs. }
  split; [exact ES|]. split; [exact ERows|]. split; [reflexivity|]. split; [|split; [|split; [|split; [|split; [|split; [|split]]]]]].
  - intros s b p v.
    assert (HI : In s S -> forall j, nth_error B j = Some b -> In p P ->
       (entry round8 step ax us B s j b p = Ok v <-> exists u, In u us /\ holds step u s b p v))
      by (intros; eapply (entry_iff round8 step us u0 ax); eassumption).
    split.
    + intros (m & n & q & r & c & H1 & H2 & H3 & H4 & H5 & H6). rewrite ES in H1. cbn in H2, H3, H4. rewrite ERows in H2.
      apply (HI (nth_error_In _ _ H1) n H2 (nth_error_In _ _ H3)).
      destruct (map_res_nth _ _ _ m s HC H1) as [r' [Hr' E1]]. rewrite H4 in Hr'. injection Hr' as <-.
      destruct (map_res_nth _ _ _ n (n, b) E1 (indexed_nth B n b H2)) as [c' [Hc' E2]]. rewrite H5 in Hc'. injection Hc' as <-.
      destruct (map_res_nth _ _ _ q p E2 H3) as [v' [Hv' E3]]. cbn [fst snd] in E3. congruence.
    + intros [u [Hu Hh]]. destruct (holds_in step u s b p v Hh) as [Is [Ib Ip]].
      assert (Hs : In s S) by (apply (in_S step us); eauto). assert (Hb : In b B) by (apply (in_B us); eauto). assert (Hp : In p P) by (apply (in_P us); eauto).
      apply In_nth_error in Hs as Hs'. destruct Hs' as [m Hm]. apply In_nth_error in Hb as Hb'. destruct Hb' as [n Hn]. apply In_nth_error in Hp as Hp'. destruct Hp' as [q Hq].
      pose proof (proj2 (HI Hs n Hn Hp) (ex_intro _ u (conj Hu Hh))) as Ee.
      destruct (map_res_nth _ _ _ m s HC Hm) as [r [Hr E1]].
      destruct (map_res_nth _ _ _ n (n, b) E1 (indexed_nth B n b Hn)) as [c [Hc E2]].
      destruct (map_res_nth _ _ _ q p E2 Hq) as [v' [Hv' E3]]. cbn [fst snd] in E3.
      exists m, n, q, r, c. rewrite ES. cbn. rewrite ERows. repeat split; try assumption. congruence.
  - intros b x [n [H1 H2]]. cbn in H1, H2. rewrite ERows in H1. rewrite nth_error_map in H2.
    destruct (nth_error rows n) as [y|] eqn:Ey; [|discriminate]. cbn in H2. injection H2 as <-.
    destruct (map_res_nth _ _ _ n (n, b) HRo (indexed_nth B n b H1)) as [y' [Hy' E]]. cbn [fst snd] in E.
    destruct (row_ok round8 step us u0 ax Hu0 Wf HD HA n b Sne Pne H1) as [x [E' [u [Hu [H0 Hrow]]]]]. fold S P B in E'.
    exists u. split; [exact Hu|]. split; [intro N; rewrite (H0 N); reflexivity|]. replace (snd y) with x; [exact Hrow|].
    assert (y' = y) by congruence. subst y'. rewrite E' in E. injection E as <-. reflexivity.
  - intros s w [E Hw]. cbn in Hw. destruct (HWin w Hw) as [u [Hu Hw']]. exists u. split; [exact Hu|]. split; assumption.
  - intros s p x (m & q & r & H1 & H2 & H3 & H4). rewrite ES in H1. cbn in H2, H3.
    destruct (map_res_nth _ _ _ m s HSc H1) as [r' [Hr' E1]]. rewrite H3 in Hr'. injection Hr' as <-.
    destruct (map_res_nth _ _ _ q p E1 H2) as [x' [Hx' E2]]. assert (x' = x) by congruence. subst x'.
    destruct (scalar_ok round8 step us u0 ax Hu0 Wf HD HA s p (nth_error_In _ _ H1) (nth_error_In _ _ H2) Bne) as [u [y [Hu [_ [Hs E]]]]].
    exists u. split; [exact Hu|]. fold B in E. rewrite E2 in E. injection E as <-. split; [exact Hs|].
    destruct Hs as (m' & q' & r' & K1 & K2 & _). split; eapply nth_error_In; eassumption.
  - intros v Hv. injection Hv as <-. split; [reflexivity|]. intro N. cbn. unfold new_windows in HWs. destruct ax; [congruence| |]; injection HWs as <-; reflexivity.
  - reflexivity.
  - intro EA. pose proof (first_in B (0, 0, 0)%Z Bne) as Hb0. apply (in_B us) in Hb0 as Hb1. destruct Hb1 as [u [Hu Hbu]].
    exists u. split; [exact Hu|]. split; [cbn; rewrite ERows; exact Hbu|].
    intros s p x (m & q & r & H1 & H2 & H3 & H4). rewrite ES in H1. cbn in H2, H3.
    destruct (map_res_nth _ _ _ m s HSc H1) as [r' [Hr' E1]]. rewrite H3 in Hr'. injection Hr' as <-.
    destruct (map_res_nth _ _ _ q p E1 H2) as [x' [Hx' E2]]. assert (x' = x) by congruence. subst x'.
    destruct (scalar_ok round8 step us u0 ax Hu0 Wf HD HA s p (nth_error_In _ _ H1) (nth_error_In _ _ H2) Bne) as [u2 [y [Hu2 [On [Hs E]]]]].
    fold B in E, On. rewrite E2 in E. injection E as <-.
    replace u with u2; [exact Hs|].
    apply (one_owner round8 step us u0 ax Hu0 Wf HD HA s (hd (0, 0, 0)%Z B) p u2 u Hu2 Hu On).
    unfold on_axis. rewrite EA. exact Hbu.
  - exact Hbls.
Qed.
End Obj.
