(** Properties of the command-line scripts. *)
From Coq Require Import Reals String.
From Verif Require Import Prelude PyDict CNum PstokesModel ScriptModel.
Open Scope nat_scope.
Open Scope string_scope.

(** -- Python calls -- *)

Lemma fill_keys sig : forall pos kw r, fill sig pos kw = Ok r -> map fst r = map fst sig.
Proof.
  induction sig as [|[p d] sig IH]; intros pos kw r H; cbn in *.
  - destruct pos; [injection H as <-; reflexivity | discriminate].
  - destruct pos as [|v pos].
    + destruct (match dget string_dec kw p with Some v => Some v | None => d end) as [v|]; [|discriminate].
      destruct (fill sig [] kw) as [r'|] eqn:E; cbn in H; [|discriminate]. injection H as <-. cbn. f_equal. eauto.
    + destruct (dget string_dec kw p); [discriminate|].
      destruct (fill sig pos kw) as [r'|] eqn:E; cbn in H; [|discriminate]. injection H as <-. cbn. f_equal. eauto.
Qed.

Lemma dget_head {V} p (v : V) l : dget string_dec ((p, v) :: l) p = Some v.
Proof. cbn. destruct (string_dec p p); [reflexivity | congruence]. Qed.
Lemma dget_other {V} p q (v : V) l : p <> q -> dget string_dec ((q, v) :: l) p = dget string_dec l p.
Proof. intros N. cbn. destruct (string_dec p q); [congruence | reflexivity]. Qed.

Lemma fill_values sig : NoDup (map fst sig) -> forall pos kw r, fill sig pos kw = Ok r ->
  forall i p d, nth_error sig i = Some (p, d) ->
    dget string_dec r p = match nth_error pos i with
                          | Some v => Some v
                          | None => match dget string_dec kw p with Some v => Some v | None => d end
                          end.
Proof.
  induction sig as [|[q e] sig IH]; intros N pos kw r H i p d E; [destruct i; discriminate|].
  cbn [map fst] in N. inversion N as [|? ? N1 N2]; subst.
  assert (K : forall j, i = S j -> p <> q).
  { intros j -> ->. cbn in E. apply nth_error_In in E. apply N1. apply (in_map fst) in E. exact E. }
  cbn in H. destruct pos as [|v pos].
  - destruct (match dget string_dec kw q with Some v => Some v | None => e end) as [v|] eqn:Ev; [|discriminate].
    destruct (fill sig [] kw) as [r'|] eqn:F; cbn in H; [|discriminate]. injection H as <-.
    destruct i as [|i].
    + cbn in E. injection E as -> ->. rewrite dget_head. cbn. rewrite <- Ev. reflexivity.
    + rewrite dget_other by eauto. cbn in E. rewrite (IH N2 _ _ _ F i p d E). cbn. destruct i; reflexivity.
  - destruct (dget string_dec kw q) eqn:Eq; [discriminate|].
    destruct (fill sig pos kw) as [r'|] eqn:F; cbn in H; [|discriminate]. injection H as <-.
    destruct i as [|i].
    + cbn in E. injection E as -> ->. rewrite dget_head. reflexivity.
    + rewrite dget_other by eauto. cbn in E. rewrite (IH N2 _ _ _ F i p d E). reflexivity.
Qed.

Lemma dget_is_None {V} (l : list (string * V)) k : dget string_dec l k = None <-> ~ In k (map fst l).
Proof. apply dget_None. Qed.

Lemma fill_ok sig : forall pos kw,
  (exists r, fill sig pos kw = Ok r) <->
  List.length pos <= List.length sig /\
  (forall i p, i < List.length pos -> nth_error (map fst sig) i = Some p -> ~ In p (map fst kw)) /\
  (forall i p, List.length pos <= i -> nth_error sig i = Some (p, None) -> In p (map fst kw)).
Proof.
  induction sig as [|[q e] sig IH]; intros pos kw.
  - cbn. destruct pos; cbn; split.
    + intros _. repeat split; [lia | intros i p Hi; lia | intros [|i] p _ E; discriminate].
    + intros _. exists []. reflexivity.
    + intros [r E]; discriminate.
    + intros [H _]. lia.
  - cbn [fill]. destruct pos as [|v pos].
    + split.
      * intros [r H]. destruct (match dget string_dec kw q with Some v => Some v | None => e end) as [v|] eqn:Ev; [|discriminate].
        destruct (fill sig [] kw) as [r'|] eqn:F; cbn in H; [|discriminate].
        destruct (proj1 (IH [] kw) (ex_intro _ r' F)) as [_ [_ R]].
        split; [cbn; lia|]. split; [intros i p Hi; cbn in Hi; lia|]. intros [|i] p Hi E; cbn in E.
        -- injection E as -> ->. destruct (dget string_dec kw p) eqn:D; [|discriminate]. apply dget_In in D. apply (in_map fst) in D. exact D.
        -- apply (R i p); [cbn; lia | exact E].
      * intros [_ [_ R]].
        assert (Hf : exists r, fill sig [] kw = Ok r).
        { apply IH. split; [cbn; lia|]. split; [intros i p Hi; cbn in Hi; lia|]. intros i p _ E. apply (R (S i) p); [cbn; lia | exact E]. }
        destruct Hf as [r F]. destruct (dget string_dec kw q) as [v|] eqn:D.
        -- rewrite F. cbn. eauto.
        -- destruct e as [v|]; [rewrite F; cbn; eauto|]. exfalso. apply dget_is_None in D. apply D. apply (R 0 q); [cbn; lia | reflexivity].
    + split.
      * intros [r H]. destruct (dget string_dec kw q) eqn:D; [discriminate|].
        destruct (fill sig pos kw) as [r'|] eqn:F; cbn in H; [|discriminate].
        destruct (proj1 (IH pos kw) (ex_intro _ r' F)) as [L [P R]]. apply dget_is_None in D.
        split; [cbn; lia|]. split.
        -- intros [|i] p Hi E; cbn in E; [injection E as <-; exact D | apply (P i p); [cbn in Hi; lia | exact E]].
        -- intros [|i] p Hi E; [cbn in Hi; lia|]. apply (R i p); [cbn in Hi; lia | exact E].
      * intros [L [P R]].
        assert (Hf : exists r, fill sig pos kw = Ok r).
        { apply IH. split; [cbn in L; lia|]. split; [intros i p Hi E; apply (P (S i) p); [cbn; lia | exact E]|].
          intros i p Hi E. apply (R (S i) p); [cbn; lia | exact E]. }
        destruct Hf as [r F].
        assert (D : dget string_dec kw q = None) by (apply dget_is_None; apply (P 0 q); [cbn; lia | reflexivity]).
        rewrite D, F. cbn. eauto.
Qed.

Lemma kw_known sig (kw : list (string * pyval)) :
  forallb (fun e => existsb (String.eqb (fst e)) (map fst sig)) kw = true <-> (forall k, In k (map fst kw) -> In k (map fst (sig : signature))).
Proof.
  rewrite forallb_forall. split.
  - intros H k Hk. apply in_map_iff in Hk. destruct Hk as [e [<- He]]. specialize (H e He).
    apply existsb_exists in H. destruct H as [x [Hx E]]. apply String.eqb_eq in E. rewrite E. exact Hx.
  - intros H e He. apply existsb_exists. exists (fst e). split; [apply H; apply in_map; exact He | apply String.eqb_refl].
Qed.

(** Python's rule: every keyword names a parameter, no parameter gets two values, each one without a default gets one;
    then a parameter has the value of its position, of its keyword, or its default. A refused call is a TypeError. *)
Theorem call_arguments sig pos kw :
  NoDup (map fst sig) ->
  ((exists r, py_call sig pos kw = Ok r) <->
     List.length pos <= List.length sig /\
     (forall k, In k (map fst kw) -> In k (map fst sig)) /\
     (forall i p, i < List.length pos -> nth_error (map fst sig) i = Some p -> ~ In p (map fst kw)) /\
     (forall i p, List.length pos <= i -> nth_error sig i = Some (p, None) -> In p (map fst kw))) /\
  (forall r, py_call sig pos kw = Ok r ->
     map fst r = map fst sig /\
     forall i p d, nth_error sig i = Some (p, d) ->
       dget string_dec r p = match nth_error pos i with
                             | Some v => Some v
                             | None => match dget string_dec kw p with Some v => Some v | None => d end
                             end) /\
  (forall e, py_call sig pos kw = Err e -> e = TypeError).
Proof.
  intros N. unfold py_call. pose proof (kw_known sig kw) as K.
  destruct (forallb _ kw) eqn:F.
  - assert (K' := proj1 K eq_refl). split; [|split].
    + rewrite fill_ok. tauto.
    + intros r H. split; [eapply fill_keys; eassumption | eapply fill_values; eassumption].
    + clear. revert pos. induction sig as [|[q e0] sig IH]; intros pos e; cbn.
      * destruct pos; congruence.
      * destruct pos as [|v pos].
        -- destruct (match dget string_dec kw q with Some v => Some v | None => e0 end); [|congruence].
           specialize (IH []). destruct (fill sig [] kw); cbn; [congruence | auto].
        -- destruct (dget string_dec kw q); [congruence|]. specialize (IH pos). destruct (fill sig pos kw); cbn; [congruence | auto].
  - split; [|split].
    + split; [intros [r E]; discriminate|]. intros [_ [H _]]. apply K in H. discriminate.
    + discriminate.
    + congruence.
Qed.
Example call_arguments_witness :
  py_call [("a", None); ("b", Some (VInt 2)); ("c", Some (VInt 3))] [VInt 1] [("c", VBool true)] =
  Ok [("a", VInt 1); ("b", VInt 2); ("c", VBool true)].
Proof. reflexivity. Qed.

Lemma unknown_keyword sig pos kw k : In k (map fst kw) -> ~ In k (map fst sig) -> py_call sig pos kw = Err TypeError.
Proof.
  intros H N. unfold py_call. destruct (forallb _ kw) eqn:F; [|reflexivity].
  exfalso. apply N. exact (proj1 (kw_known sig kw) F k H).
Qed.

(** -- generate_pstokes_run.py -- *)

Lemma upols_iadd u v : upols (uv_iadd u v) = (upols u ++ upols v)%list.
Proof. unfold upols, uv_iadd. cbn. apply map_app. Qed.

Lemma memZ n l : existsb (Z.eqb n) l = true <-> In n l.
Proof.
  rewrite existsb_exists. split.
  - intros [x [H E]]. apply Z.eqb_eq in E. congruence.
  - intros H. exists n. split; [exact H | apply Z.eqb_refl].
Qed.

(** a pseudo-Stokes object has one polarization, the one asked for *)
Lemma construct_pols u v n o : construct_pstokes u v n = Ok o -> upols o = [n].
Proof.
  unfold construct_pstokes, require. intros H.
  repeat match type of H with (if ?b then _ else _) = _ => destruct b; [|discriminate] end.
  destruct (pol_weights n) as [[|[p1 w1] [|[p2 w2] [|]]]|] eqn:W; try discriminate.
  destruct (existsb (Z.eqb p1) (upols u)); [|discriminate]. destruct (existsb (Z.eqb p2) (upols v)); [|discriminate].
  unfold combine_pol, require in H. destruct (conv_eqb _ _); [|discriminate].
  destruct (ucols (select_pol u p1)) as [|c1 l1]; [discriminate|]. destruct (ucols (select_pol v p2)) as [|c2 l2]; [discriminate|].
  match type of H with bind ?x _ = _ => destruct x as [[[[d|] [f|]] [m|]]|] eqn:E end; cbn in H; try discriminate.
  injection H as <-. reflexivity.
Qed.

Section P.
Variable p2n : string -> option Z.

Lemma add_stokes_spec u : forall ps out r,
  add_stokes p2n u out ps = Ok r ->
  (forall p, In p ps -> exists n, p2n p = Some n /\ In n (upols r)) /\
  (forall q, In q (upols r) <-> In q (upols out) \/ exists p, In p ps /\ p2n p = Some q) /\
  (NoDup (upols out) -> NoDup (upols r)) /\
  (forall c, In c (ucols r) -> In c (ucols out) \/ exists p n v, In p ps /\ p2n p = Some n /\ ~ In n (upols out) /\ cpol c = n /\
                                                         construct_pstokes u u n = Ok v /\ ucols v = [c]) /\
  (forall c, In c (ucols out) -> In c (ucols r)).
Proof.
  induction ps as [|p ps IH]; intros out r H; cbn in H.
  - injection H as <-. repeat split; auto; try (intros; tauto). intros [H|[p [[] _]]]; exact H.
  - destruct (p2n p) as [n|] eqn:Ep; [|discriminate].
    destruct (existsb (Z.eqb n) (upols out)) eqn:Ex.
    + apply memZ in Ex. destruct (IH out r H) as [A [B [C0 [D E]]]].
      split; [|split; [|split; [|split]]].
      * intros p' [<-|Hp]; [|eauto]. exists n. split; [exact Ep|]. apply B. left. exact Ex.
      * intros q. rewrite B. split.
        -- intros [Hq|[p' [Hp' Eq]]]; [left; exact Hq | right; exists p'; split; [right; exact Hp' | exact Eq]].
        -- intros [Hq|[p' [[<-|Hp'] Eq]]]; [left; exact Hq | left; congruence | right; eauto].
      * exact C0.
      * intros c Hc. destruct (D c Hc) as [|[p' [n' [v [Hp' R]]]]]; [left; assumption | right; exists p', n', v; split; [right; exact Hp' | exact R]].
      * exact E.
    + assert (Ex' : ~ In n (upols out)) by (intros X; apply memZ in X; congruence).
      unfold construct in H. rewrite Ep in H. destruct (construct_pstokes u u n) as [v|] eqn:Ec; cbn in H; [|discriminate].
      pose proof (construct_pols _ _ _ _ Ec) as Pv. destruct (IH _ _ H) as [A [B [C0 [D E]]]].
      assert (Bv : forall q, In q (upols (uv_iadd out v)) <-> In q (upols out) \/ q = n).
      { intros q. rewrite upols_iadd, in_app_iff, Pv. cbn. intuition congruence. }
      split; [|split; [|split; [|split]]].
      * intros p' [<-|Hp]; [|eauto]. exists n. split; [exact Ep|]. apply B. left. apply Bv. right; reflexivity.
      * intros q. rewrite B, Bv. split.
        -- intros [[Hq| ->]|[p' [Hp' Eq]]]; [left; exact Hq | right; exists p; split; [left; reflexivity | exact Ep] | right; exists p'; split; [right; exact Hp' | exact Eq]].
        -- intros [Hq|[p' [[<-|Hp'] Eq]]]; [tauto | left; right; congruence | right; eauto].
      * intros Nd. apply C0. rewrite upols_iadd, Pv.
        clear -Nd Ex'. induction (upols out) as [|x l IHl]; cbn; [repeat constructor; tauto|].
        inversion Nd; subst. constructor; [|apply IHl; [intros X; apply Ex'; right; exact X | assumption]].
        rewrite in_app_iff. cbn. intros [X|[X|[]]]; [tauto | apply Ex'; left; congruence].
      * intros c Hc. destruct (D c Hc) as [Hc'|[p' [n' [v' [Hp' [R1 [R2 R3]]]]]]].
        -- cbn in Hc'. apply in_app_iff in Hc'. destruct Hc' as [Hc'|Hc']; [left; exact Hc'|].
           right. exists p, n, v. unfold upols in Pv. destruct (ucols v) as [|c0 [|]] eqn:Ev; try discriminate. cbn in Pv. injection Pv as Pv.
           destruct Hc' as [<-|[]]. repeat split; auto. left; reflexivity.
        -- right. exists p', n', v'. split; [right; exact Hp'|]. split; [exact R1|]. split; [|exact R3].
           intros X. apply R2. apply Bv. left; exact X.
      * intros c Hc. apply E. cbn. apply in_app_iff. left; exact Hc.
Qed.

Lemma add_stokes_total u : forall ps out,
  (forall p, In p ps -> exists n, p2n p = Some n /\ (In n (upols out) \/ exists v, construct_pstokes u u n = Ok v)) ->
  exists r, add_stokes p2n u out ps = Ok r.
Proof.
  induction ps as [|p ps IH]; intros out H; cbn; [eauto|].
  destruct (H p (or_introl eq_refl)) as [n [Ep Hn]]. rewrite Ep.
  destruct (existsb (Z.eqb n) (upols out)) eqn:Ex.
  - apply IH. intros p' Hp'. apply H. right; exact Hp'.
  - destruct Hn as [Hn|[v Ev]]; [apply memZ in Hn; congruence|]. unfold construct. rewrite Ep, Ev. cbn.
    apply IH. intros p' Hp'. destruct (H p' (or_intror Hp')) as [n' [Ep' Hn']]. exists n'. split; [exact Ep'|].
    destruct Hn' as [Hn'|Hn']; [left; rewrite upols_iadd; apply in_app_iff; left; exact Hn' | right; exact Hn'].
Qed.

(** With a list of pseudo-Stokes parameters that can be formed from the file (or, with --keep_vispols, are in it), and an
    output that may be written: the output holds each requested one, computed from the input, and with --keep_vispols all that
    the input had; nothing else, and nothing twice. No other file changes. *)
Theorem generate_pstokes_list fs a ps u :
  ps_stokes a = AList ps -> ps <> [] ->
  dget string_dec fs (ps_in a) = Some u -> NoDup (upols u) ->
  (forall p, In p ps -> exists n, p2n p = Some n /\
     ((ps_keep a = true /\ In n (upols u)) \/ exists v, construct_pstokes u u n = Ok v)) ->
  let out := match ps_out a with None => ps_in a | Some o => o end in
  (ps_clobber a = true \/ dget string_dec fs out = None) ->
  exists fs' r, generate_pstokes_run p2n fs a = (fs', Ok tt) /\
    dget string_dec fs' out = Some r /\
    (forall f, f <> out -> dget string_dec fs' f = dget string_dec fs f) /\
    NoDup (upols r) /\
    (forall q, In q (upols r) <-> (ps_keep a = true /\ In q (upols u)) \/ (exists p, In p ps /\ p2n p = Some q)) /\
    (forall c, In c (ucols r) ->
       (ps_keep a = true /\ In c (ucols u)) \/ exists v, construct_pstokes u u (cpol c) = Ok v /\ ucols v = [c]) /\
    (ps_keep a = true -> forall c, In c (ucols u) -> In c (ucols r)).
Proof.
  intros Ea Ne Ein Nd Hps out Hout. unfold generate_pstokes_run. rewrite Ein. fold out.
  assert (S : exists o, stokes_out p2n u a = Ok o /\ NoDup (upols o) /\
    (forall q, In q (upols o) <-> (ps_keep a = true /\ In q (upols u)) \/ (exists p, In p ps /\ p2n p = Some q)) /\
    (forall c, In c (ucols o) -> (ps_keep a = true /\ In c (ucols u)) \/ exists v, construct_pstokes u u (cpol c) = Ok v /\ ucols v = [c]) /\
    (ps_keep a = true -> forall c, In c (ucols u) -> In c (ucols o))).
  { unfold stokes_out. rewrite Ea. cbn [items]. destruct (ps_keep a) eqn:Ek.
    - cbn [bind]. destruct (add_stokes_total u ps u) as [o Eo].
      { intros p Hp. destruct (Hps p Hp) as [n [Ep [[_ Hn]|Hn]]]; exists n; auto. }
      exists o. split; [exact Eo|]. destruct (add_stokes_spec u _ _ _ Eo) as [_ [B [C0 [D E]]]].
      split; [auto|]. split; [|split].
      + intros q. rewrite B. intuition auto.
      + intros c Hc. destruct (D c Hc) as [|[p [n [v [_ [_ [_ [Q [R1 R2]]]]]]]]]; [left; auto | right; exists v; subst n; auto].
      + intros _. exact E.
    - destruct ps as [|p0 ps0] eqn:Eps; [congruence|]. rewrite <- Eps in *.
      destruct (Hps p0) as [n0 [Ep0 [[X _]|[v0 Ev0]]]]; [rewrite Eps; left; reflexivity | discriminate |].
      unfold construct at 1. rewrite Ep0, Ev0. cbn [bind]. pose proof (construct_pols _ _ _ _ Ev0) as Pv.
      destruct (add_stokes_total u ps v0) as [o Eo].
      { intros p Hp. destruct (Hps p Hp) as [n [Ep [[X _]|Hn]]]; [discriminate|]. exists n. auto. }
      exists o. split; [exact Eo|]. destruct (add_stokes_spec u _ _ _ Eo) as [_ [B [C0 [D E]]]].
      split; [apply C0; rewrite Pv; repeat constructor; cbn; tauto|]. split; [|split].
      + intros q. rewrite B, Pv. cbn. split.
        * intros [[<-|[]]|H]; [right; exists p0; split; [rewrite Eps; left; reflexivity | exact Ep0] | right; exact H].
        * intros [[X _]|H]; [discriminate | right; exact H].
      + intros c Hc. right. destruct (D c Hc) as [Hc'|[p [n [v [_ [_ [_ [Q [R1 R2]]]]]]]]]; [|exists v; subst n; auto].
        unfold upols in Pv. destruct (ucols v0) as [|c0 [|]] eqn:Ev; try discriminate. cbn in Pv. injection Pv as Pv.
        destruct Hc' as [<-|[]]. exists v0. rewrite Pv. auto.
      + discriminate. }
  destruct S as [o [Eo [S1 [S2 [S3 S4]]]]]. rewrite Eo.
  exists (dset string_dec fs out o), o.
  split; [destruct (dget string_dec fs out) eqn:Eout; [destruct Hout as [->|X]; [reflexivity | discriminate] | reflexivity]|].
  split; [rewrite dget_dset; destruct (string_dec out out); congruence|].
  split; [intros f Hf; rewrite dget_dset; destruct (string_dec f out); congruence|]. auto.
Qed.

(** However it ends, the only file that can change is the output, and only if the script succeeds. *)
Theorem generate_pstokes_atomic fs a fs' r :
  generate_pstokes_run p2n fs a = (fs', r) ->
  (forall e, r = Err e -> fs' = fs) /\
  (forall f, f <> match ps_out a with None => ps_in a | Some o => o end -> dget string_dec fs' f = dget string_dec fs f).
Proof.
  unfold generate_pstokes_run. intros H.
  destruct (dget string_dec fs (ps_in a)) as [u|]; [|injection H as <- <-; split; [intros; reflexivity | auto]].
  destruct (stokes_out p2n u a) as [o|e]; [|injection H as <- <-; split; [intros; reflexivity | auto]].
  set (out := match ps_out a with None => ps_in a | Some o => o end) in *.
  assert (K : forall f, f <> out -> dget string_dec (dset string_dec fs out o) f = dget string_dec fs f).
  { intros f Hf. rewrite dget_dset. destruct (string_dec f out); congruence. }
  destruct (dget string_dec fs out) as [w|]; [destruct (ps_clobber a)|]; injection H as <- <-; split; auto; discriminate.
Qed.

(** Without --pstokes the script always fails and writes nothing: the default is the text "pI", whose letters are taken one by one
    ("p" names no polarization). *)
Theorem generate_pstokes_default_refuted fs a :
  ps_stokes a = default_stokes -> p2n "p" = None -> exists e, generate_pstokes_run p2n fs a = (fs, Err e).
Proof.
  intros Ea Ep. unfold generate_pstokes_run. destruct (dget string_dec fs (ps_in a)) as [u|]; [|eauto].
  unfold stokes_out. rewrite Ea. cbn [default_stokes items chars]. destruct (ps_keep a); cbn [bind].
  - cbn [add_stokes]. rewrite Ep. eauto.
  - unfold construct. rewrite Ep. cbn. eauto.
Qed.

(** Without --outputdata the file that was read is the output: without --clobber nothing is ever written; *)
Theorem generate_pstokes_inplace_refuted fs a u :
  ps_out a = None -> ps_clobber a = false -> dget string_dec fs (ps_in a) = Some u ->
  exists e, generate_pstokes_run p2n fs a = (fs, Err e).
Proof.
  intros Eo Ec Ei. unfold generate_pstokes_run. rewrite Ei. destruct (stokes_out p2n u a) as [o|e]; [|eauto].
  rewrite Eo, Ei, Ec. eauto.
Qed.

(** with --clobber but without --keep_vispols the linear polarizations are gone from the output. *)
Theorem generate_pstokes_keeps_refuted fs a ps fs' r :
  ps_stokes a = AList ps -> ps_keep a = false ->
  generate_pstokes_run p2n fs a = (fs', Ok tt) ->
  dget string_dec fs' (match ps_out a with None => ps_in a | Some o => o end) = Some r ->
  forall q, In q (upols r) -> exists p, In p ps /\ p2n p = Some q.
Proof.
  intros Ea Ek H Hr q Hq. unfold generate_pstokes_run in H.
  destruct (dget string_dec fs (ps_in a)) as [u|]; [|discriminate].
  set (out := match ps_out a with None => ps_in a | Some o => o end) in *.
  destruct (stokes_out p2n u a) as [o|e] eqn:Eo; [|discriminate].
  assert (fs' = dset string_dec fs out o).
  { destruct (dget string_dec fs out); [destruct (ps_clobber a)|]; congruence. }
  subst fs'. rewrite dget_dset in Hr. destruct (string_dec out out); [|congruence]. injection Hr as <-.
  unfold stokes_out in Eo. rewrite Ea, Ek in Eo. cbn [items] in Eo. destruct ps as [|p0 ps0] eqn:Eps; [discriminate|]. rewrite <- Eps in *.
  destruct (construct p2n u p0) as [v0|] eqn:Ev; cbn [bind] in Eo; [|discriminate].
  unfold construct in Ev. destruct (p2n p0) as [n0|] eqn:Ep0; [|discriminate]. pose proof (construct_pols _ _ _ _ Ev) as Pv.
  destruct (add_stokes_spec u _ _ _ Eo) as [_ [B _]]. apply B in Hq. destruct Hq as [Hq|Hq]; [|exact Hq].
  rewrite Pv in Hq. destruct Hq as [<-|[]]. exists p0. split; [rewrite Eps; left; reflexivity | exact Ep0].
Qed.
End P.

(** a file with XX and YY, --pstokes pI pQ --keep_vispols, into a new file *)
Definition ex_p2n (s : string) : option Z :=
  if String.eqb s "pI" then Some 1%Z else if String.eqb s "pQ" then Some 2%Z else if String.eqb s "xx" then Some (-5)%Z else None.
Definition ex_uvd : uvd := mkuvd 0 [1]%Z [2]%Z [3]%Z None [mkcol (-5) [C1] [false] [1%R]; mkcol (-6) [C1] [false] [1%R]].
Example generate_pstokes_witness :
  exists fs' r, generate_pstokes_run ex_p2n [("in", ex_uvd)] (mkps "in" (AList ["pI"; "xx"; "pQ"; "pI"]) (Some "out") false true) = (fs', Ok tt) /\
    dget string_dec fs' "out" = Some r /\ upols r = [-5; -6; 1; 2]%Z /\ dget string_dec fs' "in" = Some ex_uvd.
Proof. do 2 eexists. split; [reflexivity|]. split; [reflexivity|]. split; reflexivity. Qed.
Print Assumptions call_arguments. Print Assumptions generate_pstokes_list. Print Assumptions generate_pstokes_atomic.
Print Assumptions generate_pstokes_default_refuted. Print Assumptions generate_pstokes_inplace_refuted. Print Assumptions generate_pstokes_keeps_refuted.
