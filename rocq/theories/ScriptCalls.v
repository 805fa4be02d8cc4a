(** Properties of the scripts auto_noise_run, bootstrap_run, pspec_run, psc_merge_spectra and pspec_red. *)
From Coq Require Import String.
From Verif Require Import Prelude PyDict ScriptModel ScriptProps.
Open Scope nat_scope.
Open Scope string_scope.

Section N.
Variable U : Type.
Variable noise : U -> result U.

Lemma st_get_set st g s u g' s' :
  st_get U st g s <> None ->
  st_get U (st_set U st g s u) g' s' = if string_dec g' g then (if string_dec s' s then Some u else st_get U st g' s') else st_get U st g' s'.
Proof.
  unfold st_get, st_set. destruct (dget string_dec st g) as [l|] eqn:E; [|congruence]. intros _.
  rewrite dget_dset. destruct (string_dec g' g) as [->|]; [|reflexivity].
  rewrite E. apply dget_dset.
Qed.

(** the spectra of one group, one after the other *)
Lemma noise_specs_spec g : forall specs st st' r,
  NoDup specs ->
  noise_specs U noise st g specs = (st', r) ->
  exists done todo, specs = (done ++ todo)%list /\
    (r = Ok tt -> todo = []) /\
    (forall s, In s done -> exists u u', st_get U st g s = Some u /\ noise u = Ok u' /\ st_get U st' g s = Some u') /\
    (forall g' s', (g' <> g \/ ~ In s' done) -> st_get U st' g' s' = st_get U st g' s') /\
    (forall e, r = Err e -> exists s rest, todo = s :: rest /\
        ((st_get U st g s = None /\ e = KeyError) \/ exists u, st_get U st g s = Some u /\ noise u = Err e)).
Proof.
  induction specs as [|s specs IH]; intros st st' r N H; cbn in H.
  - injection H as <- <-. exists [], []. repeat split; auto; [intros s []|discriminate].
  - inversion N as [|? ? N1 N2]; subst.
    destruct (st_get U st g s) as [u|] eqn:Eg.
    2:{ injection H as <- <-. exists [], (s :: specs). repeat split; auto; [discriminate | intros s' [] |].
        intros e He. injection He as <-. exists s, specs. split; [reflexivity|]. left. auto. }
    destruct (noise u) as [u'|e0] eqn:En.
    2:{ injection H as <- <-. exists [], (s :: specs). repeat split; auto; [discriminate | intros s' [] |].
        intros e He. injection He as <-. exists s, specs. split; [reflexivity|]. right. exists u. auto. }
    assert (G : st_get U st g s <> None) by congruence.
    destruct (IH _ _ _ N2 H) as [dn [td [E1 [E2 [E3 [E4 E5]]]]]].
    assert (Nd : ~ In s dn) by (intros X; apply N1; rewrite E1; apply in_app_iff; left; exact X).
    exists (s :: dn), td. split; [cbn; f_equal; exact E1|]. split; [exact E2|]. split; [|split].
    + intros s' [<-|Hs].
      * exists u, u'. split; [exact Eg|]. split; [exact En|]. rewrite E4 by auto. rewrite st_get_set by exact G.
        destruct (string_dec g g); [|congruence]. destruct (string_dec s s); congruence.
      * destruct (E3 s' Hs) as [v [v' [F1 [F2 F3]]]]. exists v, v'. split; [|auto].
        rewrite st_get_set in F1 by exact G. destruct (string_dec g g); [|congruence].
        destruct (string_dec s' s); [subst; contradiction | exact F1].
    + intros g' s' Hn. rewrite E4 by (destruct Hn as [Hn|Hn]; [left; exact Hn | right; intros X; apply Hn; right; exact X]).
      rewrite st_get_set by exact G. destruct (string_dec g' g) as [->|]; [|reflexivity].
      destruct (string_dec s' s) as [->|]; [|reflexivity]. destruct Hn as [Hn|Hn]; [congruence | exfalso; apply Hn; left; reflexivity].
    + intros e He. destruct (E5 e He) as [s1 [rest [F0 F]]]. exists s1, rest. split; [exact F0|].
      assert (Q : st_get U (st_set U st g s u') g s1 = st_get U st g s1).
      { rewrite st_get_set by exact G. destruct (string_dec g g); [|congruence]. destruct (string_dec s1 s) as [->|]; [|reflexivity].
        exfalso. apply N1. rewrite E1, F0. apply in_app_iff. right; left; reflexivity. }
      rewrite Q in F. exact F.
Qed.

(** the pairs (group, spectrum) in the order in which the script visits them *)
Definition visits (st : store U) (groups : list string) : list (string * string) :=
  flat_map (fun g => match dget string_dec st g with Some l => map (fun s => (g, s)) (map fst l) | None => [] end) groups.

Definition well_formed (st : store U) : Prop :=
  NoDup (map fst st) /\ forall g l, dget string_dec st g = Some l -> NoDup (map fst l).

Lemma dset_present {V} (l : list (string * V)) k v : In k (map fst l) -> map fst (dset string_dec l k v) = map fst l.
Proof. intros H. destruct (dset_keys string_dec l k v) as [E|[N _]]; [exact E | contradiction]. Qed.

Lemma st_set_keys st g s u g' : st_get U st g s <> None ->
  map fst (st_set U st g s u) = map fst st /\
  option_map (map fst) (dget string_dec (st_set U st g s u) g') = option_map (map fst) (dget string_dec st g').
Proof.
  unfold st_get, st_set. destruct (dget string_dec st g) as [l|] eqn:E; [|congruence]. intros H.
  assert (Hs : In s (map fst l)) by (destruct (dget string_dec l s) eqn:D; [apply dget_In in D; apply (in_map fst) in D; exact D | congruence]).
  split; [apply dset_present; apply dget_In in E; apply (in_map fst) in E; exact E|].
  rewrite dget_dset. destruct (string_dec g' g) as [->|]; [|reflexivity]. rewrite E. cbn. f_equal. apply dset_present. exact Hs.
Qed.

Lemma noise_specs_keys g : forall specs st st' r, noise_specs U noise st g specs = (st', r) ->
  forall g', option_map (map fst) (dget string_dec st' g') = option_map (map fst) (dget string_dec st g').
Proof.
  induction specs as [|s specs IH]; intros st st' r H g'; cbn in H; [congruence|].
  destruct (st_get U st g s) as [u|] eqn:Eg; [|congruence]. destruct (noise u) as [u'|]; [|congruence].
  rewrite (IH _ _ _ H g'). apply st_set_keys. congruence.
Qed.

Lemma visits_ext st st' gs : (forall g, option_map (map fst) (dget string_dec st' g) = option_map (map fst) (dget string_dec st g)) ->
  visits st' gs = visits st gs.
Proof.
  intros H. unfold visits. induction gs as [|g gs IH]; cbn; [reflexivity|]. f_equal; [|exact IH].
  specialize (H g). destruct (dget string_dec st' g), (dget string_dec st g); cbn in H; congruence.
Qed.

Lemma visits_in st gs g s : In (g, s) (visits st gs) -> In g gs.
Proof.
  unfold visits. rewrite in_flat_map. intros [g0 [H1 H2]]. destruct (dget string_dec st g0); [|destruct H2].
  apply in_map_iff in H2. destruct H2 as [s0 [E _]]. congruence.
Qed.

Lemma noise_groups_spec : forall groups st st' r,
  NoDup groups -> (forall g l, dget string_dec st g = Some l -> NoDup (map fst l)) ->
  noise_groups U noise st None groups = (st', r) ->
  exists done todo, (exists rest, visits st groups = done ++ rest /\ (r = Ok tt -> rest = []) /\ (forall e, r = Err e -> todo = rest))%list /\
    (r = Ok tt -> forall g, In g groups -> dget string_dec st g <> None) /\
    (forall g s, In (g, s) done -> exists u u', st_get U st g s = Some u /\ noise u = Ok u' /\ st_get U st' g s = Some u') /\
    (forall g s, ~ In (g, s) done -> st_get U st' g s = st_get U st g s) /\
    (forall e, r = Err e ->
        (exists g s rest u, todo = (g, s) :: rest /\ st_get U st g s = Some u /\ noise u = Err e) \/
        (e = KeyError /\ exists g, In g groups /\ dget string_dec st g = None)).
Proof.
  induction groups as [|g groups IH]; intros st st' r N W H; cbn in H.
  - injection H as <- <-. exists [], []. split; [exists []; repeat split; auto|]. split; [intros _ g []|].
    split; [intros g s []|]. split; [auto|discriminate].
  - inversion N as [|? ? N1 N2]; subst.
    destruct (dget string_dec st g) as [l|] eqn:El.
    2:{ injection H as <- <-. exists [], (visits st (g :: groups)). split; [exists (visits st (g :: groups)); split; [reflexivity | split; [discriminate | reflexivity]]|].
        split; [discriminate|]. split; [intros g0 s []|]. split; [auto|].
        intros e He. injection He as <-. right. split; [reflexivity|]. exists g. split; [left; reflexivity | exact El]. }
    destruct (noise_specs U noise st g (map fst l)) as [st1 r1] eqn:Es.
    pose proof (noise_specs_keys g _ _ _ _ Es) as Ks.
    destruct (noise_specs_spec g _ _ _ _ (W g l El) Es) as [dn [td [E1 [E2 [E3 [E4 E5]]]]]].
    assert (Vg : visits st (g :: groups) = (map (fun s => (g, s)) (map fst l) ++ visits st groups)%list) by (cbn; rewrite El; reflexivity).
    assert (Dg : forall g0 s, In (g0, s) (map (fun s => (g, s)) dn) <-> g0 = g /\ In s dn).
    { intros g0 s. rewrite in_map_iff. split; [intros [s0 [E Hs]]; injection E as <- <-; auto | intros [-> Hs]; exists s; auto]. }
    destruct r1 as [[]|e1].
    + rewrite (E2 eq_refl), app_nil_r in E1.
      assert (W1 : forall g0 l0, dget string_dec st1 g0 = Some l0 -> NoDup (map fst l0)).
      { intros g0 l0 E0. specialize (Ks g0). rewrite E0 in Ks. destruct (dget string_dec st g0) as [l1|] eqn:E0'; cbn in Ks; [|discriminate].
        injection Ks as ->. exact (W g0 l1 E0'). }
      destruct (IH _ _ _ N2 W1 H) as [dn2 [td2 [[rest [F0 [F1 F1']]] [F2 [F3 [F4 F5]]]]]].
      rewrite (visits_ext st st1 groups Ks) in F0.
      assert (Vn : forall s, ~ In (g, s) dn2).
      { intros s X. apply N1. apply (visits_in st groups g s). rewrite F0. apply in_app_iff. left; exact X. }
      assert (Gx : forall g0 s, g0 <> g -> st_get U st1 g0 s = st_get U st g0 s) by (intros; apply E4; left; assumption).
      assert (Gn : forall g0, g0 <> g -> dget string_dec st g0 = None <-> dget string_dec st1 g0 = None).
      { intros g0 _. specialize (Ks g0). destruct (dget string_dec st1 g0), (dget string_dec st g0); cbn in Ks; split; congruence. }
      exists (map (fun s => (g, s)) dn ++ dn2)%list, td2. split; [|split; [|split; [|split]]].
      * exists rest. split; [rewrite Vg, E1, F0, app_assoc; reflexivity|]. split; [exact F1 | exact F1'].
      * intros Er g0 [<-|Hg]; [congruence|]. intros X. apply (F2 Er g0 Hg). specialize (Ks g0). rewrite X in Ks.
        destruct (dget string_dec st1 g0); [discriminate | reflexivity].
      * intros g0 s Hs. apply in_app_iff in Hs. destruct Hs as [Hs|Hs].
        -- apply Dg in Hs. destruct Hs as [-> Hs]. destruct (E3 s Hs) as [u [u' [G1 [G2 G3]]]]. exists u, u'. split; [exact G1|]. split; [exact G2|].
           rewrite F4 by apply Vn. exact G3.
        -- destruct (F3 g0 s Hs) as [u [u' [G1 [G2 G3]]]]. exists u, u'. split; [|auto]. rewrite <- Gx; [exact G1|].
           intros ->. exact (Vn s Hs).
      * intros g0 s Hs. rewrite in_app_iff, Dg in Hs. rewrite F4 by tauto. apply E4.
        destruct (string_dec g0 g) as [->|]; [right; tauto | left; assumption].
      * intros e He. destruct (F5 e He) as [[g0 [s0 [rst [u [P1 [P2 P3]]]]]]|[P1 [g0 [P2 P3]]]].
        -- left. exists g0, s0, rst, u. split; [exact P1|]. split; [|exact P3]. rewrite <- Gx; [exact P2|].
           intros ->. apply N1. apply (visits_in st groups g s0). rewrite F0, <- (F1' e He), P1. apply in_app_iff. right; left; reflexivity.
        -- right. split; [exact P1|]. exists g0. split; [right; exact P2|]. specialize (Ks g0). rewrite P3 in Ks.
           destruct (dget string_dec st g0); [discriminate | reflexivity].
    + injection H as <- <-. destruct (E5 e1 eq_refl) as [s [rest [F0 F]]].
      exists (map (fun s => (g, s)) dn), (map (fun s => (g, s)) td ++ visits st groups)%list. split; [|split; [|split; [|split]]].
      * eexists. split; [rewrite Vg, E1, map_app, <- app_assoc; reflexivity|]. split; [discriminate | reflexivity].
      * discriminate.
      * intros g0 s0 Hs. apply Dg in Hs. destruct Hs as [-> Hs]. exact (E3 s0 Hs).
      * intros g0 s0 Hs. rewrite Dg in Hs. apply E4. destruct (string_dec g0 g) as [->|]; [right; tauto | left; assumption].
      * intros e He. injection He as <-. left. destruct F as [[F ->]|[u [Fu Fe]]].
        -- exfalso. unfold st_get in F. rewrite El in F.
           assert (X : In s (map fst l)) by (rewrite E1, F0; apply in_app_iff; right; left; reflexivity).
           apply dget_None in F. contradiction.
        -- rewrite F0. cbn. exists g, s, (map (fun s => (g, s)) rest ++ visits st groups)%list, u. auto.
Qed.

(** Without --spectra: if the script succeeds, every spectrum of the chosen groups (all groups by default) has been replaced by
    its version with error bars, and nothing else has changed. *)
Theorem auto_noise_all st groups st' :
  well_formed st -> match groups with Some g => NoDup g | None => True end ->
  auto_noise_run U noise st groups None = (st', Ok tt) ->
  let chosen := match groups with Some g => g | None => map fst st end in
  (forall g s u, In g chosen -> st_get U st g s = Some u -> exists u', noise u = Ok u' /\ st_get U st' g s = Some u') /\
  (forall g s, ~ In g chosen -> st_get U st' g s = st_get U st g s) /\
  (forall g s, st_get U st' g s = None <-> st_get U st g s = None) /\
  (forall g, In g chosen -> In g (map fst st)).
Proof.
  intros [W1 W2] Ng H chosen. unfold auto_noise_run in H.
  assert (Nc : NoDup chosen) by (unfold chosen; destruct groups; assumption).
  destruct (noise_groups_spec _ _ _ _ Nc W2 H) as [dn [td [[rest [F0 [F1 _]]] [F2 [F3 [F4 _]]]]]].
  rewrite (F1 eq_refl), app_nil_r in F0.
  assert (M : forall g s u, In g chosen -> st_get U st g s = Some u -> In (g, s) dn).
  { intros g s u Hg Hu. rewrite <- F0. apply in_flat_map. exists g. split; [exact Hg|]. unfold st_get in Hu.
    destruct (dget string_dec st g) as [l|]; [|discriminate]. apply dget_In in Hu. apply in_map_iff. exists s. split; [reflexivity|].
    apply (in_map fst) in Hu. exact Hu. }
  split; [|split; [|split]].
  - intros g s u Hg Hu. destruct (F3 g s (M g s u Hg Hu)) as [v [v' [G1 [G2 G3]]]]. exists v'. split; [congruence | exact G3].
  - intros g s Hg. apply F4. intros X. apply Hg. apply (visits_in st chosen g s). rewrite F0. exact X.
  - intros g s. destruct (in_dec (fun a b : string * string => ltac:(decide equality; apply string_dec)) (g, s) dn) as [X|X].
    + destruct (F3 g s X) as [v [v' [G1 [G2 G3]]]]. rewrite G1, G3. split; discriminate.
    + rewrite F4 by exact X. tauto.
  - intros g Hg. pose proof (F2 eq_refl g Hg) as X. destruct (in_dec string_dec g (map fst st)) as [Y|Y]; [exact Y|].
    exfalso. apply X. apply dget_None. exact Y.
Qed.

(** If it fails, the spectra are split, in the order of the visits, into those that have been replaced already, and the rest,
    which is unchanged and starts with the one that failed: a failure does not undo what was written before. *)
Theorem auto_noise_failure st groups st' e :
  well_formed st -> match groups with Some g => NoDup g | None => True end ->
  (forall g, In g (match groups with Some g => g | None => map fst st end) -> In g (map fst st)) ->
  auto_noise_run U noise st groups None = (st', Err e) ->
  exists done g0 s0 rest u0,
    visits st (match groups with Some g => g | None => map fst st end) = (done ++ (g0, s0) :: rest)%list /\
    st_get U st g0 s0 = Some u0 /\ noise u0 = Err e /\
    (forall g s, In (g, s) done -> exists u u', st_get U st g s = Some u /\ noise u = Ok u' /\ st_get U st' g s = Some u') /\
    (forall g s, ~ In (g, s) done -> st_get U st' g s = st_get U st g s).
Proof.
  intros [W1 W2] Ng Hin H. unfold auto_noise_run in H.
  set (chosen := match groups with Some g => g | None => map fst st end) in *.
  assert (Nc : NoDup chosen) by (unfold chosen; destruct groups; assumption).
  destruct (noise_groups_spec _ _ _ _ Nc W2 H) as [dn [td [[rest [F0 [_ F1]]] [_ [F3 [F4 F5]]]]]].
  destruct (F5 e eq_refl) as [[g0 [s0 [rst [u [P1 [P2 P3]]]]]]|[_ [g [P2 P3]]]].
  - exists dn, g0, s0, rst, u. rewrite <- P1, (F1 e eq_refl). auto.
  - exfalso. apply Hin in P2. apply dget_None in P3. contradiction.
Qed.

(** --spectra never works: an UnboundLocalError before anything is computed *)
Theorem auto_noise_spectra_refuted st groups spectra :
  (match groups with Some g => g | None => map fst st end) <> [] ->
  auto_noise_run U noise st groups (Some spectra) = (st, Err UnboundLocalError).
Proof. unfold auto_noise_run. destruct (match groups with Some g => g | None => map fst st end); [congruence | reflexivity]. Qed.
End N.

(** two groups, error bars that fail for 0: the first group is written, the second is left as it was *)
Definition ex_noise (n : nat) : result nat := match n with O => Err AssertionError | S _ => Ok (10 * n) end.
Example auto_noise_witness :
  auto_noise_run nat ex_noise [("a", [("x", 1); ("y", 2)]); ("b", [("x", 3)])] None None =
    ([("a", [("x", 10); ("y", 20)]); ("b", [("x", 30)])], Ok tt) /\
  auto_noise_run nat ex_noise [("a", [("x", 1); ("y", 2)]); ("b", [("x", 3)])] (Some ["b"]) None =
    ([("a", [("x", 1); ("y", 2)]); ("b", [("x", 30)])], Ok tt) /\
  auto_noise_run nat ex_noise [("a", [("x", 1); ("y", 0)]); ("b", [("x", 3)])] None None =
    ([("a", [("x", 10); ("y", 0)]); ("b", [("x", 3)])], Err AssertionError).
Proof. repeat split; reflexivity. Qed.

(** -- bootstrap_run.py -- *)

Lemma ddel_keys {V} (l : list (string * V)) k k' : NoDup (map fst l) -> In k' (map fst (ddel string_dec l k)) <-> In k' (map fst l) /\ k' <> k.
Proof.
  induction l as [|[k0 v0] l IH]; cbn; [tauto|]. intros N. inversion N as [|? ? N1 N2]; subst.
  destruct (string_dec k k0) as [->|Ne]; cbn; [|rewrite IH by exact N2; intuition congruence].
  split; [intros H; split; [right; exact H | intros ->; contradiction] | intros [[<-|H] X]; [congruence | exact H]].
Qed.
Lemma ddel_get {V} (l : list (string * V)) k k' : k' <> k -> dget string_dec (ddel string_dec l k) k' = dget string_dec l k'.
Proof.
  intros N. induction l as [|[k0 v0] l IH]; cbn; [reflexivity|].
  destruct (string_dec k k0) as [->|Ne]; cbn; [destruct (string_dec k' k0); congruence|]. destruct (string_dec k' k0); [reflexivity | exact IH].
Qed.
Lemma ddel_nodup {V} (l : list (string * V)) k : NoDup (map fst l) -> NoDup (map fst (ddel string_dec l k)).
Proof.
  induction l as [|[k0 v0] l IH]; cbn; [auto|]. intros N. inversion N as [|? ? N1 N2]; subst.
  destruct (string_dec k k0) as [->|Ne]; cbn; [exact N2|]. constructor; [|apply IH; exact N2].
  intros X. apply ddel_keys in X; tauto.
Qed.

Fixpoint nodupb (l : list string) : bool := match l with [] => true | x :: l' => negb (existsb (String.eqb x) l') && nodupb l' end.
Lemma nodupb_ok l : nodupb l = true -> NoDup l.
Proof.
  induction l as [|x l IH]; cbn; [constructor|]. intros H. apply andb_true_iff in H. destruct H as [H1 H2].
  constructor; [|auto]. intros X. apply negb_true_iff in H1. assert (E : existsb (String.eqb x) l = true); [|congruence].
  apply existsb_exists. exists x. split; [exact X | apply String.eqb_refl].
Qed.
Definition subb (l m : list string) : bool := forallb (fun x => existsb (String.eqb x) m) l.
Lemma subb_ok l m : subb l m = true -> forall x, In x l -> In x m.
Proof.
  unfold subb. rewrite forallb_forall. intros H x Hx. specialize (H x Hx). apply existsb_exists in H.
  destruct H as [y [Hy E]]. apply String.eqb_eq in E. congruence.
Qed.

(** the parameters of a signature that must be given *)
Definition required (sig : signature) : list string := map fst (filter (fun e => match snd e with None => true | _ => false end) sig).
Lemma required_ok sig i p : nth_error sig i = Some (p, None) -> In p (required sig).
Proof. intros H. apply nth_error_In in H. unfold required. apply in_map_iff. exists (p, None). split; [reflexivity|]. apply filter_In. auto. Qed.

Lemma keyword_call sig kw : NoDup (map fst sig) ->
  (forall k, In k (map fst kw) -> In k (map fst sig)) -> (forall p, In p (required sig) -> In p (map fst kw)) ->
  exists r, py_call sig [] kw = Ok r /\ map fst r = map fst sig /\
    forall p d, In (p, d) sig -> dget string_dec r p = match dget string_dec kw p with Some v => Some v | None => d end.
Proof.
  intros N K R. destruct (call_arguments sig [] kw N) as [[_ A] [B _]]. destruct A as [r Hr].
  - split; [cbn; lia|]. split; [exact K|]. split; [intros i p Hi; cbn in Hi; lia|]. intros i p _ E. apply R. eapply required_ok; eassumption.
  - exists r. split; [exact Hr|]. destruct (B r Hr) as [B1 B2]. split; [exact B1|]. intros p d Hp.
    apply In_nth_error in Hp. destruct Hp as [i Hi]. rewrite (B2 i p d Hi). destruct i; reflexivity.
Qed.

(** The options of the parser are parameters of bootstrap_run, so the script calls it, each parameter with the value of its
    option; maxiter, which has no option, has its default. *)
Theorem bootstrap_script_call ns :
  NoDup (map fst ns) -> (forall k, In k (map fst ns) <-> In k (map fst bootstrap_opts)) ->
  exists r, bootstrap_script ns = Ok r /\ map fst r = map fst bootstrap_sig /\
    (forall k v, dget string_dec ns k = Some v -> dget string_dec r k = Some v) /\
    dget string_dec r "maxiter" = Some (VInt 1).
Proof.
  intros N K. unfold bootstrap_script.
  destruct (dget string_dec ns "filename") as [f|] eqn:Ef.
  2:{ exfalso. apply dget_None in Ef. apply Ef. apply K. left; reflexivity. }
  assert (G : forall k, dget string_dec (("filename", f) :: ddel string_dec ns "filename") k = dget string_dec ns k).
  { intros k. destruct (string_dec k "filename") as [->|Ne].
    - rewrite dget_head. symmetry; exact Ef.
    - rewrite dget_other by exact Ne. apply ddel_get. exact Ne. }
  assert (Gk : forall k, In k (map fst (("filename", f) :: ddel string_dec ns "filename")) <-> In k (map fst ns)).
  { intros k. cbn. rewrite ddel_keys by exact N. split.
    - intros [<-|[H _]]; [apply dget_In in Ef; apply (in_map fst) in Ef; exact Ef | exact H].
    - intros H. destruct (string_dec k "filename"); [left; congruence | right; auto]. }
  destruct (keyword_call bootstrap_sig (("filename", f) :: ddel string_dec ns "filename")) as [r [Hr [R1 R2]]].
  - apply nodupb_ok. reflexivity.
  - intros k Hk. apply Gk, K in Hk. revert k Hk. apply subb_ok. reflexivity.
  - intros p Hp. apply Gk, K. revert p Hp. apply subb_ok. reflexivity.
  - exists r. split; [exact Hr|]. split; [exact R1|]. split.
    + intros k v Hk. assert (X : In k (map fst bootstrap_sig)).
      { apply (subb_ok (map fst bootstrap_opts)); [reflexivity|]. apply K. apply dget_In in Hk. apply (in_map fst) in Hk. exact Hk. }
      apply in_map_iff in X. destruct X as [[p d] [<- X]]. cbn in *. rewrite (R2 p d X), G, Hk. reflexivity.
    + rewrite (R2 "maxiter" (Some (VInt 1))) by (cbn; tauto). rewrite G.
      destruct (dget string_dec ns "maxiter") eqn:E; [|reflexivity]. exfalso. apply dget_In in E. apply (in_map fst) in E. apply K in E.
      cbn in E. repeat (destruct E as [E|E]; [discriminate|]). exact E.
Qed.

(** A further name in the namespace, which hera_cal's parse_args may add, makes the call a TypeError: the script does not filter. *)
Theorem bootstrap_script_extra_refuted ns k :
  NoDup (map fst ns) -> In "filename" (map fst ns) -> In k (map fst ns) -> ~ In k (map fst bootstrap_sig) ->
  bootstrap_script ns = Err TypeError.
Proof.
  intros N Hf Hk Nk. unfold bootstrap_script.
  destruct (dget string_dec ns "filename") as [f|] eqn:Ef; [|exfalso; apply dget_None in Ef; contradiction].
  apply (unknown_keyword _ _ _ k); [|exact Nk]. cbn. right. apply ddel_keys; [exact N|]. split; [exact Hk|].
  intros ->. apply Nk. left; reflexivity.
Qed.

Example bootstrap_script_witness :
  let ns := map (fun e => (fst e, VInt 7)) bootstrap_opts in
  NoDup (map fst ns) /\ (forall k, In k (map fst ns) <-> In k (map fst bootstrap_opts)) /\
  bootstrap_script (("profile", VBool false) :: ns) = Err TypeError.
Proof. split; [apply nodupb_ok; reflexivity|]. split; [intros k; reflexivity | reflexivity]. Qed.

(** Run with a file name only, bootstrap_run gets 100 samples instead of the function's 1000, no robust error, no messages *)
Theorem bootstrap_defaults_refuted f r1 r2 :
  bootstrap_script (("filename", f) :: flat_map (fun e => match snd e with Some v => [(fst e, v)] | None => [] end) bootstrap_opts) = Ok r1 ->
  py_call bootstrap_sig [f] [] = Ok r2 ->
  map fst r1 = map fst r2 /\
  (forall k, ~ In k ["Nsamples"; "robust_std"; "verbose"] -> dget string_dec r1 k = dget string_dec r2 k) /\
  dget string_dec r1 "Nsamples" = Some (VInt 100) /\ dget string_dec r2 "Nsamples" = Some (VInt 1000) /\
  dget string_dec r1 "robust_std" = Some (VBool false) /\ dget string_dec r2 "robust_std" = Some (VBool true) /\
  dget string_dec r1 "verbose" = Some (VBool false) /\ dget string_dec r2 "verbose" = Some (VBool true).
Proof.
  cbn. intros H1 H2. injection H1 as <-. injection H2 as <-. split; [reflexivity|]. split; [|repeat split; reflexivity].
  intros k Hk. cbn in Hk. cbn.
  repeat match goal with |- context[string_dec k ?x] => destruct (string_dec k x); [first [reflexivity | exfalso; subst; tauto]|] end.
  reflexivity.
Qed.

(** -- pspec_run.py -- *)

Lemma filter_keys {V} (keep : string -> bool) (l : list (string * V)) k :
  In k (map fst (filter (fun e => keep (fst e)) l)) <-> In k (map fst l) /\ keep k = true.
Proof.
  rewrite !in_map_iff. split.
  - intros [e [<- H]]. apply filter_In in H. destruct H as [H1 H2]. split; [exists e; auto | exact H2].
  - intros [[e [<- H]] K]. exists e. split; [reflexivity|]. apply filter_In. auto.
Qed.
Lemma filter_get {V} (keep : string -> bool) (l : list (string * V)) k : keep k = true ->
  dget string_dec (filter (fun e => keep (fst e)) l) k = dget string_dec l k.
Proof.
  intros K. induction l as [|[k0 v0] l IH]; cbn; [reflexivity|]. destruct (keep k0) eqn:E; cbn.
  - destruct (string_dec k k0); [reflexivity | exact IH].
  - destruct (string_dec k k0); [congruence | exact IH].
Qed.
Lemma filter_nodup {V} (keep : string -> bool) (l : list (string * V)) : NoDup (map fst l) -> NoDup (map fst (filter (fun e => keep (fst e)) l)).
Proof.
  induction l as [|[k0 v0] l IH]; cbn; [auto|]. intros N. inversion N; subst. destruct (keep k0); cbn; [|auto].
  constructor; [|auto]. rewrite filter_keys. tauto.
Qed.
Lemma dset_mem {V} (l : list (string * V)) k v k' : In k' (map fst (dset string_dec l k v)) <-> k' = k \/ In k' (map fst l).
Proof.
  destruct (dset_keys string_dec l k v) as [E|[N E]]; rewrite E.
  - split; [auto|]. intros [->|H]; [|exact H]. rewrite <- E.
    assert (X : dget string_dec (dset string_dec l k v) k = Some v) by (rewrite dget_dset; destruct (string_dec k k); congruence).
    apply dget_In in X. apply (in_map fst) in X. exact X.
  - rewrite in_app_iff. cbn. intuition congruence.
Qed.

(** Whatever names hera_cal adds to the namespace and takes out again, pspec_run is called with the values of the options, with
    the opposite of exclude_crosscorrs as include_crosscorrs, with the command line as history, and with the defaults of the
    parameters that have no option. *)
Theorem pspec_script_call keep ns history :
  NoDup (map fst ns) ->
  (forall k, In k (map fst ns) /\ keep k = true <-> In k (map fst pspec_run_opts)) ->
  exists r x, pspec_script keep ns history = Ok r /\ map fst r = map fst pspec_run_sig /\
    (forall k v, In k (map fst pspec_run_opts) -> k <> "exclude_crosscorrs" -> dget string_dec ns k = Some v -> dget string_dec r k = Some v) /\
    dget string_dec ns "exclude_crosscorrs" = Some x /\ dget string_dec r "include_crosscorrs" = Some (py_not x) /\
    dget string_dec r "history" = Some (VStr history) /\
    (forall k d, In (k, d) pspec_run_sig -> ~ In k (map fst pspec_run_opts) -> k <> "include_crosscorrs" -> k <> "history" ->
       dget string_dec r k = d).
Proof.
  intros N K. unfold pspec_script.
  set (kw := filter (fun e => keep (fst e)) ns).
  assert (Kk : forall k, In k (map fst kw) <-> In k (map fst pspec_run_opts)) by (intros k; unfold kw; rewrite filter_keys; apply K).
  assert (Nk : NoDup (map fst kw)) by (apply filter_nodup; exact N).
  assert (Gk : forall k, In k (map fst pspec_run_opts) -> dget string_dec kw k = dget string_dec ns k) by (intros k Hk; apply filter_get; apply K; exact Hk).
  assert (S : forall k, In k (map fst pspec_run_opts) -> exists v, dget string_dec kw k = Some v).
  { intros k Hk. destruct (dget string_dec kw k) eqn:E; [eauto|]. exfalso. apply dget_None in E. apply E. apply Kk. exact Hk. }
  destruct (S "dsets") as [d Ed]; [cbn; tauto|]. destruct (S "filename") as [f Ef]; [cbn; tauto|].
  destruct (S "exclude_crosscorrs") as [x Ex]; [cbn; tauto|]. rewrite Ed, Ef, Ex.
  set (kw1 := ddel string_dec (ddel string_dec (ddel string_dec kw "dsets") "filename") "exclude_crosscorrs").
  set (kw2 := dset string_dec kw1 "include_crosscorrs" (py_not x)).
  assert (K1 : forall k, In k (map fst kw1) <-> In k (map fst pspec_run_opts) /\ k <> "dsets" /\ k <> "filename" /\ k <> "exclude_crosscorrs").
  { intros k. unfold kw1. rewrite !ddel_keys by (repeat apply ddel_nodup; exact Nk). rewrite Kk. tauto. }
  assert (K2 : forall k, In k (map fst kw2) <-> k = "include_crosscorrs" \/ In k (map fst kw1)) by (intros k; apply dset_mem).
  assert (Nh : dget string_dec kw2 "history" = None).
  { apply dget_None. rewrite K2, K1. intros [E|[E _]]; [discriminate|]. cbn in E. repeat (destruct E as [E|E]; [discriminate|]). exact E. }
  rewrite Nh.
  destruct (keyword_call pspec_run_sig (("dsets", d) :: ("filename", f) :: ("history", VStr history) :: kw2)) as [r [Hr [R1 R2]]].
  - apply nodupb_ok. reflexivity.
  - intros k [<-|[<-|[<-|H]]]; [cbn; tauto | cbn; tauto | cbn; tauto |]. apply K2 in H. destruct H as [->|H]; [cbn; tauto|].
    apply K1 in H. destruct H as [H [_ [_ H3]]].
    assert (B : forall y, In y (map fst pspec_run_opts) -> y = "exclude_crosscorrs" \/ In y (map fst pspec_run_sig)).
    { intros y Hy. destruct (string_dec y "exclude_crosscorrs") as [|Ny]; [left; assumption | right].
      assert (Hy' : In y (filter (fun z => negb (String.eqb z "exclude_crosscorrs")) (map fst pspec_run_opts))).
      { apply filter_In. split; [exact Hy|]. apply negb_true_iff. apply String.eqb_neq. exact Ny. }
      revert y Hy' Hy Ny. intros y Hy' _ _. revert y Hy'. apply subb_ok. reflexivity. }
    destruct (B k H); [contradiction | assumption].
  - intros p Hp. cbn in Hp. cbn. tauto.
  - set (all := ("dsets", d) :: ("filename", f) :: ("history", VStr history) :: kw2) in *.
    assert (A : forall k, dget string_dec all k =
      if string_dec k "dsets" then Some d else if string_dec k "filename" then Some f else if string_dec k "history" then Some (VStr history)
      else if string_dec k "include_crosscorrs" then Some (py_not x) else if string_dec k "exclude_crosscorrs" then dget string_dec kw1 k
      else dget string_dec kw k).
    { intros k. unfold all. cbn [dget]. destruct (string_dec k "dsets"); [reflexivity|]. destruct (string_dec k "filename"); [reflexivity|].
      destruct (string_dec k "history"); [reflexivity|]. unfold kw2. rewrite dget_dset. destruct (string_dec k "include_crosscorrs"); [reflexivity|].
      destruct (string_dec k "exclude_crosscorrs"); [reflexivity|]. unfold kw1. rewrite !ddel_get by assumption. reflexivity. }
    assert (I : forall k v, dget string_dec all k = Some v -> In k (map fst pspec_run_sig) -> dget string_dec r k = Some v).
    { intros k v Hk X. apply in_map_iff in X. destruct X as [[p dd] [<- X]]. cbn [fst] in *. rewrite (R2 p dd X). fold all. rewrite Hk. reflexivity. }
    exists r, x. split; [exact Hr|]. split; [exact R1|]. split; [|split; [|split; [|split]]].
    + intros k v Hk Hne Hv. apply I.
      * rewrite A. destruct (string_dec k "dsets") as [->|]; [rewrite <- Ed; rewrite Gk; assumption|].
        destruct (string_dec k "filename") as [->|]; [rewrite <- Ef; rewrite Gk; assumption|].
        destruct (string_dec k "history") as [->|]; [exfalso; cbn in Hk; repeat (destruct Hk as [Hk|Hk]; [discriminate|]); exact Hk|].
        destruct (string_dec k "include_crosscorrs") as [->|]; [exfalso; cbn in Hk; repeat (destruct Hk as [Hk|Hk]; [discriminate|]); exact Hk|].
        destruct (string_dec k "exclude_crosscorrs"); [contradiction|]. rewrite Gk; assumption.
      * assert (Hy' : In k (filter (fun z => negb (String.eqb z "exclude_crosscorrs")) (map fst pspec_run_opts))).
        { apply filter_In. split; [exact Hk|]. apply negb_true_iff. apply String.eqb_neq. exact Hne. }
        revert Hy'. apply subb_ok. reflexivity.
    + rewrite <- Gk; [exact Ex | cbn; tauto].
    + apply I; [rewrite A; reflexivity | cbn; tauto].
    + apply I; [rewrite A; reflexivity | cbn; tauto].
    + intros k dd Hk Nk' N1 N2. rewrite (R2 k dd Hk). fold all. rewrite A.
      destruct (string_dec k "dsets") as [->|]; [exfalso; apply Nk'; cbn; tauto|].
      destruct (string_dec k "filename") as [->|]; [exfalso; apply Nk'; cbn; tauto|].
      destruct (string_dec k "history"); [contradiction|]. destruct (string_dec k "include_crosscorrs"); [contradiction|].
      destruct (string_dec k "exclude_crosscorrs") as [->|]; [exfalso; apply Nk'; cbn; tauto|].
      destruct (dget string_dec kw k) eqn:E; [|reflexivity]. exfalso. apply Nk'. apply Kk. apply dget_In in E. apply (in_map fst) in E. exact E.
Qed.

Example pspec_script_witness :
  let ns := ("profile", VBool false) :: map (fun e => (fst e, VBool true)) pspec_run_opts in
  let keep := fun k => negb (String.eqb k "profile") in
  NoDup (map fst ns) /\ (forall k, In k (map fst ns) /\ keep k = true <-> In k (map fst pspec_run_opts)) /\
  (exists r, pspec_script keep ns "cmd" = Ok r) /\ pspec_script (fun _ => true) ns "cmd" = Err TypeError.
Proof.
  cbv zeta. split; [apply nodupb_ok; reflexivity|]. split; [|split; [eexists; vm_compute; reflexivity | reflexivity]].
  intros k. cbn [map fst In]. replace (map fst (map (fun e : string * option pyval => (fst e, VBool true)) pspec_run_opts)) with (map fst pspec_run_opts) by reflexivity.
  split.
  - intros [[<-|H] K]; [discriminate | exact H].
  - intros H. split; [right; exact H|]. apply negb_true_iff. apply String.eqb_neq. intros ->.
    cbn in H. repeat (destruct H as [H|H]; [discriminate|]). exact H.
Qed.

(** Run with datasets and a file name only, the script and the function with its defaults differ in seven parameters *)
Theorem pspec_defaults_refuted d f history r1 r2 :
  pspec_script (fun _ => true)
    (("dsets", d) :: ("filename", f) :: flat_map (fun e => match snd e with Some v => [(fst e, v)] | None => [] end) pspec_run_opts) history = Ok r1 ->
  py_call pspec_run_sig [d; f] [("history", VStr history)] = Ok r2 ->
  (forall k, ~ In k ["psname_ext"; "exclude_permutations"; "store_window"; "broadcast_dset_flags"; "overwrite"; "file_type"; "verbose"] ->
             dget string_dec r1 k = dget string_dec r2 k) /\
  dget string_dec r1 "psname_ext" = Some (VStr "") /\ dget string_dec r2 "psname_ext" = Some VNone /\
  dget string_dec r1 "exclude_permutations" = Some (VBool false) /\ dget string_dec r2 "exclude_permutations" = Some (VBool true) /\
  dget string_dec r1 "store_window" = Some (VBool false) /\ dget string_dec r2 "store_window" = Some (VBool true) /\
  dget string_dec r1 "broadcast_dset_flags" = Some (VBool false) /\ dget string_dec r2 "broadcast_dset_flags" = Some (VBool true) /\
  dget string_dec r1 "overwrite" = Some (VBool false) /\ dget string_dec r2 "overwrite" = Some (VBool true) /\
  dget string_dec r1 "file_type" = Some (VStr "uvh5") /\ dget string_dec r2 "file_type" = Some (VStr "miriad") /\
  dget string_dec r1 "verbose" = Some (VBool false) /\ dget string_dec r2 "verbose" = Some (VBool true).
Proof.
  intros H1 H2. vm_compute in H1. vm_compute in H2. injection H1 as <-. injection H2 as <-. split; [|repeat split; reflexivity].
  intros k Hk. cbn in Hk. cbn [dget].
  repeat match goal with |- context[string_dec k ?x] => destruct (string_dec k x); [first [reflexivity | exfalso; subst; tauto]|] end.
  reflexivity.
Qed.

(** -- psc_merge_spectra.py -- *)

(** The script fails before it reads anything, whatever its arguments: the parser it asks for does not exist in the module. With
    the right name, the attribute uvp_split_str is missing; with that attribute, combine_psc_spectra refuses the keyword. The call
    that names dset_split_str is accepted. *)
Theorem merge_script_refuted ns :
  merge_script ns = Err AttributeError /\
  (~ In "uvp_split_str" (map fst ns) ->
     merge_script_gen container_names "get_combine_psc_spectra_argparser" merge_call ns = Err AttributeError) /\
  ((forall k, In k (map snd merge_call) -> In k (map fst ns)) ->
     merge_script_gen container_names "get_combine_psc_spectra_argparser" merge_call ns = Err TypeError) /\
  ((forall k, In k merge_opts -> In k (map fst ns)) ->
     exists r, merge_script_gen container_names "get_combine_psc_spectra_argparser"
       [("psc", "filename"); ("dset_split_str", "dset_split_str"); ("ext_split_str", "ext_split_str"); ("verbose", "verbose")] ns = Ok r /\
       dget string_dec r "psc" = dget string_dec ns "filename" /\
       (forall k, In k ["dset_split_str"; "ext_split_str"; "verbose"] -> dget string_dec r k = dget string_dec ns k) /\
       dget string_dec r "groups" = Some VNone /\ dget string_dec r "merge_history" = Some (VBool true) /\
       dget string_dec r "overwrite" = Some (VBool false)).
Proof.
  assert (S : forall k, In k (map fst ns) -> exists v, dget string_dec ns k = Some v).
  { intros k Hk. destruct (dget string_dec ns k) eqn:E; [eauto|]. apply dget_None in E. contradiction. }
  split; [reflexivity|]. split; [|split].
  - intros N. unfold merge_script_gen, merge_call. cbn. apply (dget_None string_dec) in N. rewrite N.
    destruct (dget string_dec ns "filename"); reflexivity.
  - intros H. unfold merge_script_gen, merge_call. cbn.
    destruct (S "filename") as [a ->]; [apply H; cbn; tauto|]. destruct (S "uvp_split_str") as [b ->]; [apply H; cbn; tauto|].
    destruct (S "ext_split_str") as [c ->]; [apply H; cbn; tauto|]. destruct (S "verbose") as [e ->]; [apply H; cbn; tauto|].
    reflexivity.
  - intros H. unfold merge_script_gen. cbn.
    destruct (S "filename") as [a Ea]; [apply H; cbn; tauto|]. destruct (S "dset_split_str") as [b Eb]; [apply H; cbn; tauto|].
    destruct (S "ext_split_str") as [c Ec]; [apply H; cbn; tauto|]. destruct (S "verbose") as [e Ee]; [apply H; cbn; tauto|].
    rewrite Ea, Eb, Ec, Ee. cbn. eexists. split; [reflexivity|]. cbn.
    split; [reflexivity|]. split; [|repeat split; reflexivity].
    intros k [<-|[<-|[<-|[]]]]; cbn; congruence.
Qed.

(** -- pspec_red.py -- *)

Lemma bc_rev_len a : forall b r, bc_rev a b = Some r -> List.length r = Nat.max (List.length a) (List.length b).
Proof.
  induction a as [|x a IH]; intros [|y b] r H; cbn in H; try (injection H as <-; cbn; reflexivity).
  destruct (bc_rev a b) as [r'|] eqn:E; [|discriminate]. apply IH in E.
  repeat match type of H with (if ?c then _ else _) = _ => destruct c end; try discriminate; injection H as <-; cbn; lia.
Qed.

(** an array cannot be multiplied in place by one with more axes *)
Lemma inplace_more_axes a b : List.length a < List.length b -> inplace_ok a b = false.
Proof.
  intros L. unfold inplace_ok, np_broadcast. destruct (bc_rev (rev a) (rev b)) as [r|] eqn:E; cbn; [|reflexivity].
  apply bc_rev_len in E. rewrite !rev_length in E.
  destruct (list_eq_dec Nat.eq_dec (rev r) a) as [X|]; [|reflexivity]. apply (f_equal (@List.length nat)) in X. rewrite rev_length in X. lia.
Qed.

Lemma red_call_refused c bls p : red_call c bls p = Err TypeError.
Proof.
  unfold red_call. apply (unknown_keyword _ _ _ "avg_group"); [cbn; tauto|].
  cbn. intros E. repeat (destruct E as [E|E]; [discriminate|]). exact E.
Qed.

(** With two or more datasets the script always fails, whatever the settings, and stores no spectrum: pspec() has no parameter
    avg_group (nor the two others) and needs pols. The conversion to mK fails even before that, for arrays of the present shape
    (Nblts, Nfreqs, Npols). With one dataset there is nothing to do, and nothing is stored either. *)
Theorem pspec_red_refuted c bls conv shapes :
  (2 <= List.length shapes -> exists e, pspec_red c bls conv shapes = ([], Err e)) /\
  (conv = true -> shapes <> [] -> pspec_red c bls conv shapes = ([], Err ValueError)) /\
  (forall p, red_call c bls p = Err TypeError) /\
  fst (pspec_red c bls conv shapes) = [].
Proof.
  assert (Cv : forall sh, convert_units sh = Err ValueError).
  { intros [[a b] d]. unfold convert_units. rewrite inplace_more_axes by (cbn; lia). reflexivity. }
  assert (Cm : shapes <> [] -> map_res convert_units shapes = Err ValueError).
  { intros N. destruct shapes as [|s l]; [congruence|]. cbn. rewrite Cv. reflexivity. }
  split; [|split; [|split]].
  - intros L. unfold pspec_red. destruct conv.
    + rewrite Cm; [eauto|]. destruct shapes; [cbn in L; lia | discriminate].
    + destruct shapes as [|s1 [|s2 l]]; [cbn in L; lia | cbn in L; lia |].
      set (n := List.length (s1 :: s2 :: l)). replace (red_pairs n) with ((0, 1) :: tl (red_pairs n)) by reflexivity.
      cbn [red_loop]. rewrite red_call_refused. eauto.
  - intros -> N. unfold pspec_red. rewrite Cm by exact N. reflexivity.
  - apply red_call_refused.
  - unfold pspec_red. destruct (if conv then _ else _); [|reflexivity]. destruct shapes; [reflexivity|].
    destruct (red_pairs _); cbn [red_loop]; [reflexivity|]. rewrite red_call_refused. reflexivity.
Qed.
Print Assumptions auto_noise_all. Print Assumptions auto_noise_failure. Print Assumptions auto_noise_spectra_refuted.
Print Assumptions bootstrap_script_call. Print Assumptions bootstrap_script_extra_refuted. Print Assumptions bootstrap_defaults_refuted.
Print Assumptions pspec_script_call. Print Assumptions pspec_defaults_refuted. Print Assumptions merge_script_refuted. Print Assumptions pspec_red_refuted.

(** numpy broadcasting, axis by axis from the last one (missing axes count as 1): lengths agree or one of them is 1, which gives way to the other *)
Theorem broadcast_spec : forall a b,
  (forall r, np_broadcast a b = Some r ->
     List.length r = Nat.max (List.length a) (List.length b) /\
     forall i, let x := nth i (rev a) 1 in let y := nth i (rev b) 1 in
       (x = y \/ x = 1 \/ y = 1) /\ nth i (rev r) 1 = if Nat.eqb x 1 then y else x) /\
  (np_broadcast a b = None <-> exists i, let x := nth i (rev a) 1 in let y := nth i (rev b) 1 in x <> y /\ x <> 1 /\ y <> 1).
Proof.
  assert (K : forall a b,
    (forall r, bc_rev a b = Some r -> forall i, let x := nth i a 1 in let y := nth i b 1 in
        (x = y \/ x = 1 \/ y = 1) /\ nth i r 1 = if Nat.eqb x 1 then y else x) /\
    (bc_rev a b = None -> exists i, let x := nth i a 1 in let y := nth i b 1 in x <> y /\ x <> 1 /\ y <> 1)).
  { induction a as [|x a IH]; intros [|y b].
    - split; [|discriminate]. intros r H [|i]; injection H as <-; cbn; auto.
    - split; [|discriminate]. intros r H [|i]; injection H as <-; cbn; auto.
    - split; [|discriminate]. intros r H [|i]; injection H as <-; cbn.
      + split; [auto|]. destruct (Nat.eqb_spec x 1); auto.
      + split; [auto|]. destruct (Nat.eqb_spec (nth i a 1) 1); auto.
    - destruct (IH b) as [I1 I2]. cbn [bc_rev]. destruct (bc_rev a b) as [r'|] eqn:E.
      + specialize (I1 r' eq_refl). destruct (Nat.eqb_spec x y) as [->|N].
        * split; [|discriminate]. intros r H [|i]; injection H as <-; [cbn; split; [auto|]; destruct (Nat.eqb y 1); reflexivity | exact (I1 i)].
        * destruct (Nat.eqb_spec x 1) as [->|N1].
          { split; [|discriminate]. intros r H [|i]; injection H as <-; [cbn; auto | exact (I1 i)]. }
          destruct (Nat.eqb_spec y 1) as [->|N2].
          { split; [|discriminate]. intros r H [|i]; injection H as <-; [cbn; destruct (Nat.eqb_spec x 1); [contradiction|auto] | exact (I1 i)]. }
          split; [discriminate|]. intros _. exists 0. cbn. auto.
      + split; [discriminate|]. intros _. destruct (I2 eq_refl) as [i Hi]. exists (S i). exact Hi. }
  intros a b. destruct (K (rev a) (rev b)) as [K1 K2]. unfold np_broadcast. destruct (bc_rev (rev a) (rev b)) as [r|] eqn:E; cbn [option_map].
  - split.
    + intros r' H. injection H as <-. rewrite rev_involutive. split; [|exact (K1 r eq_refl)].
      rewrite rev_length. apply bc_rev_len in E. rewrite !rev_length in E. exact E.
    + split; [discriminate|]. intros (i & H1 & H2 & H3). destruct (K1 r eq_refl i) as [[H|[H|H]] _]; contradiction.
  - split; [discriminate|]. split; [|reflexivity]. intros _. exact (K2 eq_refl).
Qed.
Example broadcast_ones : np_broadcast [1; 7; 4] [5; 1; 1; 4] = Some [5; 1; 7; 4] /\ np_broadcast [2; 3] [4; 3] = None.
Proof. split; reflexivity. Qed.
Print Assumptions broadcast_spec.
