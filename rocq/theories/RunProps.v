(** C175-C182: bootstrap_run and pspec_run on a container. *)
From Coq Require Import String Ascii.
From Verif Require Import PyDict PyStr CliProps.
From Verif Require Import Prelude RunModel.
Open Scope nat_scope.

(** ** output names *)
Definition is_digit (c : ascii) : bool := match char_digit c with Some _ => true | None => false end.
Lemma str_nat_digits i : Forall (fun c => is_digit c = true) (str_Z (Z.of_nat i)) /\ str_Z (Z.of_nat i) <> [].
Proof.
  unfold str_Z. replace (Z.of_nat i <? 0)%Z with false by (symmetry; apply Z.ltb_ge; lia).
  destruct (digits_spec (Z.of_nat i) ltac:(lia)) as (_ & F & N). split; [| destruct (digits (Z.of_nat i)); [congruence | discriminate]].
  apply Forall_forall. intros c H. apply in_map_iff in H. destruct H as (d & <- & Hd). rewrite Forall_forall in F. unfold is_digit. rewrite char_digit_digit by auto. reflexivity.
Qed.
Lemma str_Z_inj a b : str_Z a = str_Z b -> a = b.
Proof. intros H. pose proof (int_str a) as A. rewrite H, int_str in A. congruence. Qed.
(** two texts "non-digit, then digits" *)
Lemma digit_tail (u v d e : pystr) c1 c2 : is_digit c1 = false -> is_digit c2 = false -> Forall (fun c => is_digit c = true) d -> Forall (fun c => is_digit c = true) e ->
  (u ++ [c1]) ++ d = (v ++ [c2]) ++ e -> u = v /\ c1 = c2 /\ d = e.
Proof.
  intros N1 N2. revert e. induction d as [| x d IH] using rev_ind; intros e Fd Fe H.
  - destruct e as [| y e _] using rev_ind; [rewrite !app_nil_r in H; apply app_inj_tail in H; intuition |].
    rewrite app_nil_r, app_assoc in H. apply app_inj_tail in H. destruct H as [_ H]. apply Forall_app in Fe. destruct Fe as [_ Fe]. inversion Fe; subst. congruence.
  - destruct e as [| y e _] using rev_ind.
    + rewrite app_nil_r, app_assoc in H. apply app_inj_tail in H. destruct H as [_ H]. apply Forall_app in Fd. destruct Fd as [_ Fd]. inversion Fd; subst. congruence.
    + rewrite !app_assoc in H. apply app_inj_tail in H. destruct H as [H ->]. apply Forall_app in Fd, Fe. destruct (IH e (proj1 Fd) (proj1 Fe) H) as (-> & -> & ->). auto.
Qed.
Definition out_name (k : skey) (o : option nat) : skey := match o with None => avg_name k | Some i => bs_name k i end.
(** the outputs of different spectra, and different outputs of one, never have the same name *)
Theorem bootstrap_names_distinct : forall k k' o o', out_name k o = out_name k' o' -> k = k' /\ o = o'.
Proof.
  intros [g p] [g' p'] o o' H. assert (D : forall i, Forall (fun c => is_digit c = true) (str_Z (Z.of_nat i))) by (intros; apply str_nat_digits).
  assert (NG : forall u v i, u ++ s_ "_avg" = v ++ s_ "_bs" ++ str_Z (Z.of_nat i) -> False).
  { intros u v i Q. change (s_ "_avg") with (s_ "_av" ++ ["g"%char]) in Q. change (s_ "_bs") with (s_ "_b" ++ ["s"%char]) in Q. rewrite !app_assoc in Q.
    rewrite <- (app_nil_r ((u ++ s_ "_av") ++ ["g"%char])) in Q. apply digit_tail in Q; [destruct Q as (_ & Q & _); discriminate | reflexivity | reflexivity | constructor | apply D]. }
  unfold out_name, avg_name, bs_name in H. destruct o as [i |], o' as [i' |]; cbn [fst snd] in H; apply pair_equal_spec in H; destruct H as [-> H].
  - change (s_ "_bs") with (s_ "_b" ++ ["s"%char]) in H. rewrite !app_assoc in H. apply digit_tail in H; try reflexivity; try apply D.
    destruct H as (H & _ & E). apply app_inv_tail in H. apply str_Z_inj in E. apply Nat2Z.inj in E. subst. auto.
  - exfalso. symmetry in H. eapply NG, H.
  - exfalso. eapply NG, H.
  - apply app_inv_tail in H. subst. auto.
Qed.

Section Run.
Context {obj : Type} (valid : obj -> bool).
Notation put := (put valid). Notation put_all := (put_all valid). Notation store := (@store obj).
Definition look (s : store) (k : skey) : option obj := dget skey_dec s k.
Definition uniq (s : store) : Prop := NoDup (map fst s).
Lemma put_other s k x ov s' res : uniq s -> put s k x ov = (s', res) -> uniq s' /\ (forall k', k' <> k -> look s' k' = look s k') /\ (res = Ok tt -> look s' k = Some x) /\ (ov = false -> forall k' y, look s k' = Some y -> look s' k' = Some y).
Proof.
  intros U H. unfold RunModel.put in H. unfold look.
  assert (PS : uniq (dset skey_dec s k x) /\ (forall k', k' <> k -> dget skey_dec (dset skey_dec s k x) k' = dget skey_dec s k') /\ dget skey_dec (dset skey_dec s k x) k = Some x).
  { split; [apply dset_NoDup, U |]. split; [intros k' N; rewrite dget_dset; destruct (skey_dec k' k); congruence | rewrite dget_dset; destruct (skey_dec k k); congruence]. }
  destruct PS as (P1 & P2 & P3).
  destruct (dget skey_dec s k) as [y |] eqn:E.
  - destruct ov; [| injection H as <- <-; repeat split; auto; discriminate]. destruct (valid x); injection H as <- <-.
    + repeat split; auto. discriminate.
    + split; [apply ddel_NoDup, U |]. split; [| split; discriminate]. intros k' N. rewrite dget_ddel by exact U. destruct (skey_dec k' k); congruence.
  - destruct (valid x); injection H as <- <-; [| repeat split; auto; discriminate]. repeat split; auto. intros _ k' z Hz. rewrite P2; [assumption |]. intros ->. congruence.
Qed.
Lemma put_all_spec l : forall s ov s' res, uniq s -> NoDup (map fst l) -> put_all s l ov = (s', res) ->
  uniq s' /\ (forall k', ~ In k' (map fst l) -> look s' k' = look s k') /\ (res = Ok tt -> forall k x, In (k, x) l -> look s' k = Some x) /\ (ov = false -> forall k' y, look s k' = Some y -> look s' k' = Some y).
Proof.
  induction l as [| [k x] l IH]; intros s ov s' res U ND H; cbn [RunModel.put_all map fst] in *.
  - injection H as <- <-. repeat split; auto. intros _ k x [].
  - inversion ND as [| ? ? NI ND']; subst. destruct (put s k x ov) as [s1 [[] | e]] eqn:P; destruct (put_other _ _ _ _ _ _ U P) as (U1 & O1 & S1 & K1).
    + destruct (IH _ _ _ _ U1 ND' H) as (U2 & O2 & S2 & K2). split; [assumption |]. split; [| split].
      * intros k' N. rewrite O2 by (intros Q; apply N; right; exact Q). apply O1. intros ->. apply N. left. reflexivity.
      * intros R k' y [Q | Q]; [injection Q as <- <- | apply S2; assumption]. rewrite O2 by assumption. apply S1. reflexivity.
      * intros F k' y Hy. apply K2; [assumption |]. apply K1; assumption.
    + injection H as <- <-. split; [assumption |]. split; [| split; [discriminate | assumption]]. intros k' N. apply O1. intros ->. apply N. left. reflexivity.
Qed.

Section Boot.
Context {rng : Type} (reseed : Z -> rng) (average : obj -> result obj) (resample : obj -> rng -> result obj * rng) (errors : obj -> list obj -> result obj).
Notation bootstrap_error := (bootstrap_error reseed average resample errors).
Notation boot_loop := (boot_loop valid reseed average resample errors).
Notation bootstrap_run := (bootstrap_run valid reseed average resample errors).
(** o is the name of an output of spectrum k *)
Definition output_of (keep : bool) (n : nat) (k o : skey) : Prop := o = avg_name k \/ (keep = true /\ exists i, i < n /\ o = bs_name k i).
(** the spectra to be processed: those asked for that exist, or all *)
Definition chosen (spectra : option (list skey)) (s : store) (k : skey) : Prop := (exists x, look s k = Some x) /\ match spectra with None => True | Some l => In k l end.
Lemma draws_length n x : forall r bs r', draws resample n x r = (Ok bs, r') -> length bs = n.
Proof.
  induction n as [| n IH]; intros r bs r' H; cbn in H; [injection H as <- _; reflexivity |]. destruct (resample x r) as [[b | e] r1]; [| discriminate].
  destruct (draws resample n x r1) as [[bs1 | e] r2] eqn:D; [| discriminate]. injection H as <- _. cbn. f_equal. eapply IH, D.
Qed.
Lemma error_length seed n x r a bs r' : bootstrap_error seed n x r = (Ok (a, bs), r') -> length bs = n.
Proof.
  unfold RunModel.bootstrap_error. destruct (average x); [| discriminate]. destruct (draws _ _ _ _) as [[l | e] r2] eqn:D; [| discriminate].
  destruct (errors _ _); [| discriminate]. intros H. injection H as _ <- _. eapply draws_length, D.
Qed.
Lemma error_seeded z n x r r0 : fst (bootstrap_error (Some z) n x r) = fst (bootstrap_error (Some z) n x r0).
Proof. unfold RunModel.bootstrap_error. destruct (average x); [| reflexivity]. destruct (draws _ _ _ _) as [[l | e] r2]; reflexivity. Qed.
Lemma outputs_In keep k (a : obj) bs o y : In (o, y) (outputs keep k a bs) <-> (o = avg_name k /\ y = a) \/ (keep = true /\ exists i, nth_error bs i = Some y /\ o = bs_name k i).
Proof.
  unfold outputs. cbn [In]. destruct keep.
  - split.
    + intros [Q | Q]; [injection Q as <- <-; auto |]. right. split; [reflexivity |]. apply in_map_iff in Q. destruct Q as ([i b] & Q & I). cbn in Q. injection Q as <- <-.
      apply In_nth_error in I. destruct I as [j I]. assert (G : forall (l : list obj) a0 j, nth_error (combine (seq a0 (length l)) l) j = Some (i, b) -> nth_error l j = Some b /\ i = a0 + j).
      { induction l as [| z l IH]; intros a0 [| j'] Hj; cbn in Hj; try discriminate; [injection Hj as <- <-; split; [reflexivity | lia] |]. destruct (IH _ _ Hj). split; [assumption | lia]. }
      apply G in I. destruct I as [I ->]. exists (0 + j). auto.
    + intros [[-> ->] | (_ & i & Hi & ->)]; [left; reflexivity | right]. apply in_map_iff. exists (i, y). split; [reflexivity |].
      assert (G : forall (l : list obj) a0 j, nth_error l j = Some y -> In (a0 + j, y) (combine (seq a0 (length l)) l)).
      { induction l as [| z l IH]; intros a0 [| j'] Hj; cbn in Hj; try discriminate; cbn; [injection Hj as ->; left; f_equal; lia | right; replace (a0 + S j') with (S a0 + j') by lia; apply IH, Hj]. }
      apply (G bs 0 i Hi).
  - cbn. split; [intros [Q | []]; injection Q as <- <-; auto | intros [[-> ->] | (Q & _)]; [auto | discriminate]].
Qed.
Lemma outputs_NoDup keep k (a : obj) bs : NoDup (map fst (outputs keep k a bs)).
Proof.
  unfold outputs. cbn [map fst]. destruct keep; [| repeat constructor; intros []]. rewrite map_map. cbn [fst]. constructor.
  - intros Q. apply in_map_iff in Q. destruct Q as ([i b] & Q & _). cbn in Q. pose proof (bootstrap_names_distinct k k (Some i) None Q). intuition discriminate.
  - assert (E : map (fun x : nat * obj => bs_name k (fst x)) (combine (seq 0 (length bs)) bs) = map (bs_name k) (seq 0 (length bs))).
    { generalize 0. induction bs as [| b bs IH]; intros a0; cbn; [reflexivity | rewrite IH; reflexivity]. }
    rewrite E. apply FinFun.Injective_map_NoDup; [| apply seq_NoDup]. intros i j Q. pose proof (bootstrap_names_distinct k k (Some i) (Some j) Q) as [_ X]. congruence.
Qed.
Lemma output_keys keep n k (a : obj) bs o : length bs = n -> (In o (map fst (outputs keep k a bs)) <-> output_of keep n k o).
Proof.
  intros L. split.
  - intros Q. apply in_map_iff in Q. destruct Q as ([o' y] & <- & Q). apply outputs_In in Q. cbn. destruct Q as [[-> _] | (K & i & Hi & ->)]; [left; reflexivity | right].
    split; [assumption |]. exists i. split; [| reflexivity]. rewrite <- L. apply nth_error_Some. congruence.
  - intros [-> | (K & i & Hi & ->)]; apply in_map_iff.
    + exists (avg_name k, a). split; [reflexivity |]. apply outputs_In. auto.
    + destruct (nth_error bs i) as [y |] eqn:E; [| apply nth_error_None in E; lia]. exists (bs_name k i, y). split; [reflexivity |]. apply outputs_In. right. eauto.
Qed.
Lemma output_inj keep n k k' o : output_of keep n k o -> output_of keep n k' o -> k = k'.
Proof.
  assert (G : forall k, output_of keep n k o -> exists x, o = out_name k x) by (intros q [-> | (_ & i & _ & ->)]; [exists None | exists (Some i)]; reflexivity).
  intros A B. apply G in A, B. destruct A as [x ->], B as [y E]. apply bootstrap_names_distinct in E. tauto.
Qed.
Lemma output_dec keep n k o : output_of keep n k o \/ ~ output_of keep n k o.
Proof.
  destruct (in_dec skey_dec o (avg_name k :: if keep then map (bs_name k) (seq 0 n) else [])) as [I | N].
  - left. destruct I as [<- | I]; [left; reflexivity |]. destruct keep; [| destruct I]. right. split; [reflexivity |]. apply in_map_iff in I. destruct I as (i & <- & Hi). apply in_seq in Hi. exists i. split; [lia | reflexivity].
  - right. intros [-> | (K & i & Hi & ->)]; apply N; [left; reflexivity | right]. subst keep. apply in_map, in_seq. lia.
Qed.

(** whatever happens: only outputs change; without overwrite nothing that exists changes *)
Lemma loop_safe seed n keep ov ks : forall s r s' r' res, uniq s -> boot_loop seed n keep ov ks s r = (s', r', res) ->
  uniq s' /\ (forall o, (forall k, In k ks -> ~ output_of keep n k o) -> look s' o = look s o) /\ (ov = false -> forall k y, look s k = Some y -> look s' k = Some y).
Proof.
  induction ks as [| k ks IH]; intros s r s' r' res U H; cbn [RunModel.boot_loop] in H; [injection H as <- _ _; auto |].
  destruct (dget skey_dec s k) as [x |]; [| injection H as <- _ _; auto]. destruct (bootstrap_error seed n x r) as [[[a bs] | e] r1] eqn:B; [| injection H as <- _ _; auto].
  pose proof (error_length _ _ _ _ _ _ _ B) as L. destruct (put_all s (outputs keep k a bs) ov) as [s1 res1] eqn:P.
  destruct (put_all_spec _ _ _ _ _ U (outputs_NoDup keep k a bs) P) as (U1 & O1 & _ & K1). destruct res1 as [[] | e].
  - destruct (IH _ _ _ _ _ U1 H) as (U2 & O2 & K2). split; [assumption |]. split.
    + intros o N. rewrite O2 by (intros k' I; apply N; right; exact I). apply O1. rewrite (output_keys keep n) by exact L. apply N. left. reflexivity.
    + intros F k' y Hy. apply K2; [assumption |]. apply K1; assumption.
  - injection H as <- _ _. split; [assumption |]. split; [| assumption]. intros o N. apply O1. rewrite (output_keys keep n) by exact L. apply N. left. reflexivity.
Qed.
Lemma loop_done z n keep ov ks : forall s r s' r', uniq s -> boot_loop (Some z) n keep ov ks s r = (s', r', Ok tt) ->
  (forall k k', In k ks -> In k' ks -> ~ output_of keep n k k') ->
  forall k x, In k ks -> look s k = Some x ->
    exists a bs, (forall r0, fst (bootstrap_error (Some z) n x r0) = Ok (a, bs)) /\ length bs = n /\ look s' (avg_name k) = Some a /\ (keep = true -> forall i b, nth_error bs i = Some b -> look s' (bs_name k i) = Some b).
Proof.
  induction ks as [| k0 ks IH]; intros s r s' r' U H NC k x Hk Hx; [destruct Hk |]. cbn [RunModel.boot_loop] in H.
  destruct (dget skey_dec s k0) as [x0 |] eqn:E0; [| discriminate]. destruct (bootstrap_error (Some z) n x0 r) as [[[a bs] | e] r1] eqn:B; [| discriminate].
  pose proof (error_length _ _ _ _ _ _ _ B) as L. destruct (put_all s (outputs keep k0 a bs) ov) as [s1 [[] | e]] eqn:P; [| discriminate].
  destruct (put_all_spec _ _ _ _ _ U (outputs_NoDup keep k0 a bs) P) as (U1 & O1 & S1 & _). specialize (S1 eq_refl).
  assert (NC' : forall k k', In k ks -> In k' ks -> ~ output_of keep n k k') by (intros; apply NC; right; assumption).
  assert (Same : look s1 k = Some x). { rewrite O1; [exact Hx |]. rewrite (output_keys keep n) by exact L. apply NC; [left; reflexivity | exact Hk]. }
  destruct (in_dec skey_dec k ks) as [I | NI]; [eapply IH; eauto |].
  destruct Hk as [<- | Hk]; [| contradiction]. unfold look in Hx. rewrite E0 in Hx. injection Hx as <-.
  destruct (loop_safe _ _ _ _ _ _ _ _ _ _ U1 H) as (_ & O2 & _).
  assert (Keep : forall o y, In (o, y) (outputs keep k0 a bs) -> look s' o = Some y).
  { intros o y Q. rewrite O2; [apply S1, Q |]. intros k' I' Q'. assert (output_of keep n k0 o) by (apply (output_keys keep n k0 a bs o L); apply in_map_iff; exists (o, y); auto).
    assert (k' = k0) by (eapply output_inj; eauto). subst. contradiction. }
  exists a, bs. split; [intros r0; rewrite (error_seeded z n x0 r0 r), B; reflexivity |]. split; [exact L |]. split; [apply Keep, outputs_In; auto |].
  intros K i b Hb. apply Keep, outputs_In. right. eauto.
Qed.
Lemma selected_In spectra s k : In k (selected spectra s) <-> chosen spectra s k.
Proof.
  unfold selected, chosen, look. assert (M : In k (map fst s) <-> exists x, dget skey_dec s k = Some x).
  { split; [intros I; destruct (dget skey_dec s k) eqn:E; [eauto | apply dget_None in E; contradiction] | intros [x E]; destruct (in_dec skey_dec k (map fst s)) as [| N]; [assumption | apply (dget_None skey_dec) in N; congruence]]. }
  destruct spectra as [l |]; [| tauto]. rewrite filter_In. destruct (in_dec skey_dec k (map fst s)); rewrite <- M; intuition discriminate.
Qed.
Lemma run_cases groups spectra seed n keep ov s r s' r' res : bootstrap_run groups spectra seed n keep ov s r = (s', r', res) ->
  (s' = s /\ r' = r /\ res = Err AssertionError) \/ boot_loop seed n keep ov (selected spectra s) s r = (s', r', res).
Proof.
  unfold RunModel.bootstrap_run. destruct (Nat.eqb (length groups) 0); [intros H; injection H as <- <- <-; auto |].
  destruct spectra as [l |]; [| auto]. destruct (selected (Some l) s); [intros H; injection H as <- <- <-; auto | auto].
Qed.

(** A run that succeeds stores for every chosen spectrum the average with the errors and, if asked to, every resample, as computed
    from this spectrum and the seed alone; nothing else changes.  (No chosen spectrum is named like an output of another one.) *)
Theorem bootstrap_run_outputs :
  forall groups spectra z n keep ov s r s' r', uniq s -> bootstrap_run groups spectra (Some z) n keep ov s r = (s', r', Ok tt) ->
    (forall k k', chosen spectra s k -> chosen spectra s k' -> ~ output_of keep n k k') ->
    (forall k x, chosen spectra s k -> look s k = Some x ->
       exists a bs, (forall r0, fst (bootstrap_error (Some z) n x r0) = Ok (a, bs)) /\ length bs = n /\ look s' (avg_name k) = Some a /\
         (keep = true -> forall i b, nth_error bs i = Some b -> look s' (bs_name k i) = Some b)) /\
    (forall o, (forall k, chosen spectra s k -> ~ output_of keep n k o) -> look s' o = look s o).
Proof.
  intros groups spectra z n keep ov s r s' r' U H NC. destruct (run_cases _ _ _ _ _ _ _ _ _ _ _ H) as [(_ & _ & Q) | L]; [discriminate |]. split.
  - intros k x C Hx. eapply loop_done; eauto; [intros k1 k2 H1 H2; apply NC; apply selected_In; assumption | apply selected_In; assumption].
  - intros o N. destruct (loop_safe _ _ _ _ _ _ _ _ _ _ U L) as (_ & O & _). apply O. intros k I. apply N, selected_In, I.
Qed.
(** however a run ends, only outputs of chosen spectra change, and without overwrite no existing spectrum does *)
Theorem bootstrap_run_safe :
  forall groups spectra seed n keep ov s r s' r' res, uniq s -> bootstrap_run groups spectra seed n keep ov s r = (s', r', res) ->
    (forall o, (forall k, chosen spectra s k -> ~ output_of keep n k o) -> look s' o = look s o) /\
    (ov = false -> forall k y, look s k = Some y -> look s' k = Some y).
Proof.
  intros groups spectra seed n keep ov s r s' r' res U H. destruct (run_cases _ _ _ _ _ _ _ _ _ _ _ H) as [(-> & _ & _) | L]; [auto |].
  destruct (loop_safe _ _ _ _ _ _ _ _ _ _ U L) as (_ & O & K). split; [| exact K]. intros o N. apply O. intros k I. apply N, selected_In, I.
Qed.
(** nothing to do is an error, if no spectrum of the list exists or the file has no groups *)
Theorem bootstrap_run_nothing :
  forall groups l seed n keep ov s r, (groups = [] \/ forall k, In k l -> look s k = None) -> bootstrap_run groups (Some l) seed n keep ov s r = (s, r, Err AssertionError).
Proof.
  intros groups l seed n keep ov s r [-> | H]; [reflexivity |]. unfold RunModel.bootstrap_run. destruct (Nat.eqb (length groups) 0); [reflexivity |].
  destruct (selected (Some l) s) as [| k ks] eqn:E; [reflexivity |]. assert (C : chosen (Some l) s k) by (apply selected_In; rewrite E; left; reflexivity).
  destruct C as [[x Hx] I]. rewrite (H k I) in Hx. discriminate.
Qed.
End Boot.
End Run.

(** ** counterexamples: objects are numbers, averaging changes nothing *)
Definition bex := bootstrap_run (obj := nat) (fun _ => true) (rng := unit) (fun _ => tt) (fun x => Ok (10 * x)) (fun x r => (Ok x, r)) (fun a _ => Ok a).
Definition ka : skey := (s_ "g", s_ "a").
Definition kb : skey := (s_ "g", s_ "b").
(** a spectrum in the list that does not exist is not reported *)
Theorem bootstrap_run_missing_refuted :
  ~ (forall groups l z n keep ov s r s' r', uniq s -> bex groups (Some l) (Some z) n keep ov s r = (s', r', Ok tt) -> forall k, In k l -> look s k <> None).
Proof.
  intros H. refine (H [s_ "g"] [ka; kb] 0%Z 1 false false [(ka, 1)] tt _ _ _ eq_refl kb _ _); [repeat constructor; intros [] | right; left; reflexivity | reflexivity].
Qed.
(** running again on the same file also processes the outputs of the first run *)
Theorem bootstrap_run_twice_refuted :
  ~ (forall groups z n keep s s1 r1 s2 r2, uniq s -> bex groups None (Some z) n keep true s tt = (s1, r1, Ok tt) -> bex groups None (Some z) n keep true s1 r1 = (s2, r2, Ok tt) -> forall k, look s2 k = look s1 k).
Proof.
  intros H. assert (U : uniq [(ka, 1)]) by (repeat constructor; intros []).
  specialize (H [s_ "g"] 0%Z 1 false _ _ _ _ _ U eq_refl eq_refl (avg_name (avg_name ka))). vm_compute in H. discriminate.
Qed.
(** a spectrum with the name of an output is replaced, and then averaged itself *)
Theorem bootstrap_run_inputs_refuted :
  exists s s' r', uniq s /\ bex [s_ "g"] None (Some 0%Z) 1 false true s tt = (s', r', Ok tt) /\
    look s (avg_name ka) = Some 7 /\ look s' (avg_name ka) = Some 10 /\ look s' (avg_name (avg_name ka)) = Some 100.
Proof.
  exists [(ka, 1); (avg_name ka, 7)]. do 2 eexists. split; [repeat constructor; vm_compute; intuition discriminate |]. split; [vm_compute; reflexivity |]. vm_compute. auto.
Qed.
(** a run that fails leaves the outputs of the spectra before *)
Theorem bootstrap_run_failure_refuted :
  exists s s' r' e, uniq s /\ bex [s_ "g"] None (Some 0%Z) 1 false false s tt = (s', r', Err e) /\ look s (avg_name ka) = None /\ look s' (avg_name ka) = Some 10.
Proof.
  exists [(ka, 1); (kb, 2); (avg_name kb, 5)]. do 3 eexists. split; [repeat constructor; vm_compute; intuition discriminate |]. split; [vm_compute; reflexivity |]. vm_compute. auto.
Qed.
Example bootstrap_run_ex : let s := [(ka, 1); (kb, 2)] in uniq s /\ (forall k k', chosen None s k -> chosen None s k' -> ~ output_of true 2 k k') /\
  exists s', bex [s_ "g"] None (Some 0%Z) 2 true false s tt = (s', tt, Ok tt) /\ look s' (bs_name kb 1) = Some 2.
Proof.
  split; [repeat constructor; vm_compute; intuition discriminate |]. split; [| eexists; split; [vm_compute; reflexivity | vm_compute; reflexivity]].
  intros k k' [[x Hx] _] [[y Hy] _] Q. unfold look in Hx, Hy. apply dget_In in Hx, Hy. cbn in Hx, Hy.
  assert (Hk : k = ka \/ k = kb) by (destruct Hx as [X | [X | []]]; injection X as <- _; auto). assert (Hk' : k' = ka \/ k' = kb) by (destruct Hy as [X | [X | []]]; injection X as <- _; auto).
  destruct Q as [Q | (_ & i & _ & Q)]; apply (f_equal (fun k => length (snd k))) in Q; destruct Hk as [-> | ->], Hk' as [-> | ->]; cbn in Q; try discriminate; try (rewrite app_length in Q; cbn in Q; lia).
Qed.
Print Assumptions bootstrap_names_distinct. Print Assumptions bootstrap_run_outputs. Print Assumptions bootstrap_run_safe. Print Assumptions bootstrap_run_nothing.
Print Assumptions bootstrap_run_missing_refuted. Print Assumptions bootstrap_run_twice_refuted. Print Assumptions bootstrap_run_inputs_refuted. Print Assumptions bootstrap_run_failure_refuted.
