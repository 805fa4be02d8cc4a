(** Properties of get_reds, get_Omegas, validate_pol and units: C284-C293. *)
From Coq Require Import Reals Lra String.
From Verif Require Import Prelude PyStr PyDict UvpModel GeomModel GeomProps RedsModel.
Open Scope R_scope.

Lemma ltbR_iff a b : ltbR a b = true <-> a < b.
Proof. unfold ltbR. destruct (Rlt_dec a b); split; intros; try lra; congruence. Qed.
Lemma ltbR_false a b : ltbR a b = false <-> b <= a.
Proof. unfold ltbR. destruct (Rlt_dec a b); split; intros; try lra; congruence. Qed.
Lemma map_res_Forall2 {A B} (f : A -> result B) l r : map_res f l = Ok r -> Forall2 (fun x y => f x = Ok y) l r.
Proof.
  revert r; induction l as [|x l IH]; cbn; intros r H; [injection H as <-; constructor|].
  destruct (f x) as [y|] eqn:E; cbn in H; [|discriminate]. destruct (map_res f l) as [ys|]; cbn in H; [|discriminate].
  injection H as <-. constructor; auto.
Qed.

(** ** the specification of get_reds: which groups survive, and what of them *)
(** a group of get_pos_reds passes the cuts on the length, angle and east-west length of its first baseline *)
Definition passes (tol : R) (ap : antpos) (lr dr : R * R) (ew : R) (r : list bl) (l a : R) : Prop :=
  exists b rest u v, r = b :: rest /\ pos ap (fst b) = Some u /\ pos ap (snd b) = Some v /\
    l = bl_len (vsub u v) /\ a = bl_ang tol (vsub u v) /\
    fst lr <= l <= snd lr /\ fst dr <= a <= snd dr /\ ew <= Rabs (l * cos (a * PI / 180)).
Definition clean (xants : option (list Z)) (b : bl) : Prop :=
  match xants with None => True | Some xs => ~ In (fst b) xs /\ ~ In (snd b) xs end.
(** g is what remains of r without the excluded antennas *)
Definition remains (xants : option (list Z)) (r g : list bl) : Prop :=
  match xants with None => g = r | Some xs => g = filter (xant_ok xs) r /\ g <> [] end.
Lemma xant_ok_iff xs b : xant_ok xs b = true <-> ~ In (fst b) xs /\ ~ In (snd b) xs.
Proof.
  unfold xant_ok. rewrite andb_true_iff, !negb_true_iff.
  assert (Q : forall z, existsb (Z.eqb z) xs = false <-> ~ In z xs).
  { intro z. rewrite <- not_true_iff_false, existsb_exists. split; intros H C; apply H.
    - exists z. split; [exact C|apply Z.eqb_refl].
    - destruct C as [y [H1 H2]]. apply Z.eqb_eq in H2. subst. exact H1. }
  rewrite !Q. reflexivity.
Qed.
Lemma cut_iff lr dr ew l a : cut lr dr ew l a = false <->
  fst lr <= l <= snd lr /\ fst dr <= a <= snd dr /\ ew <= Rabs (l * cos (a * PI / 180)).
Proof. unfold cut. rewrite !orb_false_iff, !ltbR_false. tauto. Qed.

Definition triples (o : list (list bl) * list R * list R) : list (list bl * (R * R)) :=
  combine (fst (fst o)) (combine (snd (fst o)) (snd o)).
Lemma combine_unzip {A B C} (l : list (A * (B * C))) :
  combine (map fst l) (combine (map (fun x => fst (snd x)) l) (map (fun x => snd (snd x)) l)) = l.
Proof. induction l as [|[a [b c]] l IH]; cbn; [reflexivity|]. f_equal. exact IH. Qed.

(** the list of surviving groups with length and angle *)
Definition autos_of (ap : antpos) : list bl := map (fun a => (a, a)) (map fst ap).
Lemma get_reds_inv tol ap reds lr dr xants add only ew o :
  get_reds tol ap reds lr dr xants add only ew = Ok o ->
  exists vecs, Forall2 (fun r v => group_vec ap r = Ok v) reds vecs /\ vecs <> [] /\
  (let sel := filter (fun x => negb (cut lr dr ew (fst (snd x)) (snd (snd x)))) (combine reds (combine (map bl_len vecs) (map (bl_ang tol) vecs))) in
   let all := if add then (autos_of ap, (0, 0)) :: (if only then [] else sel) else sel in
   let fin := match xants with None => all
              | Some xs => filter (fun x => Nat.ltb 0 (List.length (fst x))) (map (fun x => (filter (xant_ok xs) (fst x), snd x)) all) end in
   o = (map fst fin, map (fun x => fst (snd x)) fin, map (fun x => snd (snd x)) fin)).
Proof.
  unfold get_reds. intro H. destruct (map_res (group_vec ap) reds) as [vecs|] eqn:E; cbn [bind] in H; [|discriminate].
  exists vecs. split; [apply map_res_Forall2; exact E|]. unfold require in H. destruct (Nat.eqb (List.length vecs) 0) eqn:L; cbn [negb] in H; [discriminate|].
  split; [intros ->; discriminate|]. cbv zeta. fold (autos_of ap) in H.
  set (sel := filter _ (combine reds _)) in *. clearbody sel.
  destruct add; [destruct only|]; destruct xants as [xs|]; cbn [firstn combine] in H; rewrite ?combine_unzip in H;
    assert (forall (A : Type) (x y : A), Ok x = Ok y -> y = x) as J by (intros A x y Q; injection Q; auto); apply J in H; exact H.
Qed.
Lemma sel_spec tol ap reds vecs lr dr ew : Forall2 (fun r v => group_vec ap r = Ok v) reds vecs ->
  forall r l a, In (r, (l, a)) (filter (fun x => negb (cut lr dr ew (fst (snd x)) (snd (snd x)))) (combine reds (combine (map bl_len vecs) (map (bl_ang tol) vecs))))
  <-> In r reds /\ passes tol ap lr dr ew r l a.
Proof.
  intros F r l a. rewrite filter_In. cbn [fst snd]. rewrite negb_true_iff, cut_iff.
  assert (G : In (r, (l, a)) (combine reds (combine (map bl_len vecs) (map (bl_ang tol) vecs))) <->
              In r reds /\ exists v, group_vec ap r = Ok v /\ l = bl_len v /\ a = bl_ang tol v).
  { clear -F. induction F as [|r0 v0 reds vecs E F IH]; cbn; [tauto|]. rewrite IH. split.
    - intros [H|[H1 H2]]; [injection H as <- <- <-; split; [auto|exists v0; auto] | auto].
    - intros [[<-|H1] [v [E1 [-> ->]]]]; [left; congruence | right; split; [exact H1|exists v; auto]]. }
  rewrite G. unfold passes, group_vec. split.
  - intros [[H1 [v [E [-> ->]]]] K]. split; [exact H1|]. destruct r as [|b rest]; [discriminate|].
    apply bl_vec_inv in E. destruct E as [u [w [Eu [Ew ->]]]]. exists b, rest, u, w. auto 10.
  - intros [H1 [b [rest [u [v [-> [Eu [Ev [-> [-> K]]]]]]]]]]. split; [|exact K]. split; [exact H1|]. exists (vsub u v).
    split; [|auto]. unfold bl_vec. rewrite Eu, Ev. reflexivity.
Qed.

(** ** C284-C286: the groups that get_reds returns *)
Theorem get_reds_exact : forall tol ap reds lr dr xants add only ew o,
  get_reds tol ap reds lr dr xants add only ew = Ok o ->
  List.length (snd (fst o)) = List.length (fst (fst o)) /\ List.length (snd o) = List.length (fst (fst o)) /\
  (forall g l a, In (g, (l, a)) (triples o) <->
     (exists r, In r reds /\ ~ (add = true /\ only = true) /\ passes tol ap lr dr ew r l a /\ remains xants r g) \/
     (add = true /\ l = 0 /\ a = 0 /\ remains xants (autos_of ap) g)) /\
  (forall g b, In g (fst (fst o)) -> In b g -> clean xants b).
Proof.
  intros tol ap reds lr dr xants add only ew o H. destruct (get_reds_inv _ _ _ _ _ _ _ _ _ _ H) as [vecs [F [_ E]]]. clear H.
  pose proof (sel_spec tol ap reds vecs lr dr ew F) as S. cbv zeta in E.
  set (sel := filter _ (combine reds _)) in *. clearbody sel.
  set (all := if add then (autos_of ap, (0, 0)) :: (if only then [] else sel) else sel) in *.
  assert (A : forall r l a, In (r, (l, a)) all <->
     (In r reds /\ ~ (add = true /\ only = true) /\ passes tol ap lr dr ew r l a) \/ (add = true /\ l = 0 /\ a = 0 /\ r = autos_of ap)).
  { intros r l a. unfold all. destruct add; [destruct only|].
    - cbn [In]. split; [intros [H|[]]; injection H as <- <- <-; right; auto | intros [[_ [C _]]|[_ [-> [-> ->]]]]; [exfalso; apply C; auto|auto]].
    - cbn [In]. rewrite S. split.
      + intros [H|[H1 H2]]; [injection H as <- <- <-; right; auto | left; repeat split; auto; intros [_ C]; discriminate].
      + intros [[H1 [_ H2]]|[_ [-> [-> ->]]]]; auto.
    - rewrite S. split; [intros [H1 H2]; left; repeat split; auto; intros [C _]; discriminate | intros [[H1 [_ H2]]|[C _]]; [auto|discriminate]]. }
  clearbody all. set (fin := match xants with None => all | Some xs => _ end) in *.
  assert (Fi : forall g l a, In (g, (l, a)) fin <-> exists r, In (r, (l, a)) all /\ remains xants r g).
  { intros g l a. unfold fin, remains. destruct xants as [xs|].
    - rewrite filter_In, in_map_iff. cbn [fst]. split.
      + intros [[[r [l' a']] [Q1 Q2]] Q3]. cbn [fst snd] in Q1. injection Q1 as <- <- <-. exists r. split; [exact Q2|]. split; [reflexivity|].
        intro C. rewrite C in Q3. discriminate.
      + intros [r [Q1 [-> Q2]]]. split; [exists (r, (l, a)); auto|]. destruct (filter (xant_ok xs) r); [congruence|reflexivity].
    - split; [intro Q; exists g; auto | intros [r [Q ->]]; exact Q]. }
  subst o. unfold triples. cbn [fst snd]. rewrite !map_length, combine_unzip. split; [reflexivity|]. split; [reflexivity|]. split.
  - intros g l a. rewrite Fi. split.
    + intros [r [Q1 Q2]]. apply A in Q1. destruct Q1 as [[Q3 [Q4 Q5]]|[Q3 [-> [-> ->]]]]; [left; exists r; auto|right; auto].
    + intros [[r [Q3 [Q4 [Q5 Q6]]]]|[Q3 [-> [-> Q6]]]]; [exists r; split; [apply A; left; auto|exact Q6] | exists (autos_of ap); split; [apply A; right; auto|exact Q6]].
  - intros g b Hg Hb. apply in_map_iff in Hg. destruct Hg as [[g' [l a]] [Q1 Q2]]. cbn [fst] in Q1. subst g'. apply Fi in Q2.
    destruct Q2 as [r [_ Q]]. unfold remains in Q. destruct xants as [xs|]; cbn [clean]; [|exact I]. destruct Q as [-> _].
    apply filter_In in Hb. apply xant_ok_iff. apply Hb.
Qed.
(** when it fails *)
Theorem get_reds_fails : forall tol ap reds lr dr xants add only ew,
  (reds = [] -> get_reds tol ap reds lr dr xants add only ew = Err IndexError) /\
  ((forall r, In r reds -> exists b rest u v, r = b :: rest /\ pos ap (fst b) = Some u /\ pos ap (snd b) = Some v) -> reds <> [] ->
   exists o, get_reds tol ap reds lr dr xants add only ew = Ok o).
Proof.
  intros tol ap reds lr dr xants add only ew. split; [intros ->; reflexivity|]. intros H N.
  assert (exists vecs, map_res (group_vec ap) reds = Ok vecs /\ List.length vecs = List.length reds) as [vecs [E L]].
  { clear N. induction reds as [|r reds IH]; [exists []; auto|].
    destruct IH as [vs [E L]]; [intros r' H'; apply H; right; exact H'|].
    destruct (H r (or_introl eq_refl)) as [b [rest [u [v [-> [Eu Ev]]]]]]. exists (vsub u v :: vs). cbn. unfold bl_vec. rewrite Eu, Ev. cbn. rewrite E. cbn. auto. }
  unfold get_reds. rewrite E. cbn [bind]. unfold require. destruct reds; [congruence|]. destruct vecs; [discriminate|]. cbn [List.length Nat.eqb negb].
  destruct add; [destruct only|]; destruct xants; eexists; reflexivity.
Qed.
(** "If True, only include autocorrelations" (autos_only) holds only together with add_autos *)
Theorem autos_only_needs_add_autos : forall tol ap reds lr dr xants ew,
  get_reds tol ap reds lr dr xants false true ew = get_reds tol ap reds lr dr xants false false ew.
Proof. reflexivity. Qed.
Definition line3 : antpos := [(0%Z, mkvec 0 0 0); (1%Z, mkvec 14 0 0); (2%Z, mkvec 28 0 4)].
Lemma len_x x : bl_len (vsub (mkvec x 0 0) (mkvec 0 0 0)) = Rabs x.
Proof.
  unfold bl_len, norm, vsub. cbn [vx vy vz]. replace ((x - 0) ^ 2 + (0 - 0) ^ 2 + (0 - 0) ^ 2) with (Rsqr x) by (unfold Rsqr; ring). apply sqrt_Rsqr_abs.
Qed.
Lemma ang_x x : 0 < x -> bl_ang 1 (vsub (mkvec x 0 0) (mkvec 0 0 0)) = 0.
Proof.
  intro H. destruct (bl_ang_cases 1 (vsub (mkvec x 0 0) (mkvec 0 0 0))) as [[-> _]|[-> _]]; [reflexivity|].
  rewrite raw_flat by (cbn; lra). cbn. destruct (Rlt_dec (x - 0) 0); [lra|reflexivity].
Qed.
Definition xreds : list (list bl) := [[(1, 0)]%Z].
Lemma xreds_out : get_reds 1 line3 xreds (0, 100) (0, 180) None false true 0 = Ok (xreds, [14], [0]).
Proof.
  unfold get_reds, xreds. cbn [map_res group_vec bl_vec]. unfold bl_vec. cbn. rewrite len_x, ang_x by lra. rewrite Rabs_pos_eq by lra.
  unfold cut. cbn [fst snd].
  replace (ltbR 14 0) with false by (symmetry; apply ltbR_false; lra). replace (ltbR 100 14) with false by (symmetry; apply ltbR_false; lra).
  replace (ltbR 0 0) with false by (symmetry; apply ltbR_false; lra). replace (ltbR 180 0) with false by (symmetry; apply ltbR_false; lra).
  replace (0 * PI / 180) with 0 by field. rewrite cos_0.
  replace (ltbR (Rabs (14 * 1)) 0) with false by (symmetry; apply ltbR_false; apply Rabs_pos). reflexivity.
Qed.
Theorem autos_only_refuted :
  ~ (forall tol ap reds lr dr xants add ew o, get_reds tol ap reds lr dr xants add true ew = Ok o ->
       forall g b, In g (fst (fst o)) -> In b g -> fst b = snd b).
Proof.
  intro H. specialize (H _ _ _ _ _ _ _ _ _ xreds_out [(1, 0)%Z] (1, 0)%Z (or_introl eq_refl) (or_introl eq_refl)). discriminate.
Qed.
(** one antenna has no redundant group, and get_reds fails although its autocorrelation is asked for *)
Theorem single_antenna_refuted :
  ~ (forall tol (a : Z) (p : vec) lr dr, exists o, get_reds tol [(a, p)] [] lr dr None true true 0 = Ok o).
Proof. intro H. destruct (H 1 0%Z (mkvec 0 0 0) (0, 1) (0, 180)) as [o E]. discriminate. Qed.

(** ** C287-C288: the east-west cut *)
Lemma ew_square tol v : ~ flipped tol v -> (vx v, vy v) <> (0, 0) ->
  (bl_len v * cos (bl_ang tol v * PI / 180)) ^ 2 * (vx v ^ 2 + vy v ^ 2) = (vx v ^ 2 + vy v ^ 2 + vz v ^ 2) * vx v ^ 2.
Proof.
  intros N Z. destruct (bl_ang_direction tol v) as [_ [D _]]. specialize (D N). unfold deg in D.
  set (t := bl_ang tol v * PI / 180) in *. pose proof (sin2_cos2 t) as S. unfold Rsqr in S.
  pose proof (norm_sq v) as L. fold (bl_len v) in L. set (l := bl_len v) in *. clearbody l t.
  set (s := sin t) in *. set (c := cos t) in *. clearbody s c.
  assert (C : c ^ 2 * (vx v ^ 2 + vy v ^ 2) = vx v ^ 2).
  { assert (Q : (vx v * s) ^ 2 = (vy v * c) ^ 2) by (rewrite D; reflexivity).
    transitivity (c ^ 2 * vx v ^ 2 + (vy v * c) ^ 2); [ring|]. rewrite <- Q. transitivity (vx v ^ 2 * (s * s + c * c)); [ring|]. rewrite S. ring. }
  replace ((l * c) ^ 2 * (vx v ^ 2 + vy v ^ 2)) with (l * l * (c ^ 2 * (vx v ^ 2 + vy v ^ 2))) by ring. rewrite C, L. reflexivity.
Qed.
(** for horizontal vectors away from the tolerance region, |l cos a| is the east component *)
Theorem ew_cut_is_east : forall tol v, vz v = 0 -> ~ flipped tol v ->
  Rabs (bl_len v * cos (bl_ang tol v * PI / 180)) = Rabs (vx v).
Proof.
  intros tol v Z N.
  destruct (Req_EM_T (vx v ^ 2 + vy v ^ 2) 0) as [E|E].
  - assert (vx v = 0) by nra. assert (vy v = 0) by nra.
    assert (bl_len v = 0) as ->. { unfold bl_len, norm. rewrite Z, H, H0. replace (0 ^ 2 + 0 ^ 2 + 0 ^ 2) with 0 by ring. apply sqrt_0. }
    rewrite H. f_equal. ring.
  - assert (Q : (bl_len v * cos (bl_ang tol v * PI / 180)) ^ 2 = vx v ^ 2).
    { pose proof (ew_square tol v N) as W. rewrite Z in W.
      apply (Rmult_eq_reg_r (vx v ^ 2 + vy v ^ 2)); [|exact E]. rewrite W; [ring|]. intro C. injection C as C1 C2. apply E. rewrite C1, C2. ring. }
    apply Rsqr_eq_abs_0. unfold Rsqr. nra.
Qed.
(** and never less *)
Theorem ew_cut_at_least_east : forall tol v, Rabs (vx v) <= Rabs (bl_len v * cos (bl_ang tol v * PI / 180)).
Proof.
  intros tol v.
  destruct (bl_ang_cases tol v) as [[E F]|[E N]].
  - rewrite E. replace (0 * PI / 180) with 0 by field. rewrite cos_0, Rmult_1_r. rewrite (Rabs_pos_eq (bl_len v)) by apply norm_nonneg.
    pose proof (norm_sq v) as L. fold (bl_len v) in L. pose proof (norm_nonneg v) as P. fold (bl_len v) in P.
    apply Rabs_le. split; [|]; nra.
  - destruct (Req_EM_T (vx v) 0) as [X|X]; [rewrite X, Rabs_R0; apply Rabs_pos|].
    pose proof (ew_square tol v N) as W. assert (P : 0 < vx v ^ 2) by (rewrite <- Rsqr_pow2; apply Rsqr_pos_lt; exact X).
    assert (Z0 : (vx v, vy v) <> (0, 0)) by (intro C; injection C; intros; contradiction). specialize (W Z0).
    set (q := bl_len v * cos (bl_ang tol v * PI / 180)) in *. clearbody q.
    apply Rsqr_le_abs_0. unfold Rsqr.
    assert (0 <= vy v ^ 2) by apply pow2_ge_0. assert (0 <= vz v ^ 2) by apply pow2_ge_0.
    assert (vx v ^ 2 * (vx v ^ 2 + vy v ^ 2) <= q ^ 2 * (vx v ^ 2 + vy v ^ 2)) by (rewrite W; nra).
    assert (vx v ^ 2 <= q ^ 2) by (apply (Rmult_le_reg_r (vx v ^ 2 + vy v ^ 2)); [lra|assumption]). lra.
Qed.
(** a baseline with a vertical component can pass a cut that its east component fails *)
Theorem ew_cut_refuted :
  ~ (forall tol v ew, 0 < tol -> cut (0, 1000) (0, 180) ew (bl_len v) (bl_ang tol v) = false -> ew <= Rabs (vx v)).
Proof.
  intro H. specialize (H 1 (mkvec 3 0 4) 5 ltac:(lra)). cbn [vx] in H. rewrite Rabs_pos_eq in H by lra.
  assert (L : bl_len (mkvec 3 0 4) = 5).
  { unfold bl_len, norm. cbn [vx vy vz]. replace (3 ^ 2 + 0 ^ 2 + 4 ^ 2) with (5 * 5) by ring. apply sqrt_square. lra. }
  assert (A : bl_ang 1 (mkvec 3 0 4) = 0).
  { destruct (bl_ang_cases 1 (mkvec 3 0 4)) as [[-> _]|[-> _]]; [reflexivity|]. rewrite raw_flat by reflexivity. cbn. destruct (Rlt_dec 3 0); [lra|reflexivity]. }
  rewrite L, A in H. assert (5 <= 3); [|lra]. apply H. apply cut_iff. cbn [fst snd].
  replace (0 * PI / 180) with 0 by field. rewrite cos_0, Rmult_1_r, Rabs_pos_eq by lra. lra.
Qed.
Print Assumptions get_reds_exact.
Print Assumptions get_reds_fails.
Print Assumptions autos_only_needs_add_autos.
Print Assumptions autos_only_refuted.
Print Assumptions single_antenna_refuted.
Print Assumptions ew_cut_is_east.
Print Assumptions ew_cut_at_least_east.
Print Assumptions ew_cut_refuted.

(** ** C289: get_Omegas *)
Section Om.
Context {V : Type} (of_int : Z -> result (Z * Z)) (name : Z -> result string) (p1 p2 : string -> result V).
(** the names of the two polarizations of a pair: an integer is a code of two polarization numbers, and numbers have names *)
Definition pol_called (p : polid) (s : string) : Prop := match p with PNum n => name n = Ok s | PName t => t = s end.
Definition pols_called (p : polpair) (s t : string) : Prop :=
  match p with PPInt n => exists x y, of_int n = Ok (x, y) /\ name x = Ok s /\ name y = Ok t | PPTup a b => pol_called a s /\ pol_called b t end.
(** a polarization pair is of one polarization *)
Definition same_pol (p : polpair) (s : string) : Prop := pols_called p s s.
Lemma pname_called p s : pname name p = Ok s <-> pol_called p s.
Proof. destruct p; cbn; [reflexivity|]. split; [intros H; injection H; auto|intros ->; reflexivity]. Qed.
Lemma pols_called_tuple p s t : pols_called p s t <-> exists a b, as_tuple of_int p = Ok (a, b) /\ pname name a = Ok s /\ pname name b = Ok t.
Proof.
  destruct p as [n|a b]; cbn.
  - split.
    + intros (x & y & E & H1 & H2). exists (PNum x), (PNum y). rewrite E. auto.
    + intros (a & b & E & H1 & H2). destruct (of_int n) as [[x y]|]; [|discriminate]. cbn in E. injection E as <- <-. exists x, y. auto.
  - rewrite <- !pname_called. split; [intros [H1 H2]; exists a, b; auto|]. intros (a' & b' & E & H1 & H2). injection E as <- <-. auto.
Qed.
Lemma same_pol_tuple p s : same_pol p s <-> exists a b, as_tuple of_int p = Ok (a, b) /\ pname name a = Ok s /\ pname name b = Ok s.
Proof. apply pols_called_tuple. Qed.
Lemma omegas_one_Ok ab x y : omegas_one name p1 p2 ab = Ok (x, y) <->
  exists s, pname name (fst ab) = Ok s /\ pname name (snd ab) = Ok s /\ p1 s = Ok x /\ p2 s = Ok y.
Proof.
  unfold omegas_one. destruct (pname name (fst ab)) as [a|]; cbn [bind]; [|split; [discriminate|intros [s [C _]]; discriminate]].
  destruct (pname name (snd ab)) as [b|]; cbn [bind]; [|split; [discriminate|intros [s [_ [C _]]]; discriminate]].
  destruct (string_dec a b) as [<-|N].
  - split.
    + destruct (p1 a) as [x'|] eqn:E1; cbn [bind]; [|discriminate]. destruct (p2 a) as [y'|] eqn:E2; cbn [bind]; [|discriminate].
      intro H; injection H as <- <-. exists a. auto.
    + intros [s [H1 [_ [H3 H4]]]]. injection H1 as ->. rewrite H3, H4. reflexivity.
  - split; [discriminate|]. intros [s [H1 [H2 _]]]. congruence.
Qed.
(** column j of OmegaP and OmegaPP is the integral of the beam, or of its square, of polarization pair j *)
Theorem get_Omegas_columns : forall l r1 r2,
  get_Omegas of_int name p1 p2 (PList l) = Ok (r1, r2) <->
  (List.length r1 = List.length l /\ List.length r2 = List.length l /\
   forall j p, nth_error l j = Some p -> exists s x y, same_pol p s /\ nth_error r1 j = Some x /\ nth_error r2 j = Some y /\ p1 s = Ok x /\ p2 s = Ok y).
Proof.
  intros l r1 r2. unfold get_Omegas. cbn [bind]. revert r1 r2. 
  assert (G : forall r, bind (map_res (as_tuple of_int) l) (fun t => map_res (omegas_one name p1 p2) t) = Ok r <->
     (List.length r = List.length l /\ forall j p, nth_error l j = Some p -> exists s xy, same_pol p s /\ nth_error r j = Some xy /\ p1 s = Ok (fst xy) /\ p2 s = Ok (snd xy))).
  { induction l as [|p l IH]; intro r.
    - cbn. split; [intro H; injection H as <-; split; [reflexivity|intros j p C; destruct j; discriminate] | intros [H _]; destruct r; [reflexivity|discriminate]].
    - cbn [map_res]. destruct (as_tuple of_int p) as [ab|] eqn:T; cbn [bind].
      2:{ split; [discriminate|]. intros [_ H]. destruct (H 0%nat p eq_refl) as [s [xy [C _]]]. apply same_pol_tuple in C. destruct C as [a [b [C _]]]. congruence. }
      destruct (map_res (as_tuple of_int) l) as [ts|] eqn:Ts; cbn [bind] in *.
      + destruct (omegas_one name p1 p2 ab) as [xy|] eqn:O; cbn [bind map_res].
        * rewrite O. cbn [bind]. destruct xy as [x y]. pose proof O as O'. apply omegas_one_Ok in O'. destruct O' as [s [O1 [O2 [O3 O4]]]].
          destruct (map_res (omegas_one name p1 p2) ts) as [rs|] eqn:Rs; cbn [bind].
          -- split.
             ++ intro H; injection H as <-. destruct (proj1 (IH rs) eq_refl) as [L K]. split; [cbn; congruence|].
                intros [|j] q Q; [injection Q as <-; exists s, (x, y); repeat split; auto; apply same_pol_tuple; exists (fst ab), (snd ab); destruct ab; auto | apply K; exact Q].
             ++ intros [L K]. destruct r as [|xy r]; [discriminate|]. f_equal. f_equal.
                ** destruct (K 0%nat p eq_refl) as [s' [xy' [QT [Q4 [Q5 Q6]]]]]. apply same_pol_tuple in QT. destruct QT as [a [b [Q1 [Q2 Q3]]]]. cbn in Q4. injection Q4 as ->.
                   rewrite T in Q1. injection Q1 as ->. cbn in O1. assert (s' = s) as -> by congruence. destruct xy'; cbn in *; congruence.
                ** assert (Ok rs = Ok r) as Q; [|injection Q; auto]. apply IH. split; [cbn in L; congruence|]. intros j q Q. apply (K (S j) q Q).
          -- split; [discriminate|]. intros [L K]. destruct r as [|xy r]; [discriminate|]. assert (@Err (list (V*V)) e = Ok r) as C; [|discriminate].
             apply IH. split; [cbn in L; congruence|]. intros j q Q. apply (K (S j) q Q).
        * rewrite O. cbn [bind]. split; [discriminate|]. intros [_ K]. destruct (K 0%nat p eq_refl) as [s [xy [QT [_ [Q5 Q6]]]]]. apply same_pol_tuple in QT. destruct QT as [a [b [Q1 [Q2 Q3]]]].
          rewrite T in Q1. injection Q1 as ->.
          assert (omegas_one name p1 p2 (a, b) = Ok (fst xy, snd xy)) by (apply omegas_one_Ok; exists s; auto). congruence.
      + split; [discriminate|]. intros [L K]. destruct r as [|xy r]; [discriminate|]. assert (@Err (list (V*V)) e = Ok r) as C; [|discriminate].
        apply IH. split; [cbn in L; congruence|]. intros j q Q. apply (K (S j) q Q). }
  intros r1 r2. split.
  - intro H. destruct (map_res (as_tuple of_int) l) as [t|]; cbn [bind] in *; [|discriminate].
    destruct (map_res (omegas_one name p1 p2) t) as [r|]; cbn [bind] in *; [|discriminate]. injection H as <- <-.
    destruct (proj1 (G r) eq_refl) as [L K]. rewrite !map_length. split; [exact L|]. split; [exact L|].
    intros j p Q. destruct (K j p Q) as [s [xy [Q1 [Q2 [Q3 Q4]]]]]. exists s, (fst xy), (snd xy). rewrite !nth_error_map, Q2. auto.
  - intros [L1 [L2 K]].
    assert (E : bind (map_res (as_tuple of_int) l) (fun t => map_res (omegas_one name p1 p2) t) = Ok (combine r1 r2)).
    { apply G. split; [rewrite combine_length; lia|]. intros j p Q. destruct (K j p Q) as [s [x [y [Q1 [Q2 [Q3 [Q4 Q5]]]]]]]. exists s, (x, y).
      repeat split; auto. clear -Q2 Q3. revert r2 j Q2 Q3. induction r1 as [|a r1 IH]; intros [|b r2] [|j] Q2 Q3; cbn in *; try discriminate; [congruence|auto]. }
    destruct (map_res (as_tuple of_int) l) as [t|]; cbn [bind] in *; [|discriminate]. rewrite E. cbn [bind]. f_equal.
    clear -L1 L2. revert r2 l L1 L2. induction r1 as [|a r1 IH]; intros [|b r2] [|q l] L1 L2; cbn in *; try discriminate; [reflexivity|].
    specialize (IH r2 l ltac:(lia) ltac:(lia)). injection IH as A B. rewrite A, B. reflexivity.
Qed.
(** pairs of different polarizations are refused *)
Theorem get_Omegas_refuses : forall l p sa sb, In p l -> pols_called p sa sb -> sa <> sb ->
  forall r, get_Omegas of_int name p1 p2 (PList l) <> Ok r.
Proof.
  intros l p sa sb H T N [r1 r2] C. apply pols_called_tuple in T. destruct T as (a & b & T & A & B). apply get_Omegas_columns in C. destruct C as [_ [_ K]].
  apply In_nth_error in H. destruct H as [j J]. destruct (K j p J) as [s [x [y [QT _]]]]. apply same_pol_tuple in QT. destruct QT as [a' [b' [Q1 [Q2 Q3]]]]. congruence.
Qed.
(** a single pair is a list of one *)
Theorem get_Omegas_single : forall p, get_Omegas of_int name p1 p2 (POne p) = get_Omegas of_int name p1 p2 (PList [p]).
Proof. reflexivity. Qed.
End Om.
Print Assumptions get_Omegas_columns.
Print Assumptions get_Omegas_refuses.
Print Assumptions get_Omegas_single.

(** ** C290-C291: validate_pol *)
Section Pol.
Context (num : string -> string -> result Z).
Theorem validate_pol_spec : forall (dsets : list pset) i j a b d0 d1 d2 na nb,
  nth_error dsets 0 = Some d0 -> nth_error dsets i = Some d1 -> nth_error dsets j = Some d2 ->
  polnum num (p_xo d0) a = Ok na -> polnum num (p_xo d0) b = Ok nb ->
  exists v, validate_pol num dsets i j (a, b) = Ok v /\ (v = true <-> In na (p_pols d1) /\ In nb (p_pols d2)).
Proof.
  intros dsets i j a b d0 d1 d2 na nb H0 H1 H2 A B. destruct dsets as [|d dsets]; [discriminate|]. cbn in H0. injection H0 as ->.
  unfold validate_pol. cbn [fst snd]. rewrite A, B. cbn [bind]. rewrite H1, H2. eexists. split; [reflexivity|].
  assert (Q : forall n l, mem_Z n l = true <-> In n l).
  { intros n l. unfold mem_Z. rewrite existsb_exists. split; [intros [x [Hx E]]; apply Z.eqb_eq in E; subst; exact Hx | intro Hn; exists n; split; [exact Hn|apply Z.eqb_refl]]. }
  rewrite andb_true_iff, !Q. reflexivity.
Qed.
End Pol.
(** polarization names are read with the orientation of the first dataset, not of the dataset asked *)
Definition xnum (o s : string) : result Z :=
  if string_dec s "ee" then Ok (if string_dec o "east" then -5 else -6)%Z else if string_dec s "nn" then Ok (if string_dec o "east" then -6 else -5)%Z else Err KeyError.
Definition xsets : list pset := [mkpset "east" [-5]%Z; mkpset "north" [-6]%Z].
Theorem validate_pol_own_orientation_refuted :
  ~ (forall num (dsets : list pset) i j a b d1 d2 na nb,
      nth_error dsets i = Some d1 -> nth_error dsets j = Some d2 ->
      polnum num (p_xo d1) a = Ok na -> polnum num (p_xo d2) b = Ok nb -> In na (p_pols d1) -> In nb (p_pols d2) ->
      validate_pol num dsets i j (a, b) = Ok true).
Proof.
  intro H. specialize (H xnum xsets 1%nat 1%nat (PName "ee") (PName "ee") (mkpset "north" [-6]%Z) (mkpset "north" [-6]%Z) (-6)%Z (-6)%Z
    eq_refl eq_refl eq_refl eq_refl (or_introl eq_refl) (or_introl eq_refl)). discriminate.
Qed.
Print Assumptions validate_pol_spec.
Print Assumptions validate_pol_own_orientation_refuted.

(** ** C292-C293: units *)
Theorem units_spec : forall dsets beam little_h u,
  units dsets beam little_h = Ok u <->
  exists v rest, dsets = v :: rest /\ fst u = v /\
   snd u = (if beam then if little_h then "h^-3 Mpc^3" else "Mpc^3" else "Hz str [beam normalization not specified]")%string.
Proof.
  intros dsets beam little_h [a b]. destruct dsets as [|v rest]; cbn.
  - split; [discriminate|intros [v [r [C _]]]; discriminate].
  - split.
    + intro H; injection H as <- <-. exists v, rest. split; [reflexivity|]. split; [reflexivity|]. destruct beam, little_h; reflexivity.
    + intros [v' [r [E [-> ->]]]]. injection E as -> ->. destruct beam, little_h; reflexivity.
Qed.
(** the units are those of the first dataset whatever the others are *)
Theorem units_mixed_refuted :
  ~ (forall dsets beam h u v, units dsets beam h = Ok u -> In v dsets -> fst u = v).
Proof. intro H. specialize (H ["Jy"; "mK"]%string true true ("Jy", "h^-3 Mpc^3")%string "mK"%string eq_refl (or_intror (or_introl eq_refl))). discriminate. Qed.
Print Assumptions units_spec.
Print Assumptions units_mixed_refuted.

Example ex_omegas : get_Omegas (fun z => Ok (z, z)%Z) (fun z => if Z.eqb z (-5) then Ok "xx" else if Z.eqb z (-6) then Ok "yy" else Err KeyError)%string
   (fun s => Ok (String.length s, s)) (fun s => Ok (0%nat, s)) (PList [PPInt (-6); PPTup (PNum (-5)) (PName "xx")]) =
  Ok ([(2%nat, "yy"%string); (2%nat, "xx"%string)], [(0%nat, "yy"%string); (0%nat, "xx"%string)]).
Proof. reflexivity. Qed.
Example ex_validate : validate_pol xnum xsets 0 1 (PName "ee", PNum (-6)) = Ok true /\ validate_pol xnum xsets 0 1 (PName "ee", PName "ee") = Ok false.
Proof. split; reflexivity. Qed.
Example ex_ew : vz (mkvec 7 (-12) 0) = 0 /\ ~ flipped 1 (mkvec 7 (-12) 0).
Proof. split; [reflexivity|]. unfold flipped. cbn. lra. Qed.
