(** C208-C226: plots. *)
From Coq Require Import Ascii String.
From Coq Require Import Reals Lra Permutation Sorted.
From Flocq Require Import Core.
From Verif Require CircProps.
From Verif Require Import PyStr.
From Verif Require Import Prelude BlCodecModel StatModel GeomModel GeomProps ConvModel PlotModel.
Open Scope R_scope.

(** ** baseline-pairs given to the plots *)
(** what a value stands for: an integer or ((a, b), (c, d)) *)
Inductive item : pv -> Z -> Prop :=
| item_int z : item (PInt z) z
| item_tup a b c d : item (PTup [PTup [PInt a; PInt b]; PTup [PInt c; PInt d]]) (antnums_to_blpair ((a, b), (c, d))).
Inductive grp : pv -> list Z -> Prop :=
| grp_list l zs : Forall2 item l zs -> grp (PList l) zs
| grp_one v z : item v z -> grp v [z].
Definition antpair_val (v : pv) : Prop := exists a b, v = PTup [PInt a; PInt b].
Lemma as_antpair_spec v a b : as_antpair v = Some (a, b) <-> v = PTup [PInt a; PInt b].
Proof.
  split; [| intros ->; reflexivity]. unfold as_antpair. intros H. repeat (match type of H with context [match ?x with _ => _ end] => destruct x; try discriminate end). injection H as -> ->. reflexivity.
Qed.
Lemma as_blpair_spec v p : as_blpair v = Some p <-> v = PTup [PTup [PInt (fst (fst p)); PInt (snd (fst p))]; PTup [PInt (fst (snd p)); PInt (snd (snd p))]].
Proof.
  split.
  - unfold as_blpair. destruct v as [| [| x [| y [|]]] | |]; try discriminate. destruct (as_antpair x) as [[a b] |] eqn:X; [| discriminate]. destruct (as_antpair y) as [[c d] |] eqn:Y; [| discriminate]. intros H. injection H as <-. apply as_antpair_spec in X, Y. subst. reflexivity.
  - intros ->. destruct p as [[a b] [c d]]. reflexivity.
Qed.
Lemma norm_item_Ok v z : norm_item v = Ok z <-> item v z.
Proof.
  split.
  - unfold norm_item. destruct v; try (intros H; injection H as <-; constructor); (destruct (as_blpair _) as [p |] eqn:P; [| destruct (as_antpair _); discriminate]); intros H; injection H as <-; apply as_blpair_spec in P; try discriminate; rewrite P; destruct p as [[a b] [c d]]; constructor.
  - intros H. destruct H; reflexivity.
Qed.
Lemma norm_item_Err v e : norm_item v = Err e -> (forall z, ~ item v z) /\ ((e = ValueError /\ antpair_val v) \/ (e = TypeError /\ ~ antpair_val v)).
Proof.
  intros H. split; [intros z I; apply norm_item_Ok in I; congruence |]. unfold norm_item in H.
  assert (G : match as_antpair v with Some _ => Err ValueError | None => Err TypeError end = @Err Z e -> (e = ValueError /\ antpair_val v) \/ (e = TypeError /\ ~ antpair_val v)).
  { destruct (as_antpair v) as [[a b] |] eqn:A; intros X; injection X as <-; [left | right]; (split; [reflexivity |]); [exists a, b; apply as_antpair_spec, A |]. intros (a & b & ->). discriminate. }
  destruct v; try discriminate; (destruct (as_blpair _); [discriminate | exact (G H)]).
Qed.
Lemma map_res_Ok {A B} (f : A -> result B) (P : A -> B -> Prop) : (forall a b, f a = Ok b <-> P a b) -> forall l bs, map_res f l = Ok bs <-> Forall2 P l bs.
Proof.
  intros HP. induction l as [| a l IH]; intros bs; cbn [map_res].
  - split; [intros H; injection H as <-; constructor | intros H; inversion H; reflexivity].
  - split.
    + destruct (f a) as [b |] eqn:F; [| discriminate]. cbn [bind]. destruct (map_res f l) as [bs' |] eqn:M; [| discriminate]. cbn. intros H. injection H as <-. constructor; [apply HP, F | apply IH; reflexivity].
    + intros H. inversion H as [| ? b ? bs' Hab Hl]; subst. apply HP in Hab. apply IH in Hl. rewrite Hab. cbn [bind]. rewrite Hl. reflexivity.
Qed.
Lemma norm_group_single v : (forall l, v <> PList l) -> norm_group v = bind (norm_item v) (fun z => Ok [z]).
Proof.
  intros N. destruct v as [z | l | l |]; [reflexivity | | exfalso; exact (N l eq_refl) | reflexivity]. unfold norm_group, norm_item, map_res. destruct (as_blpair (PTup l)) eqn:P; [reflexivity |]. destruct (as_antpair (PTup l)); reflexivity.
Qed.
Lemma norm_group_Ok v zs : norm_group v = Ok zs <-> grp v zs.
Proof.
  assert (S : forall v, (forall l, v <> PList l) -> (norm_group v = Ok zs <-> grp v zs)).
  { intros w N. rewrite norm_group_single by exact N. split.
    - destruct (norm_item w) as [z |] eqn:I; [| discriminate]. cbn. intros H. injection H as <-. apply grp_one, norm_item_Ok, I.
    - intros H. inversion H as [l zs' F E | v' z I]; subst; [exfalso; exact (N l eq_refl) |]. apply norm_item_Ok in I. rewrite I. reflexivity. }
  destruct v as [z | l | l |]; try (apply S; intros; discriminate).
  cbn [norm_group]. rewrite (map_res_Ok norm_item item norm_item_Ok). split; [apply grp_list |]. intros H. inversion H as [l' zs' F | v z I]; subst; [exact F | inversion I].
Qed.
(** the entries, in order *)
Definition entries (l : list pv) : list pv := flat_map (fun v => match v with PList l' => l' | _ => [v] end) l.
Lemma map_res_Err {A B} (f : A -> result B) l e : map_res f l = Err e -> exists pre a post, l = pre ++ a :: post /\ (forall x, In x pre -> exists b, f x = Ok b) /\ f a = Err e.
Proof.
  induction l as [| a l IH]; cbn [map_res]; [discriminate |]. destruct (f a) as [b | e'] eqn:F; cbn [bind].
  - destruct (map_res f l) as [bs |] eqn:M; [discriminate |]. cbn. intros H. injection H as ->. destruct (IH eq_refl) as (pre & x & post & -> & H1 & H2). exists (a :: pre), x, post. split; [reflexivity |]. split; [| exact H2]. intros y [<- | I]; [eauto | auto].
  - intros H. injection H as ->. exists [], a, l. split; [reflexivity |]. split; [intros x [] | exact F].
Qed.
Lemma group_entry v zs : grp v zs -> forall x, In x (entries [v]) -> exists z, item x z.
Proof.
  intros G x I. unfold entries in I. cbn in I. rewrite app_nil_r in I. destruct G as [l zs F | v z It].
  - induction F as [| y z l zs Hi F IH]; [destruct I |]. destruct I as [<- | I]; [eauto | auto].
  - destruct v; try (destruct I as [<- | []]; eauto). inversion It.
Qed.
Lemma entries_app a b : entries (a ++ b) = entries a ++ entries b.
Proof. unfold entries. apply flat_map_app. Qed.
(** Integers and ((a, b), (c, d)) stand for baseline-pairs, each for a group of its own; lists of them for groups.  If something else occurs, the first such entry
    decides: (a, b) gives a ValueError, anything else a TypeError. *)
Theorem normalize_blpairs_spec :
  forall l, match normalize_blpairs l with
  | Ok out => Forall2 grp l out
  | Err e => exists pre v post, entries l = pre ++ v :: post /\ (forall x, In x pre -> exists z, item x z) /\ (forall z, ~ item v z) /\
               ((e = ValueError /\ antpair_val v) \/ (e = TypeError /\ ~ antpair_val v))
  end.
Proof.
  intros l. destruct (normalize_blpairs l) as [out | e] eqn:N; unfold normalize_blpairs in N.
  - apply (map_res_Ok norm_group grp norm_group_Ok) in N. exact N.
  - apply map_res_Err in N as (pre & v & post & -> & H1 & H2).
    assert (Pre : forall x, In x (entries pre) -> exists z, item x z). { intros x I. unfold entries in I. apply in_flat_map in I as (w & Iw & Ix). destruct (H1 w Iw) as [zs G]. apply norm_group_Ok in G. apply (group_entry w zs G). unfold entries. cbn. rewrite app_nil_r. exact Ix. }
    rewrite entries_app. change (v :: post) with ([v] ++ post). rewrite entries_app.
    assert (S : exists q w r, entries [v] = q ++ w :: r /\ (forall x, In x q -> exists z, item x z) /\ norm_item w = Err e).
    { destruct v as [z | l | l |].
      1, 2, 4: rewrite norm_group_single in H2 by (intros; discriminate); eexists [], _, []; split; [reflexivity |]; split; [intros x [] |]; match goal with |- norm_item ?w = _ => destruct (norm_item w) as [? | ?]; [discriminate | cbn in H2; injection H2 as ->; reflexivity] end.
      cbn [norm_group] in H2. apply map_res_Err in H2 as (q & w & r & -> & Q & W). exists q, w, r. unfold entries. cbn. rewrite app_nil_r. split; [reflexivity |]. split; [| exact W]. intros x I. destruct (Q x I) as [z Z]. exists z. apply norm_item_Ok, Z. }
    destruct S as (q & w & r & E & Q & W). rewrite E. exists (entries pre ++ q), w, (r ++ entries post). split; [rewrite <- !app_assoc; reflexivity |]. destruct (norm_item_Err w e W) as [W1 W2]. split; [| split; assumption]. intros x I. apply in_app_iff in I as [I | I]; auto.
Qed.
Example normalize_nonvacuous :
  (exists z, normalize_blpairs [PInt 5; PTup [PTup [PInt 1; PInt 2]; PTup [PInt 3; PInt 4]]; PList [PInt 7; PInt 8]] = Ok [[5]; [z]; [7; 8]]%Z) /\
  normalize_blpairs [PInt 5; PTup [PInt 1; PInt 2]] = Err ValueError /\ normalize_blpairs [PTup [PInt 1; PInt 2; PInt 3]] = Err TypeError /\ normalize_blpairs [PList [PInt 1; POther]; PTup [PInt 1; PInt 2]] = Err TypeError.
Proof. split; [eexists; reflexivity |]. repeat split. Qed.

(** ** components *)
Definition comp_spec (c : comp) (x y : R) : R := match c with CReal => x | CImag => y | CAbs => sqrt (x ^ 2 + y ^ 2) | CAbsReal => Rabs x | CAbsImag => Rabs y end.
(** Without flags, delay_wedge draws the component that was asked for, and delay_waterfall too except for "abs-imag" *)
Theorem wedge_component_spec : forall c x y, wedge_component c (Some x, y) = Some (comp_spec c x y).
Proof. intros [] x y; reflexivity. Qed.
Theorem waterfall_component_partial : forall c x y, c <> CAbsImag -> wf_component c (Some x, y) = Some (comp_spec c x y).
Proof. intros [] x y N; try reflexivity. congruence. Qed.
(** "abs-imag" draws the real part; the imaginary part of flagged integrations is drawn as 0, not as missing *)
Theorem waterfall_component_refuted :
  ~ (forall c x y, wf_component c (Some x, y) = Some (comp_spec c x y)) /\
  ~ (forall c row v, In v (map (wf_component c) (flag_row true row)) -> v = None) /\
  (forall c row v, c <> CImag -> In v (map (wf_component c) (flag_row true row)) -> v = None).
Proof.
  split; [| split].
  - intros H. specialize (H CAbsImag 1 0). cbn in H. injection H as H. rewrite Rabs_R0, Rabs_R1 in H. lra.
  - intros H. specialize (H CImag [(Some 1, 1)] (Some 0) ltac:(left; reflexivity)). discriminate.
  - intros c row v N I. apply in_map_iff in I as (s & <- & I). cbn [flag_row] in I. apply in_map_iff in I as (t & <- & _). destruct c; try reflexivity. congruence.
Qed.

(** ** negative values on a logarithmic scale *)
Lemma allsome_map {A} (l : list (option A)) (vs : list A) : allsome l = Some vs <-> l = map Some vs.
Proof.
  revert vs. induction l as [| [x |] l IH]; intros vs; cbn.
  - split; [intros H; injection H as <-; reflexivity | destruct vs; [reflexivity | discriminate]].
  - split.
    + destruct (allsome l) as [ws |]; [| discriminate]. cbn. intros H. injection H as <-. cbn. f_equal. apply IH. reflexivity.
    + destruct vs as [| v vs]; [discriminate |]. cbn. intros H. injection H as -> ->. assert (E : allsome (map Some vs) = Some vs) by (apply IH; reflexivity). rewrite E. reflexivity.
  - split; [discriminate | destruct vs; discriminate].
Qed.
Lemma minR_le l x : In x l -> minR l <= x.
Proof. apply fold_min_le. Qed.
Lemma minR_in l : l <> [] -> In (minR l) l.
Proof. intros N. unfold minR. destruct l as [| a l]; [congruence |]. cbn [hd]. destruct (fold_min_in a (a :: l)) as [E | I]; [rewrite E; left; reflexivity | exact I]. Qed.
(** Without missing values: values that are not negative are unchanged, the negative ones all become 1e-6 times the smallest magnitude plus 1e-10, a positive number *)
Theorem fix_neg_spec :
  forall vs, vs <> [] -> exists m, In m (map Rabs vs) /\ (forall v, In v vs -> m <= Rabs v) /\ 0 < m * / 10 ^ 6 + / 10 ^ 10 /\
    forall i v, nth_error vs i = Some v -> nth_error (fix_neg (map Some vs)) i = Some (Some (if Rlt_dec v 0 then m * / 10 ^ 6 + / 10 ^ 10 else v)).
Proof.
  intros vs N. exists (minR (map Rabs vs)). assert (NE : map Rabs vs <> []) by (destruct vs; [congruence | discriminate]). pose proof (minR_in _ NE) as I.
  split; [exact I |]. split; [intros v Iv; apply minR_le, in_map, Iv |]. split.
  - apply in_map_iff in I as (v & <- & _). pose proof (Rabs_pos v). assert (0 < / 10 ^ 10) by (apply Rinv_0_lt_compat; lra). assert (0 < / 10 ^ 6) by (apply Rinv_0_lt_compat; lra). nra.
  - intros i v H. unfold fix_neg. rewrite map_map, nth_error_map, H. cbn [option_map]. unfold fill_of, minabs. assert (E : allsome (map Some vs) = Some vs) by (apply allsome_map; reflexivity). rewrite E. cbn [option_map]. destruct (Rlt_dec v 0); reflexivity.
Qed.
(** what delay_waterfall draws: only on a logarithmic scale, and only for the real and imaginary parts, are negative values replaced *)
Theorem waterfall_values : forall c flags rows,
  let p := map (wf_component c) (List.concat (map (fun fr : bool * list sample => if fst fr then map (fun _ => (None, 0)) (snd fr) else snd fr) (List.combine flags rows))) in
  waterfall_rows c false flags rows = p /\ (waterfall_rows c true flags rows = if match c with CReal | CImag => true | _ => false end then fix_neg p else p).
Proof. intros c flags rows. unfold waterfall_rows, flag_row. destruct c; split; reflexivity. Qed.
Print Assumptions waterfall_values.
(** With a flagged integration every negative value of the plot becomes missing; and for small data the substitute is above the positive values *)
Theorem fix_neg_refuted :
  (forall l v, In None l -> nth_error l 0 = Some (Some v) -> v < 0 -> nth_error (fix_neg l) 0 = Some None) /\
  ~ (forall l i v, nth_error l i = Some (Some v) -> exists w, nth_error (fix_neg l) i = Some (Some w)) /\
  ~ (forall (vs : list R) i j v w, nth_error vs i = Some v -> v < 0 -> nth_error vs j = Some w -> 0 < w -> forall a b, nth_error (fix_neg (map Some vs)) i = Some (Some a) -> nth_error (fix_neg (map Some vs)) j = Some (Some b) -> a <= b).
Proof.
  assert (G : forall l v, In None l -> nth_error l 0 = Some (Some v) -> v < 0 -> nth_error (fix_neg l) 0 = Some None).
  { intros l v I H V. unfold fix_neg. rewrite nth_error_map, H. cbn [option_map]. destruct (Rlt_dec v 0); [| lra]. unfold fill_of, minabs. destruct (allsome l) as [vs |] eqn:E; [| reflexivity]. apply allsome_map in E. subst l. apply in_map_iff in I as (x & X & _). discriminate. }
  split; [exact G |]. split.
  - intros H. destruct (H [Some (-1); None] 0%nat (-1) eq_refl) as [w W]. rewrite (G [Some (-1); None] (-1) ltac:(right; left; reflexivity) eq_refl ltac:(lra)) in W. discriminate.
  - intros H. specialize (H [- / 10 ^ 15; / 10 ^ 15] 0%nat 1%nat (- / 10 ^ 15) (/ 10 ^ 15) eq_refl). assert (P : 0 < / 10 ^ 15) by (apply Rinv_0_lt_compat, pow_lt; lra). specialize (H ltac:(lra) eq_refl P).
    destruct (fix_neg_spec [- / 10 ^ 15; / 10 ^ 15] ltac:(discriminate)) as (m & Im & _ & Pm & F). pose proof (F 0%nat _ eq_refl) as F0. pose proof (F 1%nat _ eq_refl) as F1.
    destruct (Rlt_dec (- / 10 ^ 15) 0); [| lra]. destruct (Rlt_dec (/ 10 ^ 15) 0); [lra |]. specialize (H _ _ F0 F1). assert (0 <= m). { apply in_map_iff in Im as (v & <- & _). apply Rabs_pos. }
    assert (0 < / 10 ^ 6) by (apply Rinv_0_lt_compat; lra). assert (/ 10 ^ 15 < / 10 ^ 10). { apply Rinv_lt_contravar; [apply Rmult_lt_0_compat; apply pow_lt; lra |]. apply Rlt_pow; [lra | lia]. } nra.
Qed.

(** ** titles and labels *)
Definition same (f : field) (a b : meta) : Prop :=
  match f with FSpw => m_spw a = m_spw b | FBlp => m_blp a = m_blp b | FPol => m_pol a = m_pol b | FLst => m_lst a = m_lst b end.
Lemma feq_same f a b : feq f a b = true <-> same f a b.
Proof. destruct f; cbn; try (destruct (list_eq_dec ascii_dec _ _); split; congruence). destruct (Req_EM_T _ _); split; congruence. Qed.
Lemma same_sym f a b : same f a b -> same f b a.
Proof. destruct f; cbn; congruence. Qed.
Lemma same_trans f a b c : same f a b -> same f b c -> same f a c.
Proof. destruct f; cbn; congruence. Qed.
Lemma varies_false ms f : varies ms f = false <-> forall a b, In a ms -> In b ms -> same f a b.
Proof.
  destruct ms as [| m ms]; [cbn; split; [intros _ a b [] | reflexivity] |]. unfold varies. rewrite negb_false_iff, forallb_forall. split.
  - intros H a b Ia Ib. apply same_trans with m; [apply same_sym |]; apply feq_same, H; assumption.
  - intros H x I. apply feq_same, H; [left; reflexivity | exact I].
Qed.
Lemma order4_all f : In f order4.
Proof. destruct f; cbn; tauto. Qed.
(** The title names exactly the fields with one value (without the baseline-pairs when these are averaged); the label of each spectrum names its values of the other
    fields, in the order spw, blpair, pol, lst; there is a legend if some field varies *)
Theorem auto_title_spec :
  forall fmt3 avg ms title labels leg, ms <> [] -> auto_title fmt3 avg ms = (title, labels, leg) ->
    exists sta var, sta = filter (fun f => existsb (fun g => match f, g with FSpw, FSpw => true | FBlp, FBlp => true | FPol, FPol => true | FLst, FLst => true | _, _ => false end) sta) [FSpw; FBlp; FPol; FLst] /\
      var = filter (fun f => existsb (fun g => match f, g with FSpw, FSpw => true | FBlp, FBlp => true | FPol, FPol => true | FLst, FLst => true | _, _ => false end) var) [FSpw; FBlp; FPol; FLst] /\
      (forall f, In f sta <-> (forall a b, In a ms -> In b ms -> same f a b) /\ ~ (avg = true /\ f = FBlp)) /\
      (forall f, In f var <-> exists a b, In a ms /\ In b ms /\ ~ same f a b) /\
      (forall m, In m ms -> title = joinS (s_ " | ") (map (fun f => field_label fmt3 f m) sta)) /\
      (var = [] -> labels = map (fun _ => None) ms /\ leg = false) /\
      (var <> [] -> labels = map (fun m => Some (joinS (s_ ", ") (map (fun f => field_label fmt3 f m) var))) ms /\ leg = true).
Proof.
  intros fmt3 avg ms title labels leg N H. destruct ms as [| m0 ms]; [congruence |]. unfold auto_title in H.
  set (M := m0 :: ms) in *. set (var := filter (varies M) order4) in *. set (sta := filter (fun f => negb (avg && is_blp f)) (filter (fun f => negb (varies M f)) order4)) in *.
  injection H as <- <- <-. exists sta, var. split; [| split; [| split; [| split; [| split; [| split]]]]].
  - unfold sta, order4. cbn [filter]. destruct (varies M FSpw), (varies M FBlp), (varies M FPol), (varies M FLst), avg; reflexivity.
  - unfold var, order4. cbn [filter]. destruct (varies M FSpw), (varies M FBlp), (varies M FPol), (varies M FLst); reflexivity.
  - intros f. unfold sta. rewrite !filter_In, !negb_true_iff, varies_false. pose proof (order4_all f). split.
    + intros ((_ & S) & A). split; [exact S |]. intros [-> ->]. discriminate.
    + intros (S & A). split; [split; assumption |]. destruct avg; [| reflexivity]. destruct f; try reflexivity. exfalso. auto.
  - intros f. unfold var. rewrite filter_In. split.
    + intros [_ V]. assert (G : ~ forall a b, In a M -> In b M -> same f a b) by (rewrite <- varies_false; congruence). unfold varies, M in V. apply negb_true_iff in V. fold M in V.
      assert (X : exists b, In b M /\ feq f m0 b = false). { clear -V. induction M as [| x l IH]; cbn in V; [discriminate |]. destruct (feq f m0 x) eqn:E; [destruct (IH V) as (b & I & B); exists b; split; [right; exact I | exact B] | exists x; split; [left; reflexivity | exact E]]. }
      destruct X as (b & I & B). exists m0, b. split; [left; reflexivity |]. split; [exact I |]. rewrite <- feq_same. congruence.
    + intros (a & b & Ia & Ib & D). split; [apply order4_all |]. destruct (varies M f) eqn:V; [reflexivity |]. exfalso. apply D. exact (proj1 (varies_false M f) V a b Ia Ib).
  - intros m I. f_equal. apply map_ext_in. intros f F. unfold sta in F. rewrite !filter_In, negb_true_iff, varies_false in F. destruct F as [[_ S] _]. specialize (S m0 m ltac:(left; reflexivity) I). destruct f; cbn in *; congruence.
  - intros E. rewrite E. split; [reflexivity |]. cbn [orb]. clear. induction ms as [| x l IH]; [reflexivity |]. exact IH.
  - intros E. destruct var; [congruence |]. split; reflexivity.
Qed.
(** Within one plot window and polarization are fixed: equal labels mean equal baseline-pairs and equal printed LSTs (baseline-pair texts have no letter l) *)
Lemma app_cut {A} (c : A) x y u v : ~ In c x -> ~ In c y -> x ++ c :: u = y ++ c :: v -> x = y /\ u = v.
Proof.
  revert y. induction x as [| a x IH]; intros [| b y] Hx Hy H; cbn in H.
  - injection H as ->. auto.
  - injection H as -> _. exfalso. apply Hy. left. reflexivity.
  - injection H as -> _. exfalso. apply Hx. left. reflexivity.
  - injection H as -> H. destruct (IH y) as [-> ->]; [intros I; apply Hx; right; exact I | intros I; apply Hy; right; exact I | exact H | auto].
Qed.
Theorem auto_labels_distinguish :
  forall fmt3 avg ms title labels leg i j mi mj, auto_title fmt3 avg ms = (title, labels, leg) ->
    (forall a b, In a ms -> In b ms -> m_spw a = m_spw b /\ m_pol a = m_pol b) -> (forall m, In m ms -> ~ In "l"%char (m_blp m)) ->
    nth_error ms i = Some mi -> nth_error ms j = Some mj -> nth_error labels i = nth_error labels j ->
    m_blp mi = m_blp mj /\ (fmt3 (lst_hours (m_lst mi)) = fmt3 (lst_hours (m_lst mj))).
Proof.
  intros fmt3 avg ms title labels leg i j mi mj H C L Hi Hj E. assert (Ii : In mi ms) by (eapply nth_error_In; exact Hi). assert (Ij : In mj ms) by (eapply nth_error_In; exact Hj). destruct ms as [| m0 ms]; [destruct Ii |]. unfold auto_title in H. set (M := m0 :: ms) in *.
  assert (V1 : varies M FSpw = false) by (apply varies_false; intros a b Ia Ib; apply (C a b Ia Ib)). assert (V2 : varies M FPol = false) by (apply varies_false; intros a b Ia Ib; apply (C a b Ia Ib)).
  apply pair_equal_spec in H as [H _]. apply pair_equal_spec in H as [_ H]. rewrite <- H in E. clear H. unfold order4 in E. cbn [filter] in E. rewrite V1, V2 in E. rewrite !nth_error_map, Hi, Hj in E. cbn [option_map] in E.
  assert (Sb : varies M FBlp = false -> m_blp mi = m_blp mj) by (intros V; exact (proj1 (varies_false M FBlp) V mi mj Ii Ij)). assert (Sl : varies M FLst = false -> m_lst mi = m_lst mj) by (intros V; exact (proj1 (varies_false M FLst) V mi mj Ii Ij)).
  destruct (varies M FBlp) eqn:VB, (varies M FLst) eqn:VL; cbn [map joinS field_label] in E; try (apply (f_equal (fun o => match o with Some (Some x) => x | _ => [] end)) in E; cbv beta iota in E).
  - rewrite <- !app_assoc in E. apply app_inv_head in E. change (s_ "lst=") with ("l"%char :: s_ "st=") in E. change (s_ ", ") with [","%char; " "%char] in E. cbn [app] in E. 
    change (","%char :: " "%char :: "l"%char :: ?x) with ([","%char; " "%char] ++ "l"%char :: x) in E. rewrite !(app_assoc (m_blp _)) in E.
    apply app_cut in E as [E1 E2].
    + apply app_inv_tail in E1. split; [exact E1 |]. apply app_inv_head in E2. apply app_inv_tail in E2. exact E2.
    + intros I. apply in_app_iff in I as [I | I]; [exact (L mi Ii I) |]. cbn in I. intuition discriminate.
    + intros I. apply in_app_iff in I as [I | I]; [exact (L mj Ij I) |]. cbn in I. intuition discriminate.
  - apply app_inv_head in E. split; [exact E | rewrite (Sl eq_refl); reflexivity].
  - split; [exact (Sb eq_refl) |]. apply app_inv_head in E. apply app_inv_tail in E. exact E.
  - split; [exact (Sb eq_refl) | rewrite (Sl eq_refl); reflexivity].
Qed.
Theorem auto_labels_distinguish_refuted :
  forall fmt3, ~ (forall avg ms title labels leg i j, auto_title fmt3 avg ms = (title, labels, leg) -> leg = true -> (i < List.length ms)%nat -> nth_error labels i = nth_error labels j -> i = j).
Proof.
  intros fmt3 H. set (m := fun x => mkmeta (s_ "0") (s_ "((1, 2), (3, 4))") (s_ "xx") x). specialize (H false [m 0; m 0; m 1]).
  destruct (auto_title fmt3 false [m 0; m 0; m 1]) as [[title labels] leg] eqn:E. specialize (H title labels leg 0%nat 1%nat eq_refl).
  destruct (auto_title_spec fmt3 false [m 0; m 0; m 1] title labels leg ltac:(discriminate) E) as (sta & var & _ & _ & _ & V & _ & V0 & V1).
  assert (I : In FLst var). { apply V. exists (m 0), (m 1). split; [left; reflexivity |]. split; [right; right; left; reflexivity |]. cbn. lra. }
  assert (N : var <> []) by (intros ->; destruct I). destruct (V1 N) as [-> ->]. specialize (H eq_refl ltac:(cbn; lia) eq_refl). discriminate.
Qed.
Example labels_nonvacuous : exists title labels, auto_title (fun _ => s_ "1.000") false [mkmeta (s_ "0") (s_ "a") (s_ "xx") 1; mkmeta (s_ "0") (s_ "b") (s_ "xx") 1] = (title, labels, true) /\ labels = [Some (s_ "blpair=a"); Some (s_ "blpair=b")] /\ title = s_ "spw=0 | pol=xx | lst=1.000 hr".
Proof. eexists _, _. split; [unfold auto_title, varies, order4, feq; cbn; destruct (Req_EM_T 1 1); [| congruence]; reflexivity |]. split; reflexivity. Qed.

(** ** the size check of delay_spectrum *)
Lemma list_sum_le {A} (f : A -> nat) l n : (forall x, In x l -> f x <= n)%nat -> (list_sum (map f l) <= n * List.length l)%nat.
Proof. induction l as [| a l IH]; intros H; [cbn; lia |]. cbn [map List.length]. change (list_sum (f a :: map f l)) with (f a + list_sum (map f l))%nat. specialize (IH ltac:(intros x I; apply H; right; exact I)). specialize (H a ltac:(left; reflexivity)). lia. Qed.
Theorem plot_size_partial :
  forall avg rows ntimes groups, too_many ntimes groups false = false -> (forall b, rows b <= ntimes)%nat -> (avg = true \/ forall g, In g groups -> List.length g <= 1)%nat -> (drawn avg rows groups <= 100)%nat.
Proof.
  intros avg rows ntimes groups T R C. unfold too_many in T. rewrite andb_true_r in T. apply Nat.ltb_ge in T. unfold drawn. etransitivity; [apply list_sum_le with (n := ntimes) | exact T].
  intros g I. destruct C as [-> | C]; [destruct g; [lia | apply R] |]. specialize (C g I). destruct avg, g as [| b [| c g]]; cbn in *; try lia; try (specialize (R b); lia).
Qed.
Theorem plot_size_refuted :
  ~ (forall avg rows ntimes groups, too_many ntimes groups false = false -> (forall b, rows b <= ntimes)%nat -> (drawn avg rows groups <= 100)%nat).
Proof.
  intros H. specialize (H false (fun _ => 1%nat) 1%nat [map Z.of_nat (seq 0 101)] eq_refl (fun _ => Nat.le_refl _)). vm_compute in H. lia.
Qed.
Example size_nonvacuous : too_many 10 [[1]; [2]; [3]]%Z false = false /\ drawn false (fun _ => 10%nat) [[1]; [2]; [3]]%Z = 30%nat /\ too_many 60 [[1]; [2]]%Z false = true.
Proof. repeat split. Qed.

(** ** Delta^2 and the label *)
Theorem deltasq_label_partial : forall A deltasq delay (convert : A -> A) data, (deltasq = true -> delay = false) -> quantity_label deltasq = (if deltasq then "\Delta^2" else "P")%string /\ shown deltasq delay convert data = if deltasq then convert data else data.
Proof. intros A [] [] convert data H; split; try reflexivity. specialize (H eq_refl). discriminate. Qed.
(** with delay=True, deltasq=True the data are not converted (as documented) but the label says Delta^2 *)
Theorem deltasq_label_refuted :
  ~ (forall deltasq delay (convert : R -> R) data, quantity_label deltasq = "\Delta^2"%string -> shown deltasq delay convert data = convert data).
Proof. intros H. specialize (H true true (fun x => x + 1) 0 eq_refl). cbn in H. lra. Qed.

(** ** subplots *)
Theorem nside_spec : forall n, (n <= nside n * nside n)%nat /\ ((0 < n)%nat -> ((nside n - 1) * (nside n - 1) < n)%nat).
Proof.
  intros n. unfold nside. set (s := sqrt (INR n)). assert (S0 : 0 <= s) by apply sqrt_pos. assert (SS : s * s = INR n) by (apply sqrt_sqrt, pos_INR).
  pose proof (Zceil_ub s) as U. assert (Z0 : (0 <= Zceil s)%Z). { apply le_IZR. lra. } assert (L : IZR (Zceil s) < s + 1) by apply Zceil_lb. set (z := Zceil s) in *.
  assert (E : INR (Z.to_nat z) = IZR z) by (rewrite INR_IZR_INZ, Z2Nat.id by exact Z0; reflexivity). split.
  - apply INR_le. rewrite mult_INR, E, <- SS. nra.
  - intros N. apply INR_lt. assert (Zp : (1 <= z)%Z). { assert (0 < s) by (apply sqrt_lt_R0; apply lt_0_INR; exact N). assert (0 < z)%Z by (apply lt_IZR; lra). lia. }
    assert (E1 : INR (Z.to_nat z - 1) = IZR z - 1) by (rewrite minus_INR by lia; rewrite E; reflexivity). rewrite mult_INR, E1, <- SS. assert (1 <= IZR z) by (apply IZR_le; exact Zp). nra.
Qed.
(** Key number k is drawn in row k / Nhorz, column k mod Nhorz and nowhere else; if there are as many subplots as keys all are drawn; the subplots with axis labels
    are those with none below *)
Theorem subplots_spec :
  forall (A : Type) (nvert nhorz : nat) (keys : list A), (0 < nhorz)%nat ->
    (forall k a, nth_error keys k = Some a -> subplot nhorz keys (k / nhorz) (k mod nhorz) = Some a) /\
    (forall i j a, (j < nhorz)%nat -> subplot nhorz keys i j = Some a -> exists k, nth_error keys k = Some a /\ i = (k / nhorz)%nat /\ j = (k mod nhorz)%nat) /\
    ((List.length keys <= nvert * nhorz)%nat -> forall k, (k < List.length keys)%nat -> (k / nhorz < nvert)%nat) /\
    (forall i j, bottom nhorz (List.length keys) i j = true <-> subplot nhorz keys (i + 1) j = None).
Proof.
  intros A nvert nhorz keys H. unfold subplot, bottom. split; [| split; [| split]].
  - intros k a E. rewrite (Nat.div_mod k nhorz) in E by lia. rewrite Nat.mul_comm. exact E.
  - intros i j a J E. exists (i * nhorz + j)%nat. split; [exact E |]. rewrite Nat.div_add_l by lia. rewrite Nat.div_small by exact J. rewrite (Nat.add_comm (i * nhorz) j), Nat.mod_add by lia. rewrite Nat.mod_small by exact J. lia.
  - intros L k K. apply Nat.div_lt_upper_bound; lia.
  - intros i j. rewrite Nat.leb_le, nth_error_None. split; intros; lia.
Qed.
(** axes given by the caller that are too few: the rest is dropped without an error *)
Theorem subplots_refuted : ~ (forall (nvert nhorz : nat) (keys : list Z), (0 < nvert * nhorz)%nat -> forall a, In a keys -> exists i j, (i < nvert)%nat /\ (j < nhorz)%nat /\ subplot nhorz keys i j = Some a).
Proof. intros H. destruct (H 1%nat 1%nat [5; 7]%Z ltac:(lia) 7%Z ltac:(cbn; tauto)) as (i & j & I & J & E). assert (i = 0%nat) by lia. assert (j = 0%nat) by lia. subst. discriminate. Qed.
Example subplots_nonvacuous : nside 5 = 3%nat /\ subplot 3 [10; 20; 30; 40; 50]%Z 1 1 = Some 50%Z /\ subplot 3 [10; 20; 30; 40; 50]%Z 1 2 = None.
Proof.
  split; [| split; reflexivity]. unfold nside. replace (Zceil (sqrt (INR 5))) with 3%Z; [reflexivity |]. symmetry. apply Zceil_imp. assert (S : sqrt (INR 5) * sqrt (INR 5) = 5) by (rewrite sqrt_sqrt; cbn; lra). pose proof (sqrt_pos (INR 5)). set (x := sqrt (INR 5)) in *. change (IZR (3 - 1)) with 2. split; nra.
Qed.
(** The middle of a pixel of the waterfall is less than half a channel away from its delay, but equal to it only in the middle of the axis *)
Theorem pixel_offset :
  forall x0 h n i, 0 < h -> (i < n)%nat ->
    let x := fun k => x0 + INR k * h in
    pixel (x 0%nat) (x (n - 1)%nat) n i - x i = h * (1 / 2 - (INR i + 1 / 2) / INR n) /\ Rabs (pixel (x 0%nat) (x (n - 1)%nat) n i - x i) < h / 2 /\
    (pixel (x 0%nat) (x (n - 1)%nat) n i = x i <-> (2 * i + 1 = n)%nat).
Proof.
  intros x0 h n i Hh Hi x. assert (N : 0 < INR n) by (apply lt_0_INR; lia). assert (E : pixel (x 0%nat) (x (n - 1)%nat) n i - x i = h * (1 / 2 - (INR i + 1 / 2) / INR n)).
  { unfold pixel, x. rewrite minus_INR by lia. cbn [INR]. field. lra. }
  assert (I : INR i + 1 <= INR n) by (rewrite <- S_INR; apply le_INR; lia). pose proof (pos_INR i) as I0.
  assert (D : 0 < (INR i + 1 / 2) / INR n < 1). { split; [apply Rdiv_lt_0_compat; lra |]. apply Rmult_lt_reg_r with (INR n); [exact N |]. unfold Rdiv at 1. rewrite Rmult_assoc, Rinv_l by lra. lra. }
  split; [exact E |]. rewrite E. split; [apply Rabs_def1; nra |]. split.
  - intros P. assert (Q : h * (1 / 2 - (INR i + 1 / 2) / INR n) = 0) by lra. apply Rmult_integral in Q as [Q | Q]; [lra |]. assert (Q' : INR n = 2 * INR i + 1). { assert ((INR i + 1 / 2) / INR n = 1 / 2) by lra. assert (W : INR i + 1 / 2 = (INR i + 1 / 2) / INR n * INR n) by (field; lra). rewrite H in W. lra. }
    apply INR_eq. rewrite plus_INR, mult_INR. cbn [INR]. lra.
  - intros Q. assert (Q' : INR n = 2 * INR i + 1) by (rewrite <- Q, plus_INR, mult_INR; cbn [INR]; lra). assert (Q2 : (INR i + 1 / 2) / INR n = 1 / 2) by (rewrite Q'; field; lra). rewrite Q2 in E. lra.
Qed.
Theorem pixel_refuted : ~ (forall x0 h n i, 0 < h -> (i < n)%nat -> pixel x0 (x0 + INR (n - 1) * h) n i = x0 + INR i * h).
Proof. intros H. specialize (H 0 1 2%nat 0%nat ltac:(lra) ltac:(lia)). unfold pixel in H. cbn in H. lra. Qed.

(** ** delay_wedge *)
Definition argsort (seps : list R) (p : list nat) : Prop := Permutation p (seq 0 (List.length seps)) /\ StronglySorted (fun i j => nth i seps 0 <= nth j seps 0) p.
Lemma pick_nth {A} (l : list A) p : (forall i, In i p -> (i < List.length l)%nat) -> forall d, pick l p = map (fun i => nth i l d) p.
Proof.
  induction p as [| i p IH]; intros H d; [reflexivity |]. unfold pick in *. cbn [flat_map map]. rewrite (IH ltac:(intros j J; apply H; right; exact J) d). destruct (nth_error l i) as [a |] eqn:E; [cbn; rewrite (nth_error_nth l i d E); reflexivity |]. apply nth_error_None in E. specialize (H i ltac:(left; reflexivity)). lia.
Qed.
Lemma map_nth_seq {A} (l : list A) d : map (fun i => nth i l d) (seq 0 (List.length l)) = l.
Proof. induction l as [| a l IH]; [reflexivity |]. cbn [List.length seq map nth]. f_equal. rewrite <- seq_shift, map_map. exact IH. Qed.
Lemma argsort_range seps p : argsort seps p -> forall i, In i p -> (i < List.length seps)%nat.
Proof. intros [P _] i I. apply (Permutation_in _ P), in_seq in I. lia. Qed.
Lemma pick_error {A} (l : list A) p : (forall i, In i p -> (i < List.length l)%nat) -> forall k, nth_error (pick l p) k = match nth_error p k with Some i => nth_error l i | None => None end.
Proof.
  induction p as [| i p IH]; intros H k; [destruct k; reflexivity |]. unfold pick in *. cbn [flat_map]. pose proof (H i ltac:(left; reflexivity)) as L. apply nth_error_Some in L. destruct (nth_error l i) as [a |] eqn:E; [| congruence]. destruct k as [| k]; cbn [app nth_error]; [symmetry; exact E |]. apply IH. intros j J. apply H. right. exact J.
Qed.
(** Against delay: separations ascend; position i of the axis and row i of the data belong to one row of the object (as does the horizon line of bin i), and each row is drawn once *)
Theorem wedge_delay_aligned :
  forall (A : Type) (seps : list R) (rows : list A) p, List.length rows = List.length seps -> argsort seps p ->
    List.length (wedge_data rows p) = List.length rows /\ StronglySorted Rle (wedge_axis true 1 seps p) /\ Permutation (wedge_data rows p) rows /\
    forall i x d, nth_error (wedge_axis true 1 seps p) i = Some x -> nth_error (wedge_data rows p) i = Some d ->
      exists r, nth_error seps r = Some x /\ nth_error rows r = Some d /\ nth_error (wedge_horizons true 1 seps p) i = Some (x / u_c * 10 ^ 9).
Proof.
  intros A seps rows p L G. pose proof (argsort_range seps p G) as B. assert (B' : forall i, In i p -> (i < List.length rows)%nat) by (intros; rewrite L; auto). destruct G as [P S].
  assert (Pm : Permutation (wedge_data rows p) rows).
  { unfold wedge_data. destruct rows as [| a rows]; [destruct seps; [| discriminate]; apply Permutation_sym, Permutation_nil in P; subst; constructor |].
    rewrite (pick_nth _ p B' a). eapply Permutation_trans; [apply Permutation_map, P |]. rewrite <- L. clear. generalize (a :: rows). intros l. rewrite (map_nth_seq l a). apply Permutation_refl. }
  split; [apply Permutation_length, Pm |]. split; [| split; [exact Pm |]].
  - unfold wedge_axis. rewrite (pick_nth _ p B 0). clear -S. induction S as [| i p S IH F]; cbn; constructor; [exact IH |]. apply Forall_forall. intros x I. apply in_map_iff in I as (j & <- & J). rewrite Forall_forall in F. auto.
  - intros i x d X D. unfold wedge_axis, wedge_data in *. unfold wedge_horizons. rewrite nth_error_map, X. rewrite pick_error in X by assumption. rewrite pick_error in D by assumption. destruct (nth_error p i) as [r |]; [| discriminate]. exists r. auto.
Qed.
Lemma sorted_perm_eq (l m : list nat) : StronglySorted lt l -> StronglySorted lt m -> Permutation l m -> l = m.
Proof.
  intros Sl. revert m. induction Sl as [| a l Sl IH F]; intros m Sm P; [apply Permutation_nil in P; auto |]. destruct Sm as [| b m Sm G]; [apply Permutation_sym, Permutation_nil in P; discriminate |].
  assert (a = b). { assert (Ia : In a (b :: m)) by (apply (Permutation_in _ P); left; reflexivity). assert (Ib : In b (a :: l)) by (apply (Permutation_in _ (Permutation_sym P)); left; reflexivity). rewrite Forall_forall in F, G. destruct Ia as [-> | Ia]; [reflexivity |]. destruct Ib as [-> | Ib]; [reflexivity |]. specialize (F b Ib). specialize (G a Ia). lia. }
  subst b. f_equal. apply IH; [exact Sm |]. apply Permutation_cons_inv with a. exact P.
Qed.
Lemma seq_sorted a n : StronglySorted lt (seq a n).
Proof. revert a. induction n as [| n IH]; intros a; cbn; constructor; [apply IH |]. apply Forall_forall. intros x I. apply in_seq in I. lia. Qed.
Lemma strict_nth l : StronglySorted Rlt l -> forall i j, (i < j < List.length l)%nat -> nth i l 0 < nth j l 0.
Proof.
  induction 1 as [| a l S IH F]; intros i j H; cbn in H; [lia |]. destruct j as [| j]; [lia |]. destruct i as [| i]; cbn [nth]; [| apply IH; lia]. rewrite Forall_forall in F. apply F, nth_In. lia.
Qed.
Lemma argsort_id seps p : StronglySorted Rlt seps -> argsort seps p -> p = seq 0 (List.length seps).
Proof.
  intros S G. pose proof (argsort_range seps p G) as B. destruct G as [P T]. apply sorted_perm_eq; [| apply seq_sorted | exact P].
  assert (N : NoDup p) by (eapply Permutation_NoDup; [apply Permutation_sym, P | apply seq_NoDup]). clear P. induction T as [| i p T IH F]; constructor.
  - apply IH; [intros j J; apply B; right; exact J | inversion N; assumption].
  - apply Forall_forall. intros j J. rewrite Forall_forall in F. specialize (F j J). inversion N as [| ? ? N1 N2]; subst. assert (i <> j) by congruence. destruct (Nat.lt_ge_cases i j) as [? | ?]; [assumption |]. assert (nth j seps 0 < nth i seps 0) by (apply strict_nth; [exact S |]; split; [lia | apply B; left; reflexivity]). lra.
Qed.
Lemma pick_all {A} (l : list A) : pick l (seq 0 (List.length l)) = l.
Proof. destruct l as [| a l]; [reflexivity |]. rewrite (pick_nth (a :: l) (seq 0 (List.length (a :: l))) ltac:(intros i I; apply in_seq in I; lia) a). apply map_nth_seq. Qed.
(** Against k_perp this needs the rows of the averaged object to be in order of length *)
Theorem wedge_kperp_aligned_partial :
  forall (A : Type) (seps : list R) (rows : list A) p kfac, List.length rows = List.length seps -> argsort seps p -> StronglySorted Rlt seps ->
    wedge_data rows p = rows /\ wedge_axis false kfac seps p = map (fun s => s * kfac) seps.
Proof. intros A seps rows p kfac L G S. rewrite (argsort_id seps p S G). split; [| reflexivity]. unfold wedge_data. rewrite <- L. apply pick_all. Qed.
(** otherwise data (and horizon lines) are at the k_perp of another baseline *)
Theorem wedge_kperp_aligned_refuted :
  ~ (forall (seps : list R) (rows : list Z) p kfac, List.length rows = List.length seps -> argsort seps p -> 0 < kfac ->
      forall i x d, nth_error (wedge_axis false kfac seps p) i = Some x -> nth_error (wedge_data rows p) i = Some d -> exists r s, nth_error seps r = Some s /\ x = s * kfac /\ nth_error rows r = Some d).
Proof.
  intros H. specialize (H [2; 1] [20; 10]%Z [1; 0]%nat 1 eq_refl). assert (G : argsort [2; 1] [1; 0]%nat). { split; [apply perm_swap |]. repeat constructor. cbn. lra. }
  destruct (H G ltac:(lra) 0%nat (2 * 1) 10%Z eq_refl eq_refl) as ([| [| r]] & s & S & X & D); cbn in S, D; try discriminate; [| destruct r; discriminate]. injection S as <-. lra.
Qed.
Example wedge_nonvacuous : argsort [14; 28; 44] [0; 1; 2]%nat /\ argsort [44; 14] [1; 0]%nat /\ wedge_axis true 1 [44; 14] [1; 0]%nat = [14; 44].
Proof. split; [| split; [| reflexivity]]; (split; [cbn; auto using perm_swap, Permutation_refl |]; repeat constructor; cbn; lra). Qed.
(** slope of the horizon in the (k_perp, k_parallel) plane: the same for all baselines *)
Theorem horizon_slope :
  forall co lh z seps p i s h, argsort seps p -> nth_error (pick seps p) i = Some s -> nth_error (wedge_horizons false (tau_to_kpara co lh z) seps p) i = Some h ->
    h = s / u_c * tau_to_kpara co lh z /\ (dRperp_dtheta co lh z <> 0 -> dRpara_df co false lh z <> 0 -> 1 + z <> 0 -> h = (s * bl_to_kperp co lh z) * (dRperp_dtheta co lh z * (1 + z) / (dRpara_df co false lh z * u_f21))).
Proof.
  intros co lh z seps p i s h G S H. unfold wedge_horizons in H. rewrite nth_error_map, S in H. cbn [option_map] in H. assert (H' : h = s / u_c * 10 ^ 9 * (tau_to_kpara co lh z / 10 ^ 9)) by (injection H; intros <-; reflexivity). clear H. subst h. assert (C : u_c <> 0) by (unfold u_c; lra). assert (F : u_f21 <> 0) by (unfold u_f21; lra). assert (E : s / u_c * 10 ^ 9 * (tau_to_kpara co lh z / 10 ^ 9) = s / u_c * tau_to_kpara co lh z) by (field; exact C).
  rewrite E. split; [reflexivity |]. intros D1 D2 Z. unfold tau_to_kpara, bl_to_kperp, z2f. field. rewrite Rplus_comm in Z. repeat split; assumption.
Qed.

(** bin edges of pcolormesh *)
Lemma mids_length l : List.length (mids l) = (List.length l - 1)%nat.
Proof. induction l as [| a [| b l] IH]; [reflexivity | reflexivity |]. cbn [mids List.length] in *. rewrite IH. lia. Qed.
Lemma mids_nth l i : (S i < List.length l)%nat -> nth i (mids l) 0 = (nth i l 0 + nth (S i) l 0) / 2.
Proof.
  revert i. induction l as [| a [| b l] IH]; intros i H; cbn in H; try lia. cbn [mids]. destruct i as [| i]; [cbn; field |]. cbn [nth]. rewrite IH by (cbn; lia). reflexivity.
Qed.
Lemma edges_nth l : (2 <= List.length l)%nat -> List.length (edges l) = S (List.length l) /\ nth 0 (edges l) 0 = nth 0 l 0 - (nth 1 l 0 - nth 0 l 0) / 2 /\
  (forall i, (0 < i < List.length l)%nat -> nth i (edges l) 0 = (nth (i - 1) l 0 + nth i l 0) / 2) /\
  nth (List.length l) (edges l) 0 = nth (List.length l - 1) l 0 + (nth (List.length l - 1) l 0 - nth (List.length l - 2) l 0) / 2.
Proof.
  intros H. destruct l as [| a [| b l]]; cbn in H; try lia. unfold edges. set (L := a :: b :: l) in *. assert (LL : (2 <= List.length L)%nat) by (unfold L; cbn; lia). split; [cbn [List.length]; rewrite app_length, mids_length; cbn [List.length]; lia |]. split; [reflexivity |]. split.
  - intros i I. destruct i as [| i]; [lia |]. cbn [nth]. rewrite app_nth1 by (rewrite mids_length; lia). rewrite mids_nth by lia. f_equal. f_equal. f_equal. lia.
  - destruct (List.length L) as [| n] eqn:E; [lia |]. cbn [nth]. rewrite app_nth2 by (rewrite mids_length; lia). rewrite mids_length, E. replace (n - (S n - 1))%nat with 0%nat by lia. cbn [nth]. reflexivity.
Qed.
(** For an ascending axis of at least two values there is one more edge than values, edges ascend, inner edges are half-way, and each value lies inside its own bin *)
Theorem edges_spec :
  forall l, (2 <= List.length l)%nat -> (forall i j, (i < j < List.length l)%nat -> nth i l 0 < nth j l 0) ->
    List.length (edges l) = S (List.length l) /\
    (forall i, (i < List.length l)%nat -> nth i (edges l) 0 < nth i l 0 < nth (S i) (edges l) 0) /\
    (forall i, (0 < i < List.length l)%nat -> nth i l 0 - nth i (edges l) 0 = nth i (edges l) 0 - nth (i - 1) l 0).
Proof.
  intros l L S. destruct (edges_nth l L) as (E1 & E2 & E3 & E4). split; [exact E1 |]. split.
  - intros i I. split.
    + destruct i as [| i]; [rewrite E2; specialize (S 0%nat 1%nat ltac:(lia)); lra |]. rewrite E3 by lia. replace (Datatypes.S i - 1)%nat with i by lia. specialize (S i (Datatypes.S i) ltac:(lia)). lra.
    + destruct (Nat.eq_dec (Datatypes.S i) (List.length l)) as [Q | Q].
      * rewrite Q, E4. replace (List.length l - 1)%nat with i by lia. specialize (S (List.length l - 2)%nat i ltac:(lia)). lra.
      * rewrite E3 by lia. replace (Datatypes.S i - 1)%nat with i by lia. specialize (S i (Datatypes.S i) ltac:(lia)). lra.
  - intros i I. rewrite E3 by exact I. field.
Qed.
Example edges_nonvacuous : edges [14; 28; 44] = [14 - (28 - 14) / 2; 14 + (28 - 14) / 2; 28 + (44 - 28) / 2; 44 + (44 - 28) / 2].
Proof. reflexivity. Qed.
(** rotate=True draws the transpose *)
Theorem wedge_rotate : forall (A : Type) nc (m : nat -> nat -> A) i j, (i < nc)%nat -> rot90 nc (revcols nc m) i j = m j i.
Proof. intros A nc m i j H. unfold rot90, revcols. f_equal. lia. Qed.
(** baseline-pairs are ignored unless times are given *)
Theorem wedge_select_refuted :
  (forall U T (sel : option (list Z) -> list T -> U -> U) blps u, wedge_select sel blps None u = u) /\
  ~ (forall U T (sel : option (list Z) -> list T -> U -> U) (has : U -> Z -> Prop) blps times u, (forall l ts v b, has (sel (Some l) ts v) b -> In b l) -> forall b, has (wedge_select sel (Some blps) times u) b -> In b blps).
Proof.
  split; [reflexivity |]. intros H. specialize (H (list Z) Z (fun l _ u => match l with Some l => filter (fun b => existsb (Z.eqb b) l) u | None => u end) (fun u b => In b u) [1]%Z None [1; 2]%Z).
  specialize (H ltac:(intros l ts v b I; apply filter_In in I as [_ I]; apply existsb_exists in I as (c & I & C); apply Z.eqb_eq in C; subst; exact I) 2%Z ltac:(cbn; tauto)). cbn in H. intuition discriminate.
Qed.
Theorem wedge_select_partial :
  forall U T (sel : option (list Z) -> list T -> U -> U) (has : U -> Z -> Prop) blps ts u, (forall l ts v b, has (sel (Some l) ts v) b -> In b l) -> forall b, has (wedge_select sel (Some blps) (Some ts) u) b -> In b blps.
Proof. intros U T sel has blps ts u H b I. exact (H _ _ _ _ I). Qed.

(** ** file names of plot_uvdata_waterfalls *)
(** The extension is always appended, also to names that have it; formats longer than the name are an error *)
Theorem file_name_spec :
  forall out fmt, (2 <= List.length fmt)%nat -> with_format out fmt = if Nat.ltb (List.length out) (List.length fmt) then Err IndexError else Ok (out ++ s_ "." ++ fmt).
Proof.
  intros out fmt L. unfold with_format. destruct (Nat.eqb_spec (List.length fmt) 0); [lia |]. destruct (Nat.ltb_spec (List.length out) (List.length fmt)) as [H | H]; [reflexivity |].
  destruct (nth_error out (List.length out - List.length fmt)) as [c |] eqn:E; [| apply nth_error_None in E; lia]. destruct (list_eq_dec ascii_dec [lower c] (map lower fmt)) as [Q | Q]; [| reflexivity]. apply (f_equal (@List.length ascii)) in Q. rewrite map_length in Q. cbn in Q. lia.
Qed.
(** a format of one letter is not appended if the name ends in that letter, capital or small *)
Definition capitals : pystr := s_ "ABCDEFGHIJKLMNOPQRSTUVWXYZ".
Definition smalls : pystr := s_ "abcdefghijklmnopqrstuvwxyz".
(** equal up to case *)
Definition same_letter (c d : ascii) : Prop := c = d \/ exists i, (nth_error capitals i = Some c /\ nth_error smalls i = Some d) \/ (nth_error smalls i = Some c /\ nth_error capitals i = Some d).
Definition aeqb (x y : ascii) : bool := if ascii_dec x y then true else false.
Definition letters_agree (c d : ascii) : bool := (aeqb c d || existsb (fun i => match nth_error capitals i, nth_error smalls i with Some x, Some y => (aeqb x c && aeqb y d) || (aeqb y c && aeqb x d) | _, _ => false end) (seq 0 26))%bool.
Lemma lower_agree : forall c d, (if ascii_dec (lower c) (lower d) then true else false) = letters_agree c d.
Proof.
  assert (H : forallb (fun c => forallb (fun d => Bool.eqb (if ascii_dec (lower c) (lower d) then true else false) (letters_agree c d)) (map ascii_of_nat (seq 0 256))) (map ascii_of_nat (seq 0 256)) = true) by (vm_compute; reflexivity).
  assert (A : forall c, In c (map ascii_of_nat (seq 0 256))) by (intros c; apply in_map_iff; exists (nat_of_ascii c); split; [apply ascii_nat_embedding|apply in_seq; pose proof (nat_ascii_bounded c); lia]).
  intros c d. rewrite forallb_forall in H. specialize (H c (A c)). rewrite forallb_forall in H. specialize (H d (A d)). apply Bool.eqb_prop in H. exact H.
Qed.
Lemma same_letter_agree c d : same_letter c d <-> letters_agree c d = true.
Proof.
  unfold letters_agree. rewrite orb_true_iff, existsb_exists. unfold aeqb, same_letter.
  assert (E : forall x y : ascii, (if ascii_dec x y then true else false) = true <-> x = y) by (intros x y; destruct (ascii_dec x y); split; congruence).
  rewrite E. split; (intros [H|H]; [left; exact H|right]).
  - destruct H as (i & H). exists i. assert (L : (i < 26)%nat) by (destruct H as [[H _]|[H _]]; change 26%nat with (List.length capitals); [|change (List.length capitals) with (List.length smalls)]; apply nth_error_Some; congruence).
    split; [apply in_seq; lia|]. destruct H as [[H1 H2]|[H1 H2]]; rewrite H1, H2, orb_true_iff, !andb_true_iff, !E; auto.
  - destruct H as (i & _ & H). exists i. destruct (nth_error capitals i) as [x|]; [|discriminate]. destruct (nth_error smalls i) as [y|]; [|discriminate]. rewrite orb_true_iff, !andb_true_iff, !E in H. destruct H as [[-> ->]|[-> ->]]; auto.
Qed.
Theorem file_name_one_letter : forall out c d, (same_letter c d -> with_format (out ++ [c]) [d] = Ok (out ++ [c])) /\ (~ same_letter c d -> with_format (out ++ [c]) [d] = Ok (out ++ [c] ++ s_ "." ++ [d])).
Proof.
  intros out c d.
  assert (W : with_format (out ++ [c]) [d] = Ok (if letters_agree c d then out ++ [c] else (out ++ [c]) ++ s_ "." ++ [d])).
  { rewrite <- lower_agree. unfold with_format. cbn [List.length Nat.eqb]. rewrite app_length. cbn [List.length]. destruct (Nat.ltb_spec (List.length out + 1) 1) as [H|H]; [lia|].
    rewrite nth_error_app2 by lia. replace (List.length out + 1 - 1 - List.length out)%nat with 0%nat by lia. cbn [nth_error map]. destruct (list_eq_dec ascii_dec [lower c] [lower d]) as [E|E], (ascii_dec (lower c) (lower d)) as [F|F]; try reflexivity; [injection E as E; contradiction|congruence]. }
  rewrite W. split; intros H; [apply same_letter_agree in H; rewrite H; reflexivity|]. destruct (letters_agree c d) eqn:Q; [apply same_letter_agree in Q; contradiction|]. rewrite <- app_assoc. reflexivity.
Qed.
Print Assumptions file_name_one_letter.
Theorem file_name_refuted :
  ~ (forall out fmt, with_format (out ++ s_ "." ++ fmt) fmt = Ok (out ++ s_ "." ++ fmt)) /\ with_format (s_ "a.png") (s_ "png") = Ok (s_ "a.png.png") /\ ~ (forall out fmt, exists n, with_format out fmt = Ok n).
Proof.
  split; [| split; [reflexivity |]].
  - intros H. specialize (H (s_ "a") (s_ "png")). vm_compute in H. discriminate.
  - intros H. destruct (H (s_ "a") (s_ "png")) as [n N]. vm_compute in N. discriminate.
Qed.
(** names pre{pol}.{bl}post differ for different (antenna pair, polarization) *)
Lemma str_Z_nodot z : ~ In "."%char (str_Z z).
Proof.
  assert (D : forall l, Forall (fun d => 0 <= d <= 9)%Z l -> ~ In "."%char (map digit_char l)).
  { intros l F I. apply in_map_iff in I as (d & E & J). rewrite Forall_forall in F. specialize (F d J). unfold digit_char in E. apply (f_equal nat_of_ascii) in E. rewrite nat_ascii_embedding in E by lia. cbn in E. lia. }
  unfold str_Z. destruct (Z.ltb_spec z 0) as [H | H].
  - destruct (digits_spec (- z) ltac:(lia)) as (_ & F & _). intros [I | I]; [discriminate | exact (D _ F I)].
  - destruct (digits_spec z ltac:(lia)) as (_ & F & _). exact (D _ F).
Qed.
Lemma str_Z_inj a b : str_Z a = str_Z b -> a = b.
Proof. intros H. apply (f_equal int_strict) in H. rewrite !int_str in H. congruence. Qed.
Theorem file_names_distinct :
  forall pre post fmt pol a1 a2 pol' b1 b2 n, (2 <= List.length fmt)%nat -> ~ In "."%char pol -> ~ In "."%char pol' ->
    with_format (pre ++ pol ++ s_ "." ++ bl_id a1 a2 ++ post) fmt = Ok n -> with_format (pre ++ pol' ++ s_ "." ++ bl_id b1 b2 ++ post) fmt = Ok n -> pol = pol' /\ a1 = b1 /\ a2 = b2.
Proof.
  intros pre post fmt pol a1 a2 pol' b1 b2 n L P P' H1 H2. rewrite file_name_spec in H1, H2 by exact L. destruct (Nat.ltb _ _) in H1; [discriminate |]. destruct (Nat.ltb _ _) in H2; [discriminate |].
  assert (E : (pre ++ pol ++ s_ "." ++ bl_id a1 a2 ++ post) ++ s_ "." ++ fmt = (pre ++ pol' ++ s_ "." ++ bl_id b1 b2 ++ post) ++ s_ "." ++ fmt) by congruence. clear H1 H2. apply app_inv_tail in E. apply app_inv_head in E. change (s_ "." ++ ?x) with ("."%char :: x) in E.
  apply app_cut in E as [-> E]; [| assumption | assumption]. split; [reflexivity |]. unfold bl_id in E. apply app_inv_tail in E. change (s_ "." ++ ?x) with ("."%char :: x) in E. apply app_cut in E as [E1 E2]; [| apply str_Z_nodot | apply str_Z_nodot]. split; apply str_Z_inj; assumption.
Qed.
Example names_nonvacuous : with_format (s_ "p/" ++ s_ "xx" ++ s_ "." ++ bl_id 1 23 ++ []) (s_ "png") = Ok (s_ "p/xx.1.23.png").
Proof. reflexivity. Qed.

(** ** significant figures *)
Lemma sigfig_range x : x <> 0 -> bpow r10 (- get_sigfig x) <= Rabs x < bpow r10 (1 - get_sigfig x).
Proof.
  intros N. assert (P : 0 < Rabs x) by (apply Rabs_pos_lt, N). unfold get_sigfig, log10. set (y := ln (Rabs x)). assert (L10 : 0 < ln 10) by (rewrite <- ln_1; apply ln_increasing; lra). assert (X : Rabs x = exp y) by (unfold y; rewrite exp_ln; [reflexivity | exact P]).
  set (k := Zfloor (y / ln 10)). rewrite X, !bpow_exp. change (IZR r10) with 10. rewrite Z.opp_involutive. replace (1 - - k)%Z with (k + 1)%Z by lia. rewrite plus_IZR. pose proof (Zfloor_lb (y / ln 10)) as A. pose proof (Zfloor_ub (y / ln 10)) as B. fold k in A, B.
  assert (Y : y = y / ln 10 * ln 10) by (field; lra). split.
  - assert (IZR k * ln 10 <= y) by (rewrite Y; apply Rmult_le_compat_r; lra). destruct H as [H | ->]; [left; apply exp_increasing, H | right; reflexivity].
  - apply exp_increasing. rewrite Y. apply Rmult_lt_compat_r; lra.
Qed.
(** The result is x rounded up or down to one significant figure *)
Theorem round_sigfig_spec :
  forall up x, x <> 0 -> exists (e n : Z), bpow r10 e <= Rabs x < bpow r10 (e + 1) /\ round_sigfig up x = IZR n * bpow r10 e /\
    (if up then x <= round_sigfig up x < x + bpow r10 e else x - bpow r10 e < round_sigfig up x <= x).
Proof.
  intros up x N. set (s := get_sigfig x). exists (- s)%Z, ((if up then Zceil else Zfloor) (bpow r10 s * x)). pose proof (sigfig_range x N) as Rg. fold s in Rg. replace (- s + 1)%Z with (1 - s)%Z by lia. split; [exact Rg |].
  pose proof (bpow_gt_0 r10 s) as B. pose proof (bpow_gt_0 r10 (- s)) as B'. assert (I : bpow r10 (- s) = / bpow r10 s) by apply bpow_opp. assert (E : round_sigfig up x = IZR ((if up then Zceil else Zfloor) (bpow r10 s * x)) * bpow r10 (- s)) by (unfold round_sigfig; fold s; rewrite I; reflexivity).
  split; [exact E |]. rewrite E. assert (X : x = bpow r10 s * x * bpow r10 (- s)) by (rewrite I; field; lra). set (y := bpow r10 s * x) in *. destruct up.
  - pose proof (Zceil_ub y). pose proof (Zceil_lb y). rewrite X. split; nra.
  - pose proof (Zfloor_lb y). pose proof (Zfloor_ub y). rewrite X. split; nra.
Qed.
(** tick labels are within half a unit of the third significant figure *)
Theorem tick_spec :
  forall x, x <> 0 -> exists e n : Z, bpow r10 e <= Rabs x < bpow r10 (e + 1) /\ tick x = IZR n * bpow r10 (e - 2) /\ Rabs (tick x - x) <= bpow r10 (e - 2) / 2.
Proof.
  intros x N. set (s := get_sigfig x). exists (- s)%Z, (ZnearestE (bpow r10 (s + 2) * x)). pose proof (sigfig_range x N) as Rg. fold s in Rg. replace (- s + 1)%Z with (1 - s)%Z by lia. split; [exact Rg |]. replace (- s - 2)%Z with (- (s + 2))%Z by lia.
  assert (E : tick x = IZR (ZnearestE (bpow r10 (s + 2) * x)) * bpow r10 (- (s + 2))) by (unfold tick, around; fold s; rewrite bpow_opp; reflexivity). split; [exact E |]. rewrite E.
  pose proof (bpow_gt_0 r10 (s + 2)) as B. pose proof (bpow_gt_0 r10 (- (s + 2))) as B'. assert (I : bpow r10 (- (s + 2)) = / bpow r10 (s + 2)) by apply bpow_opp. assert (X : x = bpow r10 (s + 2) * x * bpow r10 (- (s + 2))) by (rewrite I; field; lra). set (y := bpow r10 (s + 2) * x) in *. rewrite X at 1.
  replace (IZR (ZnearestE y) * bpow r10 (- (s + 2)) - y * bpow r10 (- (s + 2))) with ((IZR (ZnearestE y) - y) * bpow r10 (- (s + 2))) by ring. rewrite Rabs_mult, (Rabs_right (bpow r10 (- (s + 2)))) by lra. pose proof (Znearest_half (fun z => negb (Z.even z)) y) as H. rewrite Rabs_minus_sym in H. nra.
Qed.
Example sigfig_nonvacuous : exists x : R, x <> 0 /\ 1 <= Rabs x < 10.
Proof. exists 7. rewrite Rabs_right by lra. lra. Qed.
Print Assumptions normalize_blpairs_spec.
Print Assumptions fix_neg_spec.
Print Assumptions auto_title_spec.
Print Assumptions auto_labels_distinguish.
Print Assumptions subplots_spec.
Print Assumptions pixel_offset.
Print Assumptions wedge_delay_aligned.
Print Assumptions edges_spec.
Print Assumptions file_names_distinct.
Print Assumptions round_sigfig_spec.
Print Assumptions tick_spec.

(** the LST of a label, in hours: from 0 up to 24, the LST up to whole days *)
Theorem lst_hours_spec : forall l, 0 <= lst_hours l < 24 /\ exists k, l = lst_hours l * PI / 12 + 2 * PI * IZR k.
Proof.
  intros l. unfold lst_hours. pose proof PI_RGT_0 as P. destruct (CircProps.pymod_range l (2 * PI) ltac:(lra)) as [H1 H2]. destruct (CircProps.pymod_ex l (2 * PI)) as [k E]. split; [split |].
  - apply Rmult_le_pos; [nra | left; apply Rinv_0_lt_compat; exact P].
  - apply (Rmult_lt_reg_r PI); [exact P |]. unfold Rdiv. rewrite Rmult_assoc, Rinv_l by lra. nra.
  - exists (- k)%Z. rewrite opp_IZR. replace (pymod l (2 * PI) * 12 / PI * PI / 12) with (pymod l (2 * PI)) by (field; lra). rewrite E. ring.
Qed.
Print Assumptions lst_hours_spec.
