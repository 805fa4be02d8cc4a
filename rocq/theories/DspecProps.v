(** What plot.delay_spectrum draws (C362-C368). *)
From Coq Require Import String Reals Lra Lia Permutation.
From Verif Require Import Prelude CNum DspecModel.
Open Scope nat_scope.
Open Scope R_scope.

(** ** Specification *)

(** the part of a number that a component shows *)
Definition shown_part (component : string) (f : C -> R) : Prop :=
  (component = "real"%string /\ forall z, f z = re z) \/
  (component = "imag"%string /\ forall z, f z = im z) \/
  (component = "abs"%string /\ forall z, f z = sqrt (re z * re z + im z * im z)).
(** a spectrum with one value per delay, blank without integration time *)
Definition shows (f : C -> R) (integration : R) (vals : list C) (y : list (option R)) : Prop :=
  List.length y = List.length vals /\
  forall j z, nth_error vals j = Some z ->
    nth_error y j = Some (if Rle_dec (Rabs integration) (/ 10 ^ 8) then None else Some (f z)).
(** the baseline-pairs of which spectra are drawn, each with the group in whose name they are drawn: all of them, or the first of each group *)
Fixpoint to_draw (avg : bool) (groups : list (list Z)) : list (list Z * Z) :=
  match groups with
  | [] => []
  | g :: gs => (match avg, g with true, b :: _ => [(g, b)] | _, _ => map (pair g) g end) ++ to_draw avg gs
  end.
(** integration [i] of a baseline-pair, as an item *)
Definition shows_row (f : C -> R) (vals : list C) (g : list Z) (r : prow) (it : item) : Prop :=
  i_group it = g /\ i_t it = r_time r /\ i_lst it = r_lst r /\ shows f (r_int r) vals (i_y it).
(** the rows and items of all baseline-pairs, one item per row, in order *)
Inductive drawn_as (f : C -> R) (u : pobj) : list (list Z * Z) -> list item -> Prop :=
| drawn_nil : drawn_as f u [] []
| drawn_cons g b rows its0 l its : p_rows u b = Some rows ->
    Forall2 (fun r it => shows_row f (r_val r) g r it /\ i_errs it = None) rows its0 -> drawn_as f u l its -> drawn_as f u ((g, b) :: l) (its0 ++ its).
(** the legend entries of an artist *)
Definition entry (a : artist) : list string :=
  match a with Line _ (Some s) => [s] | Marks _ _ (Some s) => [s] | _ => [] end.

(** ** C362: the spectra *)

Lemma cast_shown c f : cast_of c = Some f -> shown_part c f.
Proof.
  unfold cast_of, shown_part. destruct (String.eqb_spec c "real") as [->|n1]. { intros [= <-]. left; auto. }
  destruct (String.eqb_spec c "imag") as [->|n2]. { intros [= <-]. right; left; auto. }
  destruct (String.eqb_spec c "abs") as [->|n3]; [|discriminate]. intros [= <-]. right; right; auto.
Qed.
Lemma blank_shows f i vals : shows f i vals (blank (no_data i) (map f vals)).
Proof.
  unfold shows, blank, no_data. split; [now rewrite !map_length|]. intros j z Hj.
  rewrite nth_error_map, nth_error_map, Hj. cbn. destruct (Rle_dec _ _); reflexivity.
Qed.
Lemma items_rows f cmp g (errs : option (list (list C))) rows : forall (vals : list (list C)) k, List.length vals = List.length rows ->
  Forall2 (fun rv it => shows_row f (snd rv) g (fst rv) it)
    (combine rows vals)
    (map (fun irv : nat * (prow * list C) => let '(i, rv) := irv in let '(r, v) := rv in
        mkitem (blank (no_data (r_int r)) (map f v)) (r_time r) (r_lst r) g
          (option_map (fun es => blank_errs cmp (no_data (r_int r)) (map f (nth i es []))) errs))
       (combine (seq k (List.length rows)) (combine rows vals))).
Proof.
  induction rows as [|r rows IH]; intros [|v vals] k E; cbn in *; try discriminate; constructor.
  - split; [reflexivity|]. split; [reflexivity|]. split; [reflexivity|]. apply blank_shows.
  - apply IH. congruence.
Qed.
Lemma blp_ok c f u g b rows its : cast_of c = Some f -> p_rows u b = Some rows -> blp_series c None None u g b = Ok its ->
  Forall2 (fun r it => shows_row f (r_val r) g r it /\ i_errs it = None) rows its.
Proof.
  intros Hf Hr. unfold blp_series. rewrite Hf, Hr. cbn. intros [= <-].
  generalize 0%nat as k. clear. induction rows as [|r rows IH]; intros k; cbn; constructor.
  - split; [|reflexivity]. split; [reflexivity|]. split; [reflexivity|]. split; [reflexivity|]. apply blank_shows.
  - apply IH.
Qed.
Lemma blp_rows_of c ps er u g b its : blp_series c ps er u g b = Ok its -> exists f rows, cast_of c = Some f /\ p_rows u b = Some rows.
Proof. unfold blp_series. destruct (cast_of c); [|discriminate]. destruct (p_rows u b); [|discriminate]. eauto. Qed.

Lemma drawn_app f u l1 i1 l2 i2 : drawn_as f u l1 i1 -> drawn_as f u l2 i2 -> drawn_as f u (l1 ++ l2) (i1 ++ i2).
Proof. induction 1; cbn; [auto|]. intros. rewrite <- app_assoc. econstructor; eauto. Qed.
Lemma group_ok c f u g : cast_of c = Some f -> forall bs its, group_series c None None u g bs = Ok its -> drawn_as f u (map (pair g) bs) its.
Proof.
  intros Hf. induction bs as [|b bs IH]; cbn; intros its.
  - intros [= <-]. constructor.
  - destruct (blp_series c None None u g b) eqn:E; cbn; [|discriminate].
    destruct (group_series c None None u g bs) eqn:E2; cbn; [|discriminate]. intros [= <-].
    destruct (blp_rows_of _ _ _ _ _ _ _ E) as (f' & rows & _ & Hr). eapply drawn_cons; eauto using blp_ok.
Qed.

(** Every integration of every baseline-pair asked for (of an average: of the first of each group) is drawn, once and in order, with its
    time and LST, its component, nothing where it has no integration time. *)
Theorem spectra_drawn avg component u groups its :
  all_series avg component None None u groups = Ok its ->
  groups <> [] -> (forall g, In g groups -> g <> []) ->
  exists f, shown_part component f /\ drawn_as f u (to_draw avg groups) its.
Proof.
  intros H Hne Hg.
  assert (Hc : exists f, cast_of component = Some f).
  { destruct groups as [|[|b g] gs]; [easy|exfalso; eapply Hg; [left|]; reflexivity|].
    cbn in H. destruct (group_series _ _ _ _ _ (members avg (b :: g))) eqn:E; [|discriminate].
    assert (exists l, group_series component None None u (b :: g) [b] = Ok l) as (l & Hl).
    { destruct avg; cbn in *; [eauto|]. destruct (blp_series component None None u (b :: g) b); cbn in *; [eauto|discriminate]. }
    cbn in Hl. destruct (blp_series component None None u (b :: g) b) eqn:E2; [|discriminate].
    destruct (blp_rows_of _ _ _ _ _ _ _ E2) as (f & _ & Hf & _). eauto. }
  destruct Hc as (f & Hf). exists f. split; [now apply cast_shown|]. clear Hne Hg.
  revert its H. induction groups as [|g gs IH]; cbn; intros its.
  - intros [= <-]. constructor.
  - destruct (group_series component None None u g (members avg g)) eqn:E; cbn; [|discriminate].
    destruct (all_series avg component None None u gs) eqn:E2; cbn; [|discriminate]. intros [= <-].
    apply drawn_app; [|auto]. apply (group_ok _ f) in E; [|assumption].
    unfold members in E. destruct avg; [destruct g; cbn in *; exact E|exact E].
Qed.

(** With a known component and all baseline-pairs present, delay_spectrum does not refuse. *)
Theorem spectra_accepted avg component u groups : In component ["real"; "imag"; "abs"]%string ->
  (forall g b, In g groups -> In b g -> p_rows u b <> None) ->
  exists its, all_series avg component None None u groups = Ok its.
Proof.
  intros Hc. assert (exists f, cast_of component = Some f) as (f & Hf).
  { cbn in Hc. destruct Hc as [<-|[<-|[<-|[]]]]; cbn; eauto. }
  induction groups as [|g gs IH]; cbn; intros Hp; [eauto|].
  assert (Hg : forall bs, (forall b, In b bs -> p_rows u b <> None) -> exists l, group_series component None None u g bs = Ok l).
  { induction bs as [|b bs IHb]; cbn; intros Hb; [eauto|].
    unfold blp_series at 1. rewrite Hf. destruct (p_rows u b) eqn:E; [|exfalso; now apply (Hb b (or_introl eq_refl))]. cbn.
    destruct IHb as (l' & ->); [intros; apply Hb; auto|]. cbn. eauto. }
  destruct (Hg (members avg g)) as (l & ->).
  { intros b Hb. apply (Hp g); [auto|]. unfold members in Hb. destruct avg; [|assumption]. destruct g; cbn in *; [easy|]. destruct Hb as [->|[]]; auto. }
  destruct IH as (l' & ->); [intros g0 b0 H0 Hb0; apply (Hp g0 b0); auto|]. cbn. eauto.
Qed.

(** ** C363: statistics instead of data, and error bars *)

(** Of an object with one row of each statistic per integration, [plot_stats] draws the rows of that statistic, blanked the same way, and
    [error] the rows of that one as error bars: integration by integration; those of integrations without data are blanked too, to 0 if the
    imaginary part is drawn. *)
Theorem stats_drawn component s e u g b rows srows erows its :
  p_rows u b = Some rows -> stat_rows u s b = Some srows -> stat_rows u e b = Some erows ->
  List.length srows = List.length rows -> List.length erows = List.length rows ->
  blp_series component (Some s) (Some e) u g b = Ok its ->
  exists f, shown_part component f /\ List.length its = List.length rows /\
    forall i r v ev, nth_error rows i = Some r -> nth_error srows i = Some v -> nth_error erows i = Some ev ->
      exists it y, nth_error its i = Some it /\ shows_row f v g r it /\ i_errs it = Some y /\
        (~ Rabs (r_int r) <= / 10 ^ 8 -> y = map (fun z => Some (f z)) ev) /\
        (Rabs (r_int r) <= / 10 ^ 8 -> y = map (fun _ => if String.eqb component "imag" then Some 0 else None) ev).
Proof.
  intros Hr Hs He Ls Le. unfold blp_series. destruct (cast_of component) as [f|] eqn:Hf; [|discriminate].
  rewrite Hr, Hs, He. cbn. intros [= <-]. exists f. split; [now apply cast_shown|].
  split. { rewrite map_length, !combine_length, seq_length, Ls, !Nat.min_id. reflexivity. }
  intros i r v ev Hi Hv Hev.
  assert (Hc : forall k rs vs i, nth_error rs i = Some r -> nth_error vs i = Some v ->
    nth_error (combine (seq k (List.length rs)) (combine rs vs)) i = Some ((k + i)%nat, (r, v))).
  { clear. intros k rs. revert k. induction rs as [|r' rs IH]; intros k [|v' vs] [|i]; cbn; try discriminate.
    - intros [= ->] [= ->]. now rewrite Nat.add_0_r.
    - intros H1 H2. rewrite (IH (S k) vs i H1 H2). rewrite <- Nat.add_succ_comm. reflexivity. }
  rewrite nth_error_map, (Hc 0%nat rows srows i Hi Hv). cbn. eexists; eexists. split; [reflexivity|]. cbn.
  split. { split; [reflexivity|]. split; [reflexivity|]. split; [reflexivity|]. apply blank_shows. }
  split; [reflexivity|]. rewrite (nth_error_nth _ _ _ Hev). unfold blank_errs, no_data.
  split; intros Hn; (destruct (Rle_dec _ _); try contradiction; rewrite map_map; reflexivity).
Qed.

(** Error bars of a plot of averages are always refused, and so are statistics: the average that is plotted has none. *)
Theorem average_errors_refuted average at_ component e u groups v :
  average u (Some groups) at_ = Ok v -> groups <> [] -> (forall g, In g groups -> g <> []) ->
  forall its, spectrum_series average true at_ component None (Some e) u groups <> Ok its.
Proof.
  intros Hv Hne Hg its. unfold spectrum_series, plotted. rewrite Hv. cbn.
  destruct groups as [|[|b g] gs]; [easy|exfalso; eapply Hg; [left|]; reflexivity|].
  cbn. unfold blp_series. destruct (cast_of component); [|discriminate]. cbn. destruct (p_rows v b); [|discriminate]. cbn. discriminate.
Qed.
Theorem average_errors_keyerror average component e u groups v b g gs rows :
  average u (Some groups) false = Ok v -> groups = (b :: g) :: gs -> p_rows v b = Some rows -> In component ["real"; "imag"; "abs"]%string ->
  spectrum_series average true false component None (Some e) u groups = Err KeyError.
Proof.
  intros Hv -> Hr Hc. unfold spectrum_series, plotted. rewrite Hv. cbn. unfold blp_series.
  destruct Hc as [<-|[<-|[<-|[]]]]; cbn; rewrite Hr; reflexivity.
Qed.
Theorem time_average_errors_keyerror average component e u groups v b g gs rows :
  average u None true = Ok v -> groups = (b :: g) :: gs -> p_rows v b = Some rows -> In component ["real"; "imag"; "abs"]%string ->
  spectrum_series average false true component None (Some e) u groups = Err KeyError.
Proof.
  intros Hv -> Hr Hc. unfold spectrum_series, plotted. rewrite Hv. cbn. unfold blp_series.
  destruct Hc as [<-|[<-|[<-|[]]]]; cbn; rewrite Hr; reflexivity.
Qed.
Theorem average_stats_refuted average ab at_ component s error u groups v : (ab || at_)%bool = true ->
  average u (if ab then Some groups else None) at_ = Ok v ->
  spectrum_series average ab at_ component (Some s) error u groups = Err AttributeError.
Proof. intros Hab Hv. unfold spectrum_series, plotted. destruct ab; cbn in Hab |- *; [|rewrite Hab in *]; rewrite Hv; reflexivity. Qed.

(** Without averaging, a statistic that the object does not have is refused: an AssertionError to plot, a KeyError as error bars; an object
    without any is an AttributeError to plot and a KeyError as error bars. *)
Theorem unknown_statistics average component u groups s st b g gs rows f :
  p_stats u = Some st -> ~ In s (map fst st) -> groups = (b :: g) :: gs -> p_rows u b = Some rows -> cast_of component = Some f ->
  (forall er, spectrum_series average false false component (Some s) er u groups = Err AssertionError) /\
  spectrum_series average false false component None (Some s) u groups = Err KeyError /\
  (forall er, spectrum_series average false false component (Some s) er (mkpobj (p_rows u) None) groups = Err AttributeError) /\
  spectrum_series average false false component None (Some s) (mkpobj (p_rows u) None) groups = Err KeyError.
Proof.
  intros Hs Hn -> Hr Hf.
  assert (Hf0 : find (fun e : string * (Z -> list (list C)) => String.eqb s (fst e)) st = None).
  { clear - Hn. induction st as [|[k w] st IH]; [reflexivity|]. cbn in *. destruct (String.eqb_spec s k) as [->|]; [exfalso; auto|]. apply IH. auto. }
  assert (Hex : existsb (fun e : string * (Z -> list (list C)) => String.eqb s (fst e)) st = false).
  { clear - Hf0. induction st as [|[k w] st IH]; [reflexivity|]. cbn in *. destruct (String.eqb s k); [discriminate|]. now apply IH. }
  repeat split; intros; unfold spectrum_series, plotted, check_plot_stats, require; cbn; rewrite ?Hs, ?Hex; try reflexivity.
  - unfold blp_series, stat_rows. rewrite Hf, Hr, Hs. cbn. rewrite Hf0. reflexivity.
  - unfold blp_series, stat_rows. rewrite Hf. cbn. rewrite Hr. reflexivity.
Qed.

(** ** C364: an unknown component *)

(** A component other than real, imag and abs is refused with an UnboundLocalError at the first spectrum, not a ValueError; with nothing to draw it
    is accepted. *)
Theorem unknown_component_refuted avg component ps er u groups : ~ In component ["real"; "imag"; "abs"]%string ->
  (forall g, In g groups -> g <> []) ->
  all_series avg component ps er u groups = match groups with [] => Ok [] | _ => Err UnboundLocalError end.
Proof.
  intros Hc Hg. assert (Hn : cast_of component = None).
  { unfold cast_of. destruct (String.eqb_spec component "real") as [->|]; [exfalso; apply Hc; cbn; auto|].
    destruct (String.eqb_spec component "imag") as [->|]; [exfalso; apply Hc; cbn; auto|].
    destruct (String.eqb_spec component "abs") as [->|]; [exfalso; apply Hc; cbn; auto|reflexivity]. }
  destruct groups as [|[|b g] gs]; [reflexivity|exfalso; eapply Hg; [left|]; reflexivity|].
  cbn. destruct avg; cbn; unfold blp_series; rewrite Hn; reflexivity.
Qed.

(** ** C365: markers *)

Lemma select_in keep x : forall y a h, In (a, h) (select_pts keep x y) <->
  exists i v, nth_error x i = Some a /\ nth_error y i = Some (Some v) /\ keep v = true /\ h = Rabs v.
Proof.
  induction x as [|a0 x IH]; intros y a h.
  - cbn. split; [easy|]. intros (i & v & Hx & _). destruct i; discriminate.
  - destruct y as [|[v0|] y].
    + cbn. split; [easy|]. intros (i & v & _ & Hy & _). destruct i; discriminate.
    + assert (Hs : (exists i v, nth_error (a0 :: x) i = Some a /\ nth_error (Some v0 :: y) i = Some (Some v) /\ keep v = true /\ h = Rabs v) <->
        (a0 = a /\ keep v0 = true /\ h = Rabs v0) \/ exists i v, nth_error x i = Some a /\ nth_error y i = Some (Some v) /\ keep v = true /\ h = Rabs v).
      { split.
        - intros ([|i] & v & Hx & Hy & Hk & Hh); cbn in *; [left|right; eauto 6]. injection Hx as ->. injection Hy as ->. auto.
        - intros [(-> & Hk & Hh)|(i & v & H)]; [exists 0%nat, v0; cbn; auto|exists (S i), v; exact H]. }
      rewrite Hs, <- IH. cbn. destruct (keep v0); cbn.
      * split; [intros [[= <- <-]|]; auto|intros [(-> & _ & ->)|]; auto].
      * split; [auto|intros [(_ & ? & _)|]; [discriminate|auto]].
    + cbn. rewrite IH. split.
      * intros (i & v & H). exists (S i), v. exact H.
      * intros ([|i] & v & Hx & Hy & H); [discriminate|]. exists i, v. auto.
Qed.
Lemma select_perm x : forall y, Permutation (select_pts nonneg x y ++ select_pts negative x y) (map (fun p => (fst p, Rabs (snd p))) (all_pts x y)).
Proof.
  induction x as [|a x IH]; intros [|[v|] y]; cbn; auto.
  unfold nonneg at 1, negative at 1. destruct (Rle_dec 0 v), (Rlt_dec v 0); try lra; cbn.
  - constructor. apply IH.
  - rewrite <- Permutation_middle. constructor. apply IH.
Qed.

(** On a logarithmic scale a marker is filled at the height of a value that is not negative, and empty at minus a negative one; a blank has no
    marker; every other value has one. *)
Theorem log_markers x it (label : option string) (lines : bool) : exists filled_ empty,
  In (Marks true filled_ (if lines then None else label)) (draw lines true true x it label) /\
  In (Marks false empty None) (draw lines true true x it label) /\
  (forall a h, In (a, h) filled_ <-> exists i v, nth_error x i = Some a /\ nth_error (i_y it) i = Some (Some v) /\ 0 <= v /\ h = v) /\
  (forall a h, In (a, h) empty <-> exists i v, nth_error x i = Some a /\ nth_error (i_y it) i = Some (Some v) /\ v < 0 /\ h = - v) /\
  Permutation (filled_ ++ empty) (map (fun p => (fst p, Rabs (snd p))) (all_pts x (i_y it))).
Proof.
  exists (select_pts nonneg x (i_y it)), (select_pts negative x (i_y it)).
  split. { unfold draw. apply in_or_app. right. apply in_or_app. left. cbn. auto. }
  split. { unfold draw. apply in_or_app. right. apply in_or_app. left. cbn. auto. }
  split; [|split; [|apply select_perm]]; intros a h; rewrite select_in; split; intros (i & v & Hx & Hy & Hk & Hh); exists i, v.
  - unfold nonneg in Hk. destruct (Rle_dec 0 v); [|discriminate]. rewrite Rabs_pos_eq in Hh by assumption. auto.
  - unfold nonneg. destruct (Rle_dec 0 v); [|contradiction]. rewrite Rabs_pos_eq by assumption. auto.
  - unfold negative in Hk. destruct (Rlt_dec v 0); [|discriminate]. rewrite Rabs_left in Hh by assumption. auto.
  - unfold negative. destruct (Rlt_dec v 0); [|contradiction]. rewrite Rabs_left by assumption. auto.
Qed.

(** "Filled for positive, empty for negative" is not so on a linear scale: every marker is filled, whatever the signs. *)
Theorem linear_markers_refuted (lines : bool) x it (label : option string) :
  In (Marks true (all_pts x (i_y it)) (if lines then None else label)) (draw lines true false x it label) /\
  forall pts l, ~ In (Marks false pts l) (draw lines true false x it label).
Proof.
  unfold draw. split. { apply in_or_app. right. apply in_or_app. left. cbn. auto. }
  intros pts l H. apply in_app_or in H. destruct H as [H|H]. { destruct lines; cbn in H; [destruct H as [H|[]]; discriminate|easy]. }
  apply in_app_or in H. destruct H as [H|H]. { cbn in H. destruct H as [H|[]]; discriminate. }
  destruct (i_errs it); cbn in H; [destruct H as [H|[]]; discriminate|easy].
Qed.

(** ** C366: lines on a logarithmic scale lose the sign *)

(** On a logarithmic scale lines and error bars are those of the absolute value: two spectra that differ in the signs of their values are drawn
    alike, but for their markers. *)
Theorem log_line_sign x it it' label : i_errs it = i_errs it' -> map (option_map Rabs) (i_y it) = map (option_map Rabs) (i_y it') ->
  draw true false true x it label = draw true false true x it' label.
Proof. intros He Hy. unfold draw. rewrite He. replace (map (height true) (i_y it)) with (map (height true) (i_y it')) by (symmetry; exact Hy). reflexivity. Qed.
(** On a linear scale the line tells them apart. *)
Theorem linear_line_sign x it it' label : (List.length (i_y it) <= List.length x)%nat -> List.length (i_y it) = List.length (i_y it') ->
  draw true false false x it label = draw true false false x it' label -> i_y it = i_y it'.
Proof.
  intros Hl He H. unfold draw in H. injection H as H _.
  assert (Hid : forall l, map (height false) l = l) by (intros; apply map_id). rewrite !Hid in H. clear Hid.
  revert H Hl He. generalize (i_y it) (i_y it'). clear. induction x as [|a x IH]; intros [|v l] [|v' l']; cbn; intros H Hl He; try discriminate; try lia; try reflexivity.
  injection H as -> H. f_equal. apply IH; auto; lia.
Qed.

(** ** C367: one legend entry per spectrum *)

(** A label is an entry of exactly one artist of its spectrum, and of none when neither lines nor markers are drawn. *)
Theorem one_label lines markers logscale x it label :
  flat_map entry (draw lines markers logscale x it label) =
  if (lines || markers)%bool then match label with Some s => [s] | None => [] end else [].
Proof.
  unfold draw. rewrite !flat_map_app.
  replace (flat_map entry (match i_errs it with Some e => [Bars (combine x (map (height logscale) (i_y it))) e] | None => [] end)) with (@nil string) by (destruct (i_errs it); reflexivity).
  destruct lines, markers, logscale, label; reflexivity.
Qed.
Theorem legend_in_order lines markers logscale x its labels : List.length labels = List.length its -> (lines || markers)%bool = true ->
  flat_map entry (draw_all lines markers logscale x its labels) = flat_map (fun l => match l with Some s => [s] | None => [] end) labels.
Proof.
  intros Hl Hm. unfold draw_all. revert labels Hl. induction its as [|it its IH]; intros [|l ls] Hl; try discriminate; [reflexivity|].
  cbn [combine map concat fst snd flat_map]. rewrite flat_map_app, one_label, Hm, IH by (cbn in Hl; lia). reflexivity.
Qed.
Theorem legend_lost logscale x its labels : flat_map entry (draw_all false false logscale x its labels) = [].
Proof.
  unfold draw_all. revert labels. induction its as [|it its IH]; intros [|l ls]; try reflexivity.
  cbn [combine map concat fst snd flat_map]. rewrite flat_map_app, one_label. cbn [orb app]. apply IH.
Qed.

(** ** C368: labels that are asked for *)

(** Every spectrum has the label that [label_type] names; without [title_legend] it has none and label_type is not looked at; an unknown
    label_type is a ValueError when there is something to draw. *)
Theorem manual_labels_spec lt metas :
  manual_labels false lt metas = Ok (map (fun _ => None) metas) /\
  manual_labels true "key" metas = Ok (map (fun m => Some (fst (fst m))) metas) /\
  manual_labels true "blpair" metas = Ok (map (fun m => Some (snd (fst m))) metas) /\
  manual_labels true "blpairt" metas = Ok (map (fun m => Some (snd m)) metas) /\
  (~ In lt ["key"; "blpair"; "blpairt"]%string -> manual_labels true lt metas = match metas with [] => Ok [] | _ => Err ValueError end).
Proof.
  repeat split; try (induction metas as [|[[k b] bt] ms IH]; cbn; [reflexivity|rewrite IH; reflexivity]).
  intros Hn. destruct metas as [|[[k b] bt] ms]; cbn; [reflexivity|]. unfold manual_label.
  destruct (String.eqb_spec lt "key") as [->|]; [exfalso; apply Hn; cbn; auto|].
  destruct (String.eqb_spec lt "blpair") as [->|]; [exfalso; apply Hn; cbn; auto|].
  destruct (String.eqb_spec lt "blpairt") as [->|]; [exfalso; apply Hn; cbn; auto|reflexivity].
Qed.

(** ** Instances *)

Definition ex_obj : pobj := mkpobj
  (fun b => if Z.eqb b 1 then Some [mkprow 0 0 10 [mkC 3 4; mkC (-1) 0]; mkprow 1 0 0 [mkC 1 1; mkC 2 2]] else if Z.eqb b 2 then Some [mkprow 0 0 10 [mkC 5 0; mkC 0 1]] else None)
  (Some [("err"%string, fun b => if Z.eqb b 1 then [[mkC 1 0; mkC 2 0]; [mkC 1 0; mkC 1 0]] else [[mkC 3 0; mkC 3 0]])]).
Example ex_drawn : exists its, all_series false "real" None None ex_obj [[1; 2]%Z] = Ok its /\ List.length its = 3%nat /\
  nth_error (map i_y its) 0 = Some [Some 3; Some (-1)] /\ nth_error (map i_y its) 1 = Some [None; None].
Proof.
  eexists. split; [reflexivity|]. split; [reflexivity|]. cbn. unfold blank, no_data. cbn.
  destruct (Rle_dec (Rabs 10) _) as [H|_]. { exfalso. rewrite Rabs_pos_eq in H by lra. lra. }
  destruct (Rle_dec (Rabs 0) _) as [_|H]. 2: { exfalso. apply H. rewrite Rabs_R0. lra. }
  split; reflexivity.
Qed.
Example ex_average_errors : let average := fun (u : pobj) (_ : option (list (list Z))) (_ : bool) => Ok u in
  spectrum_series average true false "real" None (Some "err"%string) ex_obj [[1; 2]%Z] = Err KeyError /\
  exists its, spectrum_series average false false "real" None (Some "err"%string) ex_obj [[1; 2]%Z] = Ok its /\ List.length its = 3%nat.
Proof. split; [reflexivity|]. eexists. split; reflexivity. Qed.
Example ex_markers : select_pts nonneg [1; 2; 3] [Some 5; None; Some 0] = [(1, Rabs 5); (3, Rabs 0)].
Proof. cbn. unfold nonneg. destruct (Rle_dec 0 5), (Rle_dec 0 0); try lra; reflexivity. Qed.
