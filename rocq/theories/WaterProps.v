(** The pictures of plot_uvdata_waterfalls (C385, C386). *)
From Coq Require Import Reals String Ascii ZArith Lra.
From Verif Require Import Prelude PyStr PlotModel PlotProps WaterModel.
Open Scope nat_scope.

(** ** Specification *)
Definition array_of {A} (which : string) (a : warrays A) : option A :=
  (match which with "data" => Some (w_data a) | "flags" => Some (w_flags a) | "nsamples" => Some (w_nsamples a) | _ => None end)%string.

Section Props.
Context {A K : Type}.
Implicit Types (uvd : list (wkey * warrays A)) (before : pystr -> option (picture A K)).

Lemma choose_spec which : match choose_array (A := A) which with Some f => forall a, array_of which a = Some (f a) | None => forall a : warrays A, array_of which a = None end.
Proof.
  unfold choose_array. destruct (String.eqb_spec which "data") as [->|N1]; [reflexivity|].
  destruct (String.eqb_spec which "flags") as [->|N2]; [reflexivity|]. destruct (String.eqb_spec which "nsamples") as [->|N3]; [reflexivity|].
  intro a. unfold array_of.
  repeat match goal with
  | |- context [match ?s with EmptyString => _ | _ => _ end] => is_var s; destruct s; try reflexivity
  | |- context [match ?c with Ascii _ _ _ _ _ _ _ _ => _ end] => is_var c; destruct c
  | |- context [if ?b then _ else _] => is_var b; destruct b; try reflexivity
  end; exfalso; first [now apply N1 | now apply N2 | now apply N3].
Qed.

Lemma on_disk_app saved1 saved2 : forall before n, on_disk before (saved1 ++ saved2) n = on_disk (on_disk before saved1) saved2 n.
Proof. induction saved1 as [|[m p] l IH]; cbn; intros before n; [|rewrite IH]; reflexivity. Qed.
Lemma on_disk_other saved : forall before n, (forall p, ~ In (n, p) saved) -> on_disk before saved n = before n.
Proof.
  induction saved as [|[m p] l IH]; cbn; intros before n H; [reflexivity|]. rewrite IH by (intros q Hq; apply (H q); now right).
  destruct (str_eqb n m) eqn:E; [|reflexivity]. apply str_eqb_eq in E. subst. exfalso. apply (H p). now left.
Qed.
Lemma save_all_files name format pic uvd : forall saved, save_all (K := K) name format pic uvd = (saved, None) ->
  Forall2 (fun ka np => file_name name format (fst ka) = Ok (fst np) /\ snd np = pic (snd ka)) uvd saved.
Proof.
  induction uvd as [|[k a] uvd IH]; cbn; intros saved; [intros [= <-]; constructor|].
  destruct (file_name name format k) as [n|] eqn:E; [|discriminate]. destruct (save_all name format pic uvd) as [l e]. intros [= <- ->].
  constructor; [auto | now apply IH].
Qed.

(** ** C385: one picture for each antenna pair and polarization *)
(** An accepted call saves, for each key of the object in order, the array of that key that was asked for, under the name of that key. *)
Theorem waterfalls_saved : forall isuv which vmin vmax other name format uvd saved, waterfalls isuv which vmin vmax other name format uvd = (saved, None) ->
  isuv = true /\ Forall2 (fun ka np => file_name name format (fst ka) = Ok (fst np) /\ array_of which (snd ka) = Some (pic_data (K := K) (snd np)) /\
    pic_mx (snd np) = vmax /\ pic_other (snd np) = other) uvd saved.
Proof.
  intros isuv which vmin vmax other name format uvd saved. unfold waterfalls. destruct isuv; [|discriminate]. pose proof (choose_spec which) as C.
  destruct (choose_array which) as [f|]; [|discriminate]. destruct (colour_drng vmin vmax) as [d|]; [|discriminate]. intro H. split; [reflexivity|].
  apply save_all_files in H. induction H as [|ka np u l [E P] F IH]; constructor; [rewrite P; cbn; auto | exact IH].
Qed.
(** If the names of different keys differ, afterwards the file of each key has its picture, and no other file has changed. *)
Theorem waterfalls_files : forall isuv which vmin vmax other name format uvd saved before,
  waterfalls isuv which vmin vmax other name format uvd = (saved, None) -> NoDup (map fst uvd) ->
  (forall k k' n, In k (map fst uvd) -> In k' (map fst uvd) -> file_name name format k = Ok n -> file_name name format k' = Ok n -> k = k') ->
  (forall k a, In (k, a) uvd -> exists n p, file_name name format k = Ok n /\ on_disk before saved n = Some p /\ array_of which a = Some (pic_data p)) /\
  (forall n, (forall k, In k (map fst uvd) -> file_name name format k <> Ok n) -> on_disk before saved n = before n).
Proof.
  intros isuv which vmin vmax other name format uvd saved before H ND INJ. apply waterfalls_saved in H as [_ F]. split.
  - revert before ND INJ. induction F as [|[k0 a0] [n0 p0] uvd saved (E & D & _) F IH]; [intros ? ? ? k a []|]. cbn [fst snd map] in *. intros before ND INJ k a [[= -> ->]|Hin].
    + exists n0, p0. split; [exact E|]. split; [|exact D]. cbn. rewrite on_disk_other.
      * now rewrite (proj2 (str_eqb_eq n0 n0) eq_refl).
      * intros p Hp. assert (G : exists k' a', In (k', a') uvd /\ file_name name format k' = Ok n0).
        { clear - F Hp. induction F as [|[k1 a1] [n1 p1] u s (E1 & _) F IH]; [destruct Hp|]. destruct Hp as [[= -> ->]|Hp]; [exists k1, a1; split; [now left | exact E1]|].
          destruct (IH Hp) as (k' & a' & I & Q). exists k', a'. split; [now right | exact Q]. }
        destruct G as (k' & a' & I & Q). inversion ND as [|? ? NI ND']; subst. apply NI. assert (I' : In k' (map fst uvd)) by (change k' with (fst (k', a')); now apply in_map).
        rewrite (INJ k k' n0); auto; [now left | now right].
    + inversion ND as [|? ? NI ND']; subst. eapply IH; eauto. intros k1 k2 n I1 I2. apply INJ; now right.
  - intros n N. apply on_disk_other. intros p Hp. clear - F Hp N. induction F as [|[k1 a1] [n1 p1] u s (E1 & _) F IH]; [destruct Hp|].
    destruct Hp as [[= -> ->]|Hp]; [apply (N k1); [now left | exact E1] | apply IH; [|exact Hp]]. intros k Hk. apply N. now right.
Qed.
(** So it is for names {pol}.{bl} (C224). *)
Theorem waterfalls_default_names : forall isuv which vmin vmax other pre post fmt uvd saved before,
  2 <= List.length fmt -> (forall k, In k (map fst uvd) -> ~ In "."%char (w_pol k)) -> NoDup (map fst uvd) ->
  waterfalls isuv which vmin vmax other (fun bl pol => pre ++ pol ++ s_ "." ++ bl ++ post) (Some fmt) uvd = (saved, None) ->
  forall k a, In (k, a) uvd -> exists p, on_disk before saved (pre ++ w_pol k ++ s_ "." ++ bl_id (w_ant1 k) (w_ant2 k) ++ post ++ s_ "." ++ fmt) = Some p /\
    array_of which a = Some (pic_data p).
Proof.
  intros isuv which vmin vmax other pre post fmt uvd saved before L P ND H k a Hin. pose proof H as H0.
  apply waterfalls_files with (before := before) in H; [| exact ND |].
  - destruct H as [H _]. destruct (H k a Hin) as (n & p & E & D & G). exists p. split; [|exact G]. assert (X : n = pre ++ w_pol k ++ s_ "." ++ bl_id (w_ant1 k) (w_ant2 k) ++ post ++ s_ "." ++ fmt); [|rewrite <- X; exact D]. clear D. unfold file_name in E. cbn beta in E.
    rewrite file_name_spec in E by exact L. destruct (Nat.ltb _ _); [discriminate|]. match type of E with Ok ?x = Ok n => assert (E' : n = x) by congruence end. rewrite E'. rewrite <- !app_assoc. reflexivity.
  - intros k1 k2 n I1 I2 E1 E2. unfold file_name in E1, E2. destruct (file_names_distinct pre post fmt (w_pol k1) (w_ant1 k1) (w_ant2 k1) (w_pol k2) (w_ant1 k2) (w_ant2 k2) n L (P _ I1) (P _ I2) E1 E2)
      as (Q1 & Q2 & Q3). clear - Q1 Q2 Q3. destruct k1, k2; cbn in Q1, Q2, Q3. subst. reflexivity.
Qed.
(** But a name without one of the two placeholders is accepted, and pictures are lost: without any, all but the last. *)
Theorem waterfalls_lost : forall which f vmax other base uvd k a k' a' before, choose_array (A := A) which = Some f ->
  exists saved, waterfalls true which None vmax other (fun _ _ => base) None (uvd ++ [(k, a); (k', a')]) = (saved, None) /\
    List.length saved = List.length uvd + 2 /\
    on_disk (K := K) before saved base = Some (mkpic (f a') vmax None other) /\ (forall n, n <> base -> on_disk before saved n = before n).
Proof.
  intros which f vmax other base uvd k a k' a' before C. unfold waterfalls. rewrite C. cbn [colour_drng].
  set (pic := fun a => mkpic (f a) vmax None other).
  assert (S : forall u, save_all (fun _ _ => base) None pic u = (map (fun ka => (base, pic (snd ka))) u, None)).
  { induction u as [|[x y] u IH]; cbn; [reflexivity|]. unfold file_name. now rewrite IH. }
  rewrite S. eexists. split; [reflexivity|]. split; [rewrite map_length, app_length; reflexivity|]. split.
  - rewrite map_app, on_disk_app. cbn. now rewrite (proj2 (str_eqb_eq base base) eq_refl).
  - intros n N. apply on_disk_other. intros p Hp. apply in_map_iff in Hp. destruct Hp as (x & [= E _] & _). congruence.
Qed.
(** Whatever is refused before the loop leaves no file: what is no UVData object, an array of another name, and vmin without vmax. *)
Theorem waterfalls_refused : forall which vmin vmax other name format uvd,
  waterfalls (K := K) false which vmin vmax other name format uvd = ([], Some AssertionError) /\
  ((forall a, array_of (A := A) which a = None) -> warrays A -> waterfalls (K := K) true which vmin vmax other name format uvd = ([], Some AssertionError)) /\
  (forall lo, waterfalls (K := K) true which (Some lo) None other name format uvd = ([], Some AssertionError)).
Proof.
  intros which vmin vmax other name format uvd. split; [reflexivity|]. pose proof (choose_spec which) as C. split.
  - intros N w. unfold waterfalls. destruct (choose_array which) as [f|]; [|reflexivity]. specialize (C w). rewrite N in C. discriminate.
  - intro lo. unfold waterfalls. destruct (choose_array which) as [f|]; reflexivity.
Qed.

(** ** C386: the colours of the pictures *)
(** Colours run from vmin, or the smallest value, to vmax, or the largest value; the picture says so, as uvtools reads it. *)
Theorem waterfalls_colours : forall (lo hi : A -> R) isuv which vmin vmax other name format uvd saved,
  waterfalls (K := K) isuv which vmin vmax other name format uvd = (saved, None) ->
  forall n p, In (n, p) saved -> colour_range lo hi p =
    (match vmin with Some v => v | None => lo (pic_data p) end, match vmax with Some v => v | None => hi (pic_data p) end).
Proof.
  intros lo hi isuv which vmin vmax other name format uvd saved. unfold waterfalls. destruct isuv; [|discriminate].
  destruct (choose_array which) as [f|]; [|discriminate]. destruct (colour_drng vmin vmax) as [d|] eqn:D; [|discriminate]. intros H n p Hp.
  apply save_all_files in H. assert (G : exists a, p = mkpic (f a) vmax d other).
  { clear - H Hp. induction H as [|[k1 a1] [n1 p1] u s (_ & E1) F IH]; [destruct Hp|]. destruct Hp as [[= -> ->]|Hp]; [exists a1; exact E1 | exact (IH Hp)]. }
  destruct G as [a ->]. unfold colour_range. cbn [pic_mx pic_drng pic_data]. unfold colour_drng in D.
  destruct vmin as [v|]; [destruct vmax as [w|]; [|discriminate]|]; injection D as <-; f_equal; ring.
Qed.
End Props.

(** witness *)
Theorem waterfalls_nonvacuous :
  let uvd := [(mkwkey 1 2 (s_ "ee"), mkwarr 10 11 12); (mkwkey 1 2 (s_ "nn"), mkwarr 20 21 22); (mkwkey 1 12 (s_ "ee"), mkwarr 30 31 32)] in
  NoDup (map fst uvd) /\ (forall k, In k (map fst uvd) -> ~ In "."%char (w_pol k)) /\
  waterfalls true "flags" None None tt (fun bl pol => s_ "p." ++ pol ++ s_ "." ++ bl) (Some (s_ "png")) uvd =
    ([(s_ "p.ee.1.2.png", mkpic 11 None None tt); (s_ "p.nn.1.2.png", mkpic 21 None None tt); (s_ "p.ee.1.12.png", mkpic 31 None None tt)], None) /\
  waterfalls true "phase" None None tt (fun bl pol => s_ "p." ++ pol ++ s_ "." ++ bl) (Some (s_ "png")) uvd = ([], Some AssertionError).
Proof.
  cbv zeta. split; [repeat constructor; cbn; intuition discriminate|]. split; [cbn; intros k [<-|[<-|[<-|[]]]]; cbn; intuition discriminate|]. split; reflexivity.
Qed.
