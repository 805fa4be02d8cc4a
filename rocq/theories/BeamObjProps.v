(** PSpecBeamUV objects and the UVBeam objects they are made of (C379, C380). *)
From Coq Require Import Reals String.
From Verif Require Import Prelude DlyModel BeamObjModel.
Open Scope nat_scope.

Lemma replace_nth {D} (h : beams D) i d j : nth_error (replace h i d) j = if Nat.eqb i j then match nth_error h j with Some _ => Some d | None => None end else nth_error h j.
Proof.
  revert i j. induction h as [|x h IH]; intros [|i] [|j]; cbn; try reflexivity; [destruct (Nat.eqb _ _); reflexivity|]. apply IH.
Qed.
Lemma replace_length {D} (h : beams D) i d : List.length (replace h i d) = List.length h.
Proof. revert i. induction h as [|x h IH]; intros [|i]; cbn; try reflexivity. now rewrite IH. Qed.

Section Props.
Context {D C : Type} (freqs : D -> list R) (efield peak : D -> bool) (read : string -> result D) (to_power normalize : D -> result D) (default : C).
Notation beam_uv := (beam_uv freqs efield read to_power normalize default).
(** what pyuvdata promises: a power beam, and a peak-normalised one of the same type *)
Definition converts : Prop := forall d d', to_power d = Ok d' -> efield d' = false.
Definition normalizes : Prop := forall d d', normalize d = Ok d' -> efield d' = efield d /\ peak d' = true.
(** the other objects are what they were, and none has gone *)
Definition others_kept (h h' : beams D) (i : nat) : Prop := forall j d, j <> i -> nth_error h j = Some d -> nth_error h' j = Some d.

(** ** C379: the beam of a PSpecBeamUV *)
(** The beam of a PSpecBeamUV is a power beam: of a file a new object, of an object that object itself; an E-field beam is converted and then
    peak-normalised, a power beam is taken as it is, normalised or not. The cosmology is the one given, or the default; no other UVBeam changes. *)
Theorem beam_uv_spec : converts -> normalizes -> forall h arg cosmo h' b, beam_uv h arg cosmo = (h', Ok b) ->
  exists d d', nth_error h' (pb_beam b) = Some d' /\ efield d' = false /\ pb_freqs b = freqs d /\
    pb_cosmo b = match cosmo with Some c => c | None => default end /\ others_kept h h' (pb_beam b) /\
    match arg with
    | BeamFile p => read p = Ok d /\ pb_beam b = List.length h /\ (forall j x, nth_error h j = Some x -> nth_error h' j = Some x)
    | BeamObj i => pb_beam b = i /\ nth_error h i = Some d
    end /\
    ((efield d = true /\ peak d' = true /\ exists d1, to_power d = Ok d1 /\ normalize d1 = Ok d') \/ (efield d = false /\ d' = d)).
Proof.
  intros CV NM h arg cosmo h' b. unfold beam_uv.
  assert (G : forall (h0 : beams D) i d, nth_error h0 i = Some d ->
     (let c := match cosmo with Some c => c | None => default end in
      if efield d then match to_power d with
        | Err e => (h0, Err e)
        | Ok d1 => match normalize d1 with Err e => (replace h0 i d1, Err e) | Ok d2 => (replace (replace h0 i d1) i d2, Ok (mkpsbeam i c (freqs d))) end end
      else (h0, Ok (mkpsbeam i c (freqs d)))) = (h', Ok b) ->
     exists d', nth_error h' (pb_beam b) = Some d' /\ efield d' = false /\ pb_freqs b = freqs d /\
       pb_cosmo b = match cosmo with Some c => c | None => default end /\ others_kept h0 h' i /\ pb_beam b = i /\
       ((efield d = true /\ peak d' = true /\ exists d1, to_power d = Ok d1 /\ normalize d1 = Ok d') \/ (efield d = false /\ d' = d))).
  { intros h0 i d Hd. cbv zeta. destruct (efield d) eqn:E.
    - destruct (to_power d) as [d1|e] eqn:T; [|discriminate]. destruct (normalize d1) as [d2|e] eqn:N; [|discriminate]. intros [= <- <-]. exists d2. cbn.
      destruct (NM _ _ N) as [N1 N2]. split; [rewrite replace_nth, Nat.eqb_refl, replace_nth, Nat.eqb_refl, Hd; reflexivity|].
      split; [rewrite N1; exact (CV _ _ T)|]. split; [reflexivity|]. split; [reflexivity|]. split; [|split; [reflexivity | left; eauto]].
      intros j x Nj Hj. rewrite !replace_nth. destruct (Nat.eqb_spec i j); [congruence | exact Hj].
    - intros [= <- <-]. exists d. cbn. repeat split; auto. intros j x _ Hj. exact Hj. }
  destruct arg as [p|i].
  - destruct (read p) as [d|e] eqn:Rd; [|discriminate]. assert (Hd : nth_error (h ++ [d]) (List.length h) = Some d) by (rewrite nth_error_app2, Nat.sub_diag by lia; reflexivity).
    rewrite Hd. intro H. destruct (G _ _ _ Hd H) as (d' & A1 & A2 & A3 & A4 & A5 & A6 & A7). exists d, d'. clear G. rewrite A6 in A1 |- *.
    assert (K : forall j x, nth_error h j = Some x -> nth_error h' j = Some x).
    { intros j x Hj. assert (L : j < List.length h) by (apply nth_error_Some; congruence). apply A5; [lia|]. rewrite nth_error_app1 by exact L. exact Hj. }
    repeat (split; [assumption|]). split; [intros j x _; apply K|]. split; [split; [reflexivity|split; [reflexivity | exact K]] | exact A7].
  - destruct (nth_error h i) as [d|] eqn:Hd; [|discriminate]. intro H. destruct (G _ _ _ Hd H) as (d' & A1 & A2 & A3 & A4 & A5 & A6 & A7).
    exists d, d'. clear G. rewrite A6 in A1 |- *. repeat (split; [assumption|]). split; [split; [reflexivity | first [exact Hd | reflexivity]] | exact A7].
Qed.

(** what it is for: [beam_normalized_response] (DlyModel.v) does not refuse the beam of an E-field object for its type or its normalisation, and
    refuses the beam of a power object that is not peak-normalised *)
Theorem beam_uv_response (view : D -> uvbeam) :
  (forall d, b_power (view d) = negb (efield d)) -> (forall d, b_peak (view d) = peak d) -> converts -> normalizes ->
  forall h i cosmo h' b d, beam_uv h (BeamObj i) cosmo = (h', Ok b) -> nth_error h i = Some d ->
  exists d', nth_error h' i = Some d' /\
    (efield d = true -> b_naxes (view d') <= 1 -> b_healpix (view d') = true -> forall pol, In pol (b_pols (view d')) ->
       forall fs, exists r, normalized_response (view d') pol fs = Ok r) /\
    (efield d = false -> peak d = false -> forall pol fs, normalized_response (view d') pol fs = Err ValueError).
Proof.
  intros Vp Vk CV NM h i cosmo h' b d H Hd. destruct (beam_uv_spec CV NM _ _ _ _ _ H) as (d0 & d' & A1 & A2 & _ & _ & _ & [A3 A4] & A5).
  rewrite Hd in A4. injection A4 as <-. rewrite A3 in A1. exists d'. split; [exact A1|].
  assert (I : forall p l, In p l -> exists k, index_of p l = Some k).
  { intros p l. induction l as [|x l IH]; [intros []|]. cbn. destruct (Z.eqb_spec x p); [eauto|]. intros [E|E]; [congruence|]. destruct (IH E) as [k ->]. cbn. eauto. }
  split.
  - intros E Na Hp pol Ip fs. destruct A5 as [(_ & Pk & _)|(E' & _)]; [|congruence]. unfold normalized_response. rewrite Vp, A2, Vk, Pk, Hp. cbn [negb require].
    apply Nat.leb_le in Na. rewrite Na. cbn [require]. destruct (I _ _ Ip) as [k ->]. eauto.
  - intros E Pk pol fs. destruct A5 as [(E' & _)|(_ & ->)]; [congruence|]. unfold normalized_response. rewrite Vp, Vk, Pk. destruct (negb (efield d)); [|reflexivity]. cbn [require].
    destruct (Nat.leb _ 1); reflexivity.
Qed.

(** ** C380: the caller's UVBeam *)
(** Claimed: making a PSpecBeamUV leaves the UVBeam it is given unchanged. True of power beams and files. An E-field beam is converted in place (unless
    [efield_to_power] fails), whether or not the constructor then succeeds. *)
Theorem beam_uv_caller_refuted : converts -> normalizes -> forall h i cosmo d, nth_error h i = Some d ->
  (efield d = false -> exists b, beam_uv h (BeamObj i) cosmo = (h, Ok b)) /\
  (forall d1, efield d = true -> to_power d = Ok d1 ->
     exists d' h' r, beam_uv h (BeamObj i) cosmo = (h', r) /\ nth_error h' i = Some d' /\ efield d' = false /\ d' <> d /\
       ((exists b, r = Ok b) <-> (exists d2, normalize d1 = Ok d2))).
Proof.
  intros CV NM h i cosmo d Hd. unfold beam_uv. rewrite Hd. split; [intros ->; eauto|]. intros d1 E T. rewrite E, T.
  destruct (normalize d1) as [d2|e] eqn:N.
  - destruct (NM _ _ N) as [N1 _]. exists d2. eexists. eexists. split; [reflexivity|]. rewrite replace_nth, Nat.eqb_refl, replace_nth, Nat.eqb_refl, Hd. split; [reflexivity|].
    assert (F : efield d2 = false) by (rewrite N1; exact (CV _ _ T)). split; [exact F|]. split; [congruence|]. split; eauto.
  - exists d1. eexists. eexists. split; [reflexivity|]. rewrite replace_nth, Nat.eqb_refl, Hd. split; [reflexivity|]. split; [exact (CV _ _ T)|].
    split; [intros ->; rewrite (CV _ _ T) in E; discriminate|]. split; intros [x H]; discriminate.
Qed.
(** A second PSpecBeamUV of the same object changes nothing and shares its beam; their cosmologies are their own *)
Theorem beam_uv_again : converts -> normalizes -> forall h arg cosmo h' b cosmo', beam_uv h arg cosmo = (h', Ok b) ->
  exists b', beam_uv h' (BeamObj (pb_beam b)) cosmo' = (h', Ok b') /\ pb_beam b' = pb_beam b /\ pb_cosmo b' = match cosmo' with Some c => c | None => default end.
Proof.
  intros CV NM h arg cosmo h' b cosmo' H. destruct (beam_uv_spec CV NM _ _ _ _ _ H) as (d & d' & A1 & A2 & _). unfold beam_uv. rewrite A1, A2. eauto.
Qed.
End Props.

(** beams (E-field, peak): an E-field object is converted and shared *)
Example beam_uv_case :
  let tp := fun d : bool * bool => Ok (false, snd d) in let nm := fun d : bool * bool => Ok (fst d, true) in
  converts fst tp /\ normalizes fst snd nm /\
  beam_uv (fun _ => [1%R]) fst (fun _ => Err OSError) tp nm 7 [(true, false); (false, false)] (BeamObj 0) None = ([(false, true); (false, false)], Ok (mkpsbeam 0 7 [1%R])) /\
  beam_uv (fun _ => [1%R]) fst (fun _ => Err OSError) tp nm 7 [(true, false); (false, false)] (BeamObj 1) (Some 3) = ([(true, false); (false, false)], Ok (mkpsbeam 1 3 [1%R])).
Proof. cbv zeta. split; [intros d d' [= <-]; reflexivity|]. split; [intros d d' [= <-]; split; reflexivity|]. split; reflexivity. Qed.
Print Assumptions beam_uv_spec.
Print Assumptions beam_uv_response.
Print Assumptions beam_uv_caller_refuted.
Print Assumptions beam_uv_again.
