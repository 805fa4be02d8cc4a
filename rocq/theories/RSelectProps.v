(** r_params through [_select], that is through every select, fold and read of a UVPSpec. *)
From Coq Require Import Ascii String.
From Verif Require Import PyDict PyStr RParamsModel RParamsProofs RParamsProps RSelectModel.
From Verif Require Import Prelude ListLemmas.
Open Scope nat_scope.

Section Thms.
Context {V : Type} (eqv : forall x y : V, {x = y} + {x <> y}).
Notation params := (params V).
Definition proper (d : list (rkey * params)) : Prop :=
  NoDup (map fst d) /\ forall k p, In (k, p) d -> NoDup (map fst p) /\ ~ In BASELINES (map fst p).
(** the value of parameter [f] for key [k] *)
Definition param_of (d : list (rkey * params)) (k : rkey) (f : field) : option V :=
  match dget rkey_eq d k with Some p => dget field_eq p f | None => None end.
Definition has_key (d : list (rkey * params)) (k : rkey) : bool := match dget rkey_eq d k with Some _ => true | None => false end.

Lemma dget_map_val (f : jdict rkey V -> params) d k : dget rkey_eq (map (fun kv => (fst kv, f (snd kv))) d) k = option_map f (dget rkey_eq d k).
Proof. induction d as [|[n v] d IH]; [reflexivity|]. simpl. destruct (rkey_eq k n); [reflexivity|exact IH]. Qed.
Lemma filter_false_nil {A} (f : A -> bool) l : (forall x, In x l -> f x = false) -> filter f l = [].
Proof. induction l as [|x l IH]; intros H; [reflexivity|]. simpl. rewrite (H x (or_introl eq_refl)). apply IH. intros; apply H; right; assumption. Qed.
Lemma NoDup_map_filter {A B} (g : A -> B) (f : A -> bool) l : NoDup (map g l) -> NoDup (map g (filter f l)).
Proof.
  induction l as [|x l IH]; intros N; [constructor|]. inversion N as [|? ? N1 N2]; subst. simpl. destruct (f x); [|apply IH, N2].
  simpl. constructor; [|apply IH, N2]. intros H. apply N1. apply in_map_iff in H as (y & E & H). apply filter_In in H as [H _]. rewrite <- E. apply in_map, H.
Qed.
Lemma values_JVal (q : params) : values (V:=V) (map (fun fv => (fst fv, JVal (snd fv))) q) = q.
Proof. induction q as [|[f v] q IH]; [reflexivity|]. simpl. f_equal. exact IH. Qed.
Lemma dget_filter (P : rkey -> bool) (d : list (rkey * jdict rkey V)) k : dget rkey_eq (filter (fun kv => P (fst kv)) d) k = if P k then dget rkey_eq d k else None.
Proof.
  induction d as [|[n v] d IH]; [simpl; destruct (P k); reflexivity|]. simpl. destruct (P n) eqn:E; simpl.
  - destruct (rkey_eq k n) as [->|_]; [rewrite E; reflexivity|exact IH].
  - destruct (rkey_eq k n) as [->|_]; [rewrite IH, E; reflexivity|exact IH].
Qed.

(** what [get_r_params] returns for a stored dictionary *)
Theorem r_params_read_back : forall d, proper d -> exists r, get_r (compress eqv d) = Ok r /\ proper r /\
  forall k, has_key r k = has_key d k /\ forall f, param_of r k f = param_of d k f.
Proof.
  intros d [N P]. destruct (round_trip_params rkey_eq eqv d N P) as (r & E & NR & R).
  exists (map (fun kv => (fst kv, values (snd kv))) r). unfold get_r. rewrite E. split; [reflexivity|].
  assert (KR : map fst (map (fun kv => (fst kv, values (V:=V) (snd kv))) r) = map fst r) by (rewrite map_map; apply map_ext; reflexivity).
  split.
  - split; [rewrite KR; exact NR|]. intros k p H. apply in_map_iff in H as ([k' j] & H & I). injection H as <- <-.
    specialize (R k'). rewrite (In_dget rkey_eq r k' j NR I) in R. destruct (dget rkey_eq d k'); [|destruct R].
    destruct R as (q & -> & O & _). simpl. rewrite values_JVal. exact O.
  - intros k. specialize (R k). unfold has_key, param_of. rewrite dget_map_val. destruct (dget rkey_eq r k) as [j|], (dget rkey_eq d k) as [p|]; simpl; try destruct R; auto.
    destruct H as (-> & _ & Q). rewrite values_JVal. auto.
Qed.

(** the parameters of one antenna pair and polarization: of the first or the second baseline of a selected key *)
Definition selected_key (ks : list akey) (k : rkey) : Prop :=
  exists s a b c d p q, In (mkakey s (a, b) (c, d) p q) ks /\ (k = [AInt a; AInt b; AStr p] \/ k = [AInt c; AInt d; AStr q]).
Lemma blkeys_selected ks k : In k (blkeys ks) <-> selected_key ks k.
Proof.
  unfold blkeys, selected_key. rewrite in_flat_map. split.
  - intros ([s [a b] [c d] p q] & I & H). exists s, a, b, c, d, p, q. split; [exact I|]. destruct H as [<-|[<-|[]]]; [left|right]; reflexivity.
  - intros (s & a & b & c & d & p & q & I & H). exists (mkakey s (a, b) (c, d) p q). split; [exact I|]. destruct H as [-> | ->]; simpl; auto.
Qed.
(** a selection keeps the parameters of the baselines and polarizations selected, and only those *)
Theorem select_keeps_r_params : forall d ks, proper d -> exists s r, select_r eqv ks (compress eqv d) = Ok s /\ get_r s = Ok r /\
  forall k, (selected_key ks k -> has_key r k = has_key d k /\ forall f, param_of r k f = param_of d k f) /\ (~ selected_key ks k -> has_key r k = false).
Proof.
  intros d ks [N P]. destruct (round_trip_params rkey_eq eqv d N P) as (r & E & NR & R). unfold select_r. rewrite E. cbn [bind].
  set (inb := fun k => if in_dec rkey_eq k (blkeys ks) then true else false).
  change (fun kv : rkey * jdict rkey V => if in_dec rkey_eq (fst kv) (blkeys ks) then true else false) with (fun kv : rkey * jdict rkey V => inb (fst kv)).
  set (d2 := map (fun kv => (fst kv, values (snd kv))) (filter (fun kv => inb (fst kv)) r)).
  assert (PR : proper d2).
  { split.
    - unfold d2. rewrite map_map. cbn [fst]. change (fun x : rkey * jdict rkey V => fst x) with (@fst rkey (jdict rkey V)). apply NoDup_map_filter, NR.
    - intros k p H. apply in_map_iff in H as ([k' j] & H & I). injection H as <- <-. apply filter_In in I as [I _].
      specialize (R k'). rewrite (In_dget rkey_eq r k' j NR I) in R. destruct (dget rkey_eq d k'); [|destruct R].
      destruct R as (q & -> & O & _). simpl. rewrite values_JVal. exact O. }
  destruct (r_params_read_back d2 PR) as (r2 & E2 & _ & R2). exists (compress eqv d2), r2. split; [reflexivity|]. split; [exact E2|].
  assert (G : forall k, dget rkey_eq d2 k = if inb k then option_map values (dget rkey_eq r k) else None).
  { intros k. unfold d2. rewrite dget_map_val, (dget_filter inb). destruct (inb k); reflexivity. }
  intros k. rewrite <- blkeys_selected. destruct (R2 k) as [H1 H2]. unfold inb in G. split; intros I.
  - specialize (G k). destruct (in_dec rkey_eq k (blkeys ks)); [|contradiction]. rewrite H1.
    assert (X : has_key d2 k = has_key d k /\ forall f, param_of d2 k f = param_of d k f).
    { unfold has_key, param_of. rewrite G. specialize (R k). destruct (dget rkey_eq r k) as [j|], (dget rkey_eq d k) as [p|]; simpl; try destruct R; auto.
      destruct H as (-> & _ & Q). rewrite values_JVal. auto. }
    destruct X as [X1 X2]. split; [exact X1|]. intros f. rewrite H2. apply X2.
  - specialize (G k). destruct (in_dec rkey_eq k (blkeys ks)); [contradiction|]. rewrite H1. unfold has_key. rewrite G. reflexivity.
Qed.

(** keys that name a dataset, the only ones [pspec] accepts, are all dropped *)
Theorem select_drops_dataset_keys : forall d ks, proper d -> (forall k, In k (map fst d) -> exists ds bl p, k = dset_key ds bl p) ->
  select_r eqv ks (compress eqv d) = Ok None.
Proof.
  intros d ks [N P] K. destruct (round_trip_params rkey_eq eqv d N P) as (r & E & NR & R). unfold select_r. rewrite E. cbn [bind].
  replace (filter _ r) with (@nil (rkey * jdict rkey V)); [reflexivity|]. symmetry.
  apply filter_false_nil. intros [k j] H. cbn [fst]. destruct (in_dec rkey_eq k (blkeys ks)) as [I|]; [|reflexivity]. exfalso.
  specialize (R k). rewrite (In_dget rkey_eq r k j NR H) in R. destruct (dget rkey_eq d k) as [p|] eqn:G; [|destruct R].
  apply dget_In in G. apply (in_map fst) in G. destruct (K k G) as (ds & bl & q & ->).
  unfold blkeys in I. apply in_flat_map in I as (a & _ & I). destruct I as [I|[I|[]]]; discriminate.
Qed.

(** [pspec] with a weighting that needs parameters runs exactly if they are given for both datasets, each under its own baseline *)
Theorem pspec_needs_r_params : forall d1 d2 ks (r : list (rkey * params)),
  pspec_accepts d1 d2 ks r = true <->
  forall s a b c d p q, In (mkakey s (a, b) (c, d) p q) ks ->
    In [d1; AInt a; AInt b; AStr p] (map fst r) /\ In [d2; AInt c; AInt d; AStr q] (map fst r).
Proof.
  intros d1 d2 ks r.
  assert (D : forall k, (exists v, dget rkey_eq r k = Some v) <-> In k (map fst r)).
  { intros k. split; [intros (v & H); apply dget_In in H; apply (in_map fst) in H; exact H|]. induction r as [|[n v] r IH]; [intros []|].
    simpl. destruct (rkey_eq k n) as [->|N]; [eauto|]. intros [E|H]; [congruence|apply IH, H]. }
  unfold pspec_accepts. rewrite forallb_forall. split.
  - intros H s a b c d p q I. specialize (H _ I). cbn [ak_bl1 ak_bl2 ak_pol1 ak_pol2] in H. unfold dset_key, bl_key in H. cbn [fst snd] in H.
    rewrite <- !D. destruct (dget rkey_eq r [d1; AInt a; AInt b; AStr p]) as [v|]; [|discriminate]. destruct (dget rkey_eq r [d2; AInt c; AInt d; AStr q]) as [w|]; [|discriminate].
    split; eauto.
  - intros H [s [a b] [c d] p q] I. destruct (H _ _ _ _ _ _ _ I) as [H1 H2]. apply D in H1 as (v & H1). apply D in H2 as (w & H2).
    cbn [ak_bl1 ak_bl2 ak_pol1 ak_pol2]. unfold dset_key, bl_key. cbn [fst snd]. rewrite H1, H2. reflexivity.
Qed.
End Thms.
Print Assumptions pspec_needs_r_params.
Print Assumptions r_params_read_back.
Print Assumptions select_keeps_r_params.
Print Assumptions select_drops_dataset_keys.

(** the parameters with which a spectrum was estimated are not recorded in what is read back or selected *)
Theorem r_params_recorded_refuted :
  ~ (forall (d : list (rkey * params Z)) d1 d2 ks s r, proper d -> pspec_accepts d1 d2 ks d = true -> select_r Z.eq_dec ks (pspec_stores Z.eq_dec d) = Ok s -> get_r s = Ok r ->
     forall k, In k ks -> exists key p, In key (map fst d) /\ dget rkey_eq r key = Some p).
Proof.
  intros H.
  set (p := [(s_ "filter_centers", 0%Z); (s_ "filter_half_widths", 3%Z)]).
  set (d := [(dset_key (AInt 0) (1%Z, 2%Z) (s_ "xx"), p); (dset_key (AInt 1) (1%Z, 2%Z) (s_ "xx"), p)]).
  set (k := mkakey 0 (1%Z, 2%Z) (1%Z, 2%Z) (s_ "xx") (s_ "xx")).
  assert (PR : proper d).
  { split; [repeat constructor; simpl; intuition discriminate|]. intros k' p' [E|[E|[]]]; injection E as <- <-; (split; [repeat constructor; simpl; intuition discriminate|simpl; intuition discriminate]). }
  destruct (H d (AInt 0) (AInt 1) [k] None [] PR) with (k := k) as (key & q & _ & X); [vm_compute; reflexivity|vm_compute; reflexivity|reflexivity|left; reflexivity|].
  discriminate.
Qed.
Print Assumptions r_params_recorded_refuted.

Example select_r_example :
  let p := [(s_ "filter_centers", 0%Z)] in let q := [(s_ "filter_centers", 5%Z)] in
  let xx := s_ "xx" in
  bind (select_r Z.eq_dec [mkakey 0 (1%Z, 2%Z) (2%Z, 3%Z) xx xx]
    (compress Z.eq_dec [(bl_key (1%Z, 2%Z) xx, p); (bl_key (4%Z, 5%Z) xx, p); (bl_key (2%Z, 3%Z) xx, q)])) get_r
  = Ok [(bl_key (1%Z, 2%Z) xx, p); (bl_key (2%Z, 3%Z) xx, q)].
Proof. vm_compute. reflexivity. Qed.
