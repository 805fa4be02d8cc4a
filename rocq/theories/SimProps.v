(** Properties of the simulations of testing.py: C303-C315. *)
From Coq Require Import Reals Lra Sorted.
From Verif Require Import PyStr Prelude ListLemmas CNum CovqModel CovqProps GetModel GetProps DlyModel StatProps DlyProps UvpModel CombineModel CombineProofs UtilsModel UtilsProofs UtilsReds UtilsProps SimModel.
Open Scope R_scope.

Section Noise.
Context {G : Type} (seedg : Z -> G) (draw : G -> nat -> list R * G).
Notation nsim := (noise_sim seedg draw).
(** ** C303: the level of the noise *)
(** the documented standard deviation of a visibility; q: integration time x samples x channel width *)
Definition level (tsys : R) (conv : option (nat -> Z -> R)) (q : R) (f : nat) (pol : Z) : R :=
  let pstokes := (1 <= pol <= 4)%Z in
  match conv with
  | None => if (1 <=? pol)%Z && (pol <=? 4)%Z then tsys / sqrt q / sqrt 2 else tsys / sqrt q
  | Some j => if (1 <=? pol)%Z && (pol <=? 4)%Z then 1000 / j f pol * (tsys / sqrt q) / 2 else 1000 / j f pol * (tsys / sqrt q)
  end.
Lemma is_pstokes_range p : is_pstokes p = ((1 <=? p) && (p <=? 4))%Z.
Proof.
  unfold is_pstokes. cbn [existsb]. destruct (Z.eqb_spec p 1), (Z.eqb_spec p 2), (Z.eqb_spec p 3), (Z.eqb_spec p 4), (Z.leb_spec 1 p), (Z.leb_spec p 4); cbn; try reflexivity; lia.
Qed.
Lemma sqrt2_ne : sqrt 2 <> 0. Proof. apply Rgt_not_eq, sqrt_lt_R0. lra. Qed.
Lemma rms_level tsys conv cw int ns f p : (0 < int * ns * cw f -> rms tsys conv cw int ns f p = Some (level tsys conv (int * ns * cw f) f p)) /\
  (int * ns * cw f <= 0 -> rms tsys conv cw int ns f p = None).
Proof.
  unfold rms, level, polcorr. rewrite is_pstokes_range. split; intro H; destruct (Rlt_dec 0 (int * ns * cw f)); try lra; [|reflexivity].
  f_equal. destruct conv as [j|]; destruct ((1 <=? p) && (p <=? 4))%Z; try (unfold Rdiv; rewrite ?Rinv_1; ring).
  assert (S2 : sqrt 2 * sqrt 2 = 2) by (apply sqrt_sqrt; lra). replace (/ 2) with (/ (sqrt 2 * sqrt 2)) by (rewrite S2; reflexivity). unfold Rdiv.
  replace (/ 2) with (/ (sqrt 2 * sqrt 2)) by (rewrite S2; reflexivity). rewrite Rinv_mult. ring.
Qed.
Lemma nth_error_combine_seq {A} (l : list A) b : nth_error (combine (seq 0 (length l)) l) b = option_map (fun x => (b, x)) (nth_error l b).
Proof.
  assert (G0 : forall j, nth_error (combine (seq j (length l)) l) b = option_map (fun x => ((b + j)%nat, x)) (nth_error l b)).
  { revert b; induction l as [|x l IH]; intros b j; [destruct b; reflexivity|]. destruct b as [|b]; [reflexivity|]. cbn [length seq combine nth_error]. rewrite IH. destruct (nth_error l b); cbn; [f_equal; f_equal; lia|reflexivity]. }
  rewrite G0. replace (b + 0)%nat with b by lia. reflexivity.
Qed.
Theorem noise_sim_values : forall u tsys conv seed whiten g u' g' d,
  nsim u tsys conv 0 seed false whiten g = (u', g', Ok (Some d)) ->
  let n := (length (u_rows u) * u_nf u * length (u_pols u))%nat in
  exists z1 z2 g1, draw (match seed with Some s => seedg s | None => g end) n = (z1, g1) /\ draw g1 n = (z2, g') /\
  u' = u /\ length (u_rows d) = length (u_rows u) /\
  forall b r, nth_error (u_rows u) b = Some r -> exists r', nth_error (u_rows d) b = Some r' /\
    r_time r' = r_time r /\ r_lst r' = r_lst r /\ r_int r' = r_int r /\
    forall f p pol, nth_error (u_pols u) p = Some pol ->
      let ns := if whiten then 1 else r_ns r f p in
      let q := r_int r * ns * u_cw u f in
      let k := ((b * u_nf u + f) * length (u_pols u) + p)%nat in
      let s := level tsys conv q f pol / sqrt 2 in
      r_ns r' f p = ns /\
      (0 < q -> r_flag r' f p = (if whiten then false else r_flag r f p) /\ r_dat r' f p = Some (mkC (nth k z1 0 * s) (nth k z2 0 * s))) /\
      (q <= 0 -> r_flag r' f p = true /\ r_dat r' f p = None).
Proof.
  intros u tsys conv seed whiten g u' g' d H n. unfold noise_sim in H. cbn [Nat.ltb Nat.leb andb] in H.
  set (w := if whiten then whitened u else u) in *.
  assert (LW : length (u_rows w) = length (u_rows u)) by (unfold w; destruct whiten; [cbn; apply map_length|reflexivity]).
  assert (NF : u_nf w = u_nf u) by (unfold w; destruct whiten; reflexivity). assert (NP : u_pols w = u_pols u) by (unfold w; destruct whiten; reflexivity).
  assert (CW : u_cw w = u_cw u) by (unfold w; destruct whiten; reflexivity).
  rewrite LW, NF, NP in H. fold n in H. destruct (draw _ n) as [z1 g1] eqn:D1. destruct (draw g1 n) as [z2 g2] eqn:D2. injection H as <- <- <-.
  exists z1, z2, g1. split; [reflexivity|]. split; [exact D2|]. split; [reflexivity|]. split.
  - cbn [noisy with_rows u_rows]. rewrite map_length, combine_length, seq_length, LW. lia.
  - intros b r Hb. assert (exists rw, nth_error (u_rows w) b = Some rw /\ r_time rw = r_time r /\ r_lst rw = r_lst r /\ r_int rw = r_int r /\
       (forall f p, r_ns rw f p = if whiten then 1 else r_ns r f p) /\ (forall f p, r_flag rw f p = if whiten then false else r_flag r f p)) as [rw [E [T1 [T2 [T3 [T4 T5]]]]]].
    { unfold w. destruct whiten; [|exists r; repeat split; exact Hb]. cbn [whitened with_rows u_rows]. rewrite nth_error_map, Hb. eexists. split; [reflexivity|]. repeat split. }
    unfold noisy. cbn [with_rows u_rows]. rewrite nth_error_map, nth_error_combine_seq, E. cbn [option_map fst snd]. eexists. split; [reflexivity|]. cbn [r_time r_lst r_int].
    split; [exact T1|]. split; [exact T2|]. split; [exact T3|]. intros f p pol Hp. cbv zeta. cbn [r_ns r_flag r_dat]. rewrite NF, NP, CW. set (ns := if whiten then 1 else r_ns r f p). set (q := r_int r * ns * u_cw u f). set (k := ((b * u_nf u + f) * length (u_pols u) + p)%nat).
    assert (EP : nth p (u_pols u) 0%Z = pol) by (apply nth_error_nth; exact Hp). rewrite EP, T3. rewrite (T4 f p), (T5 f p). fold ns. fold q. fold k.
    destruct (rms_level tsys conv (u_cw u) (r_int r) ns f pol) as [P N]. fold q in P, N. split; [reflexivity|]. split; intro Q.
    + rewrite (P Q). split; [reflexivity|]. f_equal. f_equal; unfold Rdiv; ring.
    + rewrite (N Q). split; reflexivity.
Qed.
(** ** C304: noise in Jy is the noise in Kelvin steradian times the conversion: for linear polarizations *)
Theorem noise_conversion : forall tsys j q f pol, ~ (1 <= pol <= 4)%Z -> level tsys (Some j) q f pol = 1000 / j f pol * level tsys None q f pol.
Proof. intros tsys j q f pol H. unfold level. destruct (Z.leb_spec 1 pol), (Z.leb_spec pol 4); cbn [andb]; try ring. lia. Qed.
Theorem noise_conversion_refuted :
  ~ (forall tsys j q f pol, level tsys (Some j) q f pol = 1000 / j f pol * level tsys None q f pol).
Proof.
  intro H. specialize (H 1 (fun _ _ => 1000) 1 0%nat 1%Z). cbn in H. rewrite sqrt_1 in H.
  assert (S2 : sqrt 2 * sqrt 2 = 2) by (apply sqrt_sqrt; lra). pose proof sqrt2_ne.
  assert (E : / sqrt 2 = / 2) by (unfold Rdiv in H; lra). apply (f_equal Rinv) in E. rewrite !Rinv_inv in E. rewrite E in S2. lra.
Qed.
(** ** C305: seeds *)
Theorem noise_seed : forall u tsys conv n s inplace whiten g g', nsim u tsys conv n (Some s) inplace whiten g = nsim u tsys conv n (Some s) inplace whiten g' \/
  (n <> 0%nat /\ u_unproj u = false).
Proof.
  intros u tsys conv n s inplace whiten g g'. unfold noise_sim. destruct (Nat.ltb_spec 0 n), (u_unproj u) eqn:U; cbn [andb negb]; try (left; reflexivity). right. split; [lia|reflexivity].
Qed.
(** ** C306-C307: whose object is changed *)
Theorem noise_not_inplace : forall u tsys conv n seed whiten g, fst (fst (nsim u tsys conv n seed false whiten g)) = u.
Proof.
  intros u tsys conv n seed whiten g. unfold noise_sim. destruct (_ && _); [reflexivity|]. cbv zeta. destruct (draw _ _) as [z1 g1]. destruct (draw _ _) as [z2 g2]. reflexivity.
Qed.
Theorem noise_inplace : forall u tsys conv seed whiten g,
  exists d g', nsim u tsys conv 0 seed false whiten g = (u, g', Ok (Some d)) /\ nsim u tsys conv 0 seed true whiten g = (d, g', Ok None).
Proof.
  intros u tsys conv seed whiten g. unfold noise_sim. cbn [Nat.ltb Nat.leb andb]. destruct (draw _ _) as [z1 g1]. destruct (draw _ _) as [z2 g2]. eexists _, _. split; reflexivity.
Qed.
(** with an extension in time the noise is lost: the caller's object at most loses its flags and numbers of samples *)
Theorem noise_inplace_extended : forall u tsys conv n seed whiten g, (0 < n)%nat ->
  fst (fst (nsim u tsys conv n seed true whiten g)) = (if whiten then whitened u else u) /\
  (snd (nsim u tsys conv n seed true whiten g) = if u_unproj u then Ok None else Err AssertionError).
Proof.
  intros u tsys conv n seed whiten g H. unfold noise_sim. rewrite (proj2 (Nat.ltb_lt 0 n) H). cbn [andb]. destruct (u_unproj u); cbn [negb]; [|split; reflexivity].
  cbv zeta. destruct (draw _ _) as [z1 g1]. destruct (draw _ _) as [z2 g2]. split; reflexivity.
Qed.
End Noise.
Definition xrow (t : R) : row := mkrow t 0 1 (fun _ _ => 1) (fun _ _ => false) (fun _ _ => Some C0).
Definition xuv (ts : list R) : uv := mkuv (map xrow ts) 1 (fun _ => 1) [(-5)%Z] true.
Definition xdraw (g : nat) (n : nat) : list R * nat := (repeat 1 n, g).
Theorem noise_inplace_refuted :
  ~ (forall (u : uv) (n : nat) g u' g' d g'', noise_sim (fun _ => 0%nat) xdraw u 1 None n None false false g = (u, g', Ok (Some d)) ->
       noise_sim (fun _ => 0%nat) xdraw u 1 None n None true false g = (u', g'', Ok None) -> u' = d).
Proof.
  intro H. specialize (H (xuv [0; 1]) 1%nat 0%nat _ _ _ _ eq_refl eq_refl). apply (f_equal (fun u => length (u_rows u))) in H. cbn in H. discriminate.
Qed.
Print Assumptions noise_sim_values.
Print Assumptions noise_conversion.
Print Assumptions noise_conversion_refuted.
Print Assumptions noise_seed.
Print Assumptions noise_not_inplace.
Print Assumptions noise_inplace.
Print Assumptions noise_inplace_extended.
Print Assumptions noise_inplace_refuted.

(** ** C308-C309: the times of extended data *)
Lemma dedup_spec l : StronglySorted Rle l -> StronglySorted Rlt (dedup l) /\ forall x, In x (dedup l) <-> In x l.
Proof.
  induction l as [|x l IH]; intro S; [split; [constructor|tauto]|]. apply StronglySorted_inv in S. destruct S as [S F]. destruct (IH S) as [S' I]. destruct l as [|y t].
  - split; [repeat constructor|reflexivity].
  - cbn [dedup]. destruct (Req_EM_T x y) as [->|N].
    + split; [exact S'|]. intro z. cbn [dedup] in I. rewrite I. cbn. tauto.
    + split.
      * constructor; [exact S'|]. apply Forall_forall. intros z Hz. apply I in Hz. rewrite Forall_forall in F. pose proof (F z Hz) as L.
        pose proof (F y (or_introl eq_refl)) as Ly. destruct Hz as [<-|Hz]; [lra|]. apply StronglySorted_inv in S. destruct S as [_ Fy]. rewrite Forall_forall in Fy. specialize (Fy z Hz). lra.
      * intro z. change (In z (x :: dedup (y :: t)) <-> In z (x :: y :: t)). cbn [In]. rewrite I. cbn. tauto.
Qed.
Lemma strict_unique (l l' : list R) : StronglySorted Rlt l -> StronglySorted Rlt l' -> (forall x, In x l <-> In x l') -> l = l'.
Proof.
  revert l'; induction l as [|x l IH]; intros l' S S' H.
  - destruct l' as [|y l']; [reflexivity|]. destruct (proj2 (H y) (or_introl eq_refl)).
  - destruct l' as [|y l']; [destruct (proj1 (H x) (or_introl eq_refl))|]. apply StronglySorted_inv in S, S'. destruct S as [S F], S' as [S' F']. rewrite Forall_forall in F, F'.
    assert (x = y) as <-.
    { destruct (proj1 (H x) (or_introl eq_refl)) as [E|E]; [auto|]. destruct (proj2 (H y) (or_introl eq_refl)) as [E'|E']; [auto|]. specialize (F _ E'). specialize (F' _ E). lra. }
    f_equal. apply IH; [exact S|exact S'|]. intro z. split; intro I.
    + destruct (proj1 (H z) (or_intror I)) as [<-|Q]; [specialize (F _ I); lra|exact Q].
    + destruct (proj2 (H z) (or_intror I)) as [<-|Q]; [specialize (F' _ I); lra|exact Q].
Qed.
Lemma uniqueR_spec l : StronglySorted Rlt (uniqueR l) /\ forall x, In x (uniqueR l) <-> In x l.
Proof. unfold uniqueR. destruct (dedup_spec (sortR l) (sortR_sorted l)) as [S I]. split; [exact S|]. intro x. rewrite I. apply sortR_In. Qed.
Lemma even_sorted t0 d n : 0 < d -> StronglySorted Rlt (even_channels t0 d n).
Proof.
  intro H. unfold even_channels. generalize 0%nat. induction n as [|n IH]; intro j; [constructor|]. cbn [seq map]. constructor; [apply IH|].
  apply Forall_forall. intros x Hx. apply in_map_iff in Hx. destruct Hx as [k [<- Hk]]. apply in_seq in Hk. assert (INR j < INR k) by (apply lt_INR; lia). nra.
Qed.
(** the rows cover exactly N evenly spaced times *)
Definition evenly (l : list R) (t0 d : R) (N : nat) : Prop := forall t, In t l <-> exists k, (k < N)%nat /\ t = t0 + INR k * d.
Lemma uniqueR_even l t0 d N : 0 < d -> evenly l t0 d N -> uniqueR l = even_channels t0 d N.
Proof.
  intros Hd E. destruct (uniqueR_spec l) as [S I]. apply strict_unique; [exact S|apply even_sorted; exact Hd|]. intro x. rewrite I, (E x). unfold even_channels. rewrite in_map_iff. split.
  - intros [k [Hk ->]]. exists k. split; [reflexivity|apply in_seq; lia].
  - intros [k [<- Hk]]. apply in_seq in Hk. exists k. split; [lia|reflexivity].
Qed.
Definition tri (j : nat) : R := INR j * (INR j + 1) / 2.
Lemma extend_times dt dl nt n : forall i (copy acc : list row) t,
  In t (map r_time (extend_from dt dl nt i n copy acc)) <->
  In t (map r_time acc) \/ exists j t', (1 <= j <= n)%nat /\ In t' (map r_time copy) /\ t = t' + dt * nt * (INR j * INR i + tri j).
Proof.
  induction n as [|n IH]; intros i copy acc t; cbn [extend_from].
  - split; [tauto|]. intros [H|[j [t' [H _]]]]; [exact H|lia].
  - rewrite IH. rewrite map_app, in_app_iff. rewrite map_map. cbn [shift_row r_time]. split.
    + intros [[H|H]|[j [t' [Hj [H ->]]]]].
      * left; exact H.
      * right. apply in_map_iff in H. destruct H as [r [<- Hr]]. exists 1%nat, (r_time r). split; [lia|]. split; [apply in_map; exact Hr|]. unfold tri. rewrite plus_INR. cbn. field.
      * right. apply in_map_iff in H. destruct H as [r [<- Hr]]. exists (S j), (r_time r). split; [lia|]. split; [apply in_map; exact Hr|]. unfold tri. rewrite plus_INR, !S_INR. cbn [INR]. field.
    + intros [H|[j [t' [Hj [H ->]]]]]; [left; left; exact H|]. apply in_map_iff in H. destruct H as [r [<- Hr]]. destruct (Nat.eq_dec j 1) as [->|Nj].
      * left; right. apply in_map_iff. exists r. split; [|exact Hr]. unfold tri. rewrite plus_INR. cbn. field.
      * right. destruct j as [|j]; [lia|]. exists j, (r_time r + dt * nt * INR (i + 1)). split; [lia|]. split; [apply in_map_iff; exists r; split; [reflexivity|exact Hr]|].
        unfold tri. rewrite plus_INR, !S_INR. cbn [INR]. field.
Qed.
(** block j of the extended data is j (j + 1) / 2 lengths later than the data *)
Theorem extended_times : forall u n t0 d N, 0 < d -> (2 <= N)%nat -> evenly (map r_time (u_rows u)) t0 d N ->
  length (u_rows (extended n u)) = ((n + 1) * length (u_rows u))%nat /\
  forall t, In t (map r_time (u_rows (extended n u))) <->
    exists j k, (j <= n)%nat /\ (k < N)%nat /\ t = t0 + (INR k + INR N * tri j) * d.
Proof.
  intros u n t0 d N Hd HN E. unfold extended. rewrite (uniqueR_even _ _ _ _ Hd E). rewrite even_median by exact HN.
  assert (LN : length (even_channels t0 d N) = N) by (unfold even_channels; rewrite map_length, seq_length; reflexivity). rewrite LN. cbn [with_rows u_rows].
  set (dl := medianR _). split.
  - assert (Q : forall m i copy acc, length copy = length (u_rows u) -> length (extend_from d dl (INR N) i m copy acc) = (m * length (u_rows u) + length acc)%nat).
    { induction m as [|m IH]; intros i copy acc L; [reflexivity|]. cbn [extend_from]. rewrite IH by (rewrite map_length; exact L). rewrite app_length, map_length, L. lia. }
    rewrite Q by reflexivity. lia.
  - intro t. rewrite extend_times. rewrite (E t). split.
    + intros [[k [Hk ->]]|[j [t' [Hj [H ->]]]]].
      * exists 0%nat, k. repeat split; [lia|exact Hk|]. unfold tri. cbn. field.
      * apply E in H. destruct H as [k [Hk ->]]. exists j, k. repeat split; [lia|exact Hk|]. cbn [INR]. ring.
    + intros [j [k [Hj [Hk ->]]]]. destruct (Nat.eq_dec j 0) as [->|Nj].
      * left. exists k. split; [exact Hk|]. unfold tri. cbn. field.
      * right. exists j, (t0 + INR k * d). split; [lia|]. split; [apply E; exists k; auto|]. cbn [INR]. ring.
Qed.
Theorem extended_once : forall u t0 d N, 0 < d -> (2 <= N)%nat -> evenly (map r_time (u_rows u)) t0 d N ->
  evenly (map r_time (u_rows (extended 1 u))) t0 d (2 * N).
Proof.
  intros u t0 d N Hd HN E t. destruct (extended_times u 1 t0 d N Hd HN E) as [_ H]. rewrite H. split.
  - intros [j [k [Hj [Hk ->]]]]. destruct j as [|[|j]]; [| |lia].
    + exists k. split; [lia|]. unfold tri. cbn. field.
    + exists (k + N)%nat. split; [lia|]. rewrite plus_INR. unfold tri. cbn. field.
  - intros [k [Hk ->]]. destruct (Nat.lt_ge_cases k N) as [L|L].
    + exists 0%nat, k. repeat split; [lia|exact L|]. unfold tri. cbn. field.
    + exists 1%nat, (k - N)%nat. repeat split; [lia|lia|]. rewrite minus_INR by lia. unfold tri. cbn. field.
Qed.
Lemma x_evenly : evenly (map r_time (u_rows (xuv [0; 1]))) 0 1 2.
Proof.
  intro t. cbn. split.
  - intros [<-|[<-|[]]]; [exists 0%nat|exists 1%nat]; split; try lia; cbn; ring.
  - intros [k [Hk ->]]. destruct k as [|[|k]]; [left|right; left|lia]; cbn; ring.
Qed.
Theorem extended_contiguous_refuted :
  ~ (forall u n t0 d N, 0 < d -> (2 <= N)%nat -> evenly (map r_time (u_rows u)) t0 d N -> evenly (map r_time (u_rows (extended n u))) t0 d ((n + 1) * N)).
Proof.
  intro H. specialize (H (xuv [0; 1]) 2%nat 0 1 2%nat ltac:(lra) ltac:(lia) x_evenly 4).
  assert (P : exists k, (k < (2 + 1) * 2)%nat /\ 4 = 0 + INR k * 1) by (exists 4%nat; split; [lia|cbn; ring]). apply H in P.
  destruct (extended_times (xuv [0; 1]) 2 0 1 2 ltac:(lra) ltac:(lia) x_evenly) as [_ E]. apply E in P. destruct P as [j [k [Hj [Hk Q]]]].
  destruct j as [|[|[|j]]]; [| | |lia]; (destruct k as [|[|k]]; [| |lia]); unfold tri in Q; cbn in Q; lra.
Qed.
(** modulo *)
Lemma modR_spec x m : 0 < m -> 0 <= modR x m < m /\ exists z, modR x m = x - m * IZR z.
Proof.
  intros H. unfold modR. split; [|eexists; reflexivity]. destruct (base_Int_part (x / m)) as [A B]. set (k := IZR (Int_part (x / m))) in *.
  assert (E : x = m * (x / m)) by (field; lra). set (q := x / m) in *. rewrite E. nra.
Qed.
Lemma extend_prefix dt dl nt n : forall i copy acc p, (p < length acc)%nat -> nth_error (extend_from dt dl nt i n copy acc) p = nth_error acc p.
Proof. induction n as [|n IH]; intros i copy acc p H; cbn [extend_from]; [reflexivity|]. rewrite IH by (rewrite app_length; lia). apply nth_error_app1. exact H. Qed.
(** [r'] is [r] moved by a time and an LST: LSTs lie between 0 and 2 pi *)
Definition moved (dt dl : R) (r r' : row) : Prop :=
  r_time r' = r_time r + dt /\ 0 <= r_lst r' < 2 * PI /\ (exists z, r_lst r' = r_lst r + dl - 2 * PI * IZR z) /\
  r_int r' = r_int r /\ r_ns r' = r_ns r /\ r_flag r' = r_flag r /\ r_dat r' = r_dat r.
Lemma extend_nth dt dl nt n : forall i copy acc j q r, (1 <= j <= n)%nat -> nth_error copy q = Some r ->
  exists r', nth_error (extend_from dt dl nt i n copy acc) (length acc + (j - 1) * length copy + q) = Some r' /\
    moved (dt * nt * (INR j * INR i + tri j)) (dl * nt * (INR j * INR i + tri j)) r r'.
Proof.
  assert (P2 : 0 < 2 * PI) by (pose proof PI_RGT_0; lra).
  induction n as [|n IH]; intros i copy acc j q r Hj Hq; [lia|]. cbn [extend_from]. set (c := map _ copy). assert (Lq : (q < length copy)%nat) by (apply nth_error_Some; congruence).
  assert (Lc : length c = length copy) by apply map_length.
  assert (Cq : nth_error c q = Some (shift_row (dt * nt * INR (i + 1)) (dl * nt * INR (i + 1)) r)) by (unfold c; rewrite nth_error_map, Hq; reflexivity).
  destruct (Nat.eq_dec j 1) as [->|Nj].
  - eexists. split; [rewrite extend_prefix by (rewrite app_length; lia); rewrite nth_error_app2 by lia; replace (length acc + (1 - 1) * length copy + q - length acc)%nat with q by lia; exact Cq|].
    unfold moved, shift_row; cbn [r_time r_lst r_int r_ns r_flag r_dat]. assert (E : INR 1 * INR i + tri 1 = INR (i + 1)) by (unfold tri; rewrite plus_INR; cbn; field). rewrite E.
    destruct (modR_spec (r_lst r + dl * nt * INR (i + 1)) (2 * PI) P2) as [B [z Z]]. repeat split; try apply B. exists z. exact Z.
  - destruct (IH (S i) c (acc ++ c) (j - 1)%nat q _ ltac:(lia) Cq) as (r' & R1 & T & L1 & (z & L2) & R2). exists r'. split.
    + rewrite <- R1. f_equal. rewrite app_length, Lc. destruct j as [|[|j]]; [lia|lia|]. cbn [Nat.sub]. nia.
    + assert (E : INR (j - 1) * INR (S i) + tri (j - 1) + INR (i + 1) = INR j * INR i + tri j).
      { destruct j as [|j]; [lia|]. replace (S j - 1)%nat with j by lia. unfold tri. rewrite plus_INR, !S_INR. cbn [INR]. field. }
      unfold moved. unfold shift_row in T, L2, R2; cbn [r_time r_lst r_int r_ns r_flag r_dat] in T, L2, R2. rewrite <- E. split; [rewrite T; ring|]. split; [exact L1|]. split; [|exact R2].
      destruct (modR_spec (r_lst r + dl * nt * INR (i + 1)) (2 * PI) P2) as [_ [z' Z]]. exists (z + z')%Z. rewrite L2, Z, plus_IZR. ring.
Qed.
(** block j holds the rows of the data in their order, moved by j (j + 1) / 2 lengths in time and LST; nothing else of a row changes *)
Theorem extended_rows : forall u n, let ts := uniqueR (map r_time (u_rows u)) in
  let dt := medianR (diffsR ts) * INR (length ts) in let dl := medianR (diffsR (uniqueR (map r_lst (u_rows u)))) * INR (length ts) in
  forall j q r, (j <= n)%nat -> nth_error (u_rows u) q = Some r ->
  exists r', nth_error (u_rows (extended n u)) (j * length (u_rows u) + q) = Some r' /\ (j = 0%nat -> r' = r) /\ ((0 < j)%nat -> moved (dt * tri j) (dl * tri j) r r').
Proof.
  intros u n ts dt dl j q r Hj Hq. unfold extended. cbn [with_rows u_rows]. fold ts. assert (Lq : (q < length (u_rows u))%nat) by (apply nth_error_Some; congruence). destruct j as [|j].
  - exists r. split; [rewrite extend_prefix by lia; exact Hq|]. split; [reflexivity|lia].
  - destruct (extend_nth (medianR (diffsR ts)) (medianR (diffsR (uniqueR (map r_lst (u_rows u))))) (INR (length ts)) n 0 (u_rows u) (u_rows u) (S j) q r ltac:(lia) Hq) as (r' & R1 & M).
    exists r'. split; [rewrite <- R1; f_equal; lia|]. split; [discriminate|]. intros _. unfold dt, dl. replace (INR (S j) * INR 0 + tri (S j)) with (tri (S j)) in M by (cbn [INR]; ring). exact M.
Qed.
Print Assumptions extended_rows.
Print Assumptions extended_times.
Print Assumptions extended_once.
Print Assumptions extended_contiguous_refuted.

(** ** C310: foregrounds of Gaussian covariance *)
Theorem gauss_cov_shape : forall amp scale fr i j, 0 <= amp ->
  gcov amp scale fr i i = amp /\ gcov amp scale fr i j = gcov amp scale fr j i /\ 0 <= gcov amp scale fr i j <= amp /\
  (forall k, 0 < scale -> Rabs (fr i - fr j) <= Rabs (fr i - fr k) -> gcov amp scale fr i k <= gcov amp scale fr i j).
Proof.
  intros amp scale fr i j A. unfold gcov. repeat split.
  - replace ((fr i - fr i) / scale) with 0 by (unfold Rdiv; ring). replace (- 0 ^ 2) with 0 by ring. rewrite exp_0. ring.
  - f_equal. f_equal. f_equal. unfold Rdiv. ring.
  - apply Rmult_le_pos; [exact A|apply Rlt_le, exp_pos].
  - rewrite <- (Rmult_1_r amp) at 2. apply Rmult_le_compat_l; [exact A|]. rewrite <- exp_0. assert (Q : - ((fr i - fr j) / scale) ^ 2 <= 0) by (pose proof (pow2_ge_0 ((fr i - fr j) / scale)); lra).
    destruct (Rle_lt_or_eq_dec _ _ Q) as [L|E]; [apply Rlt_le, exp_increasing; exact L|rewrite E; lra].
  - intros k S H. apply Rmult_le_compat_l; [exact A|].
    assert (Q : - ((fr i - fr k) / scale) ^ 2 <= - ((fr i - fr j) / scale) ^ 2).
    { assert (((fr i - fr j) / scale) ^ 2 <= ((fr i - fr k) / scale) ^ 2); [|lra]. rewrite <- !Rsqr_pow2. apply Rsqr_le_abs_1. unfold Rdiv. rewrite !Rabs_mult.
      apply Rmult_le_compat_r; [apply Rabs_pos|exact H]. }
    destruct (Rle_lt_or_eq_dec _ _ Q) as [L|E]; [apply Rlt_le, exp_increasing; exact L|rewrite E; lra].
Qed.
Section Sky.
Context {G : Type} (seedg : Z -> G) (entropy : G) (draw : G -> nat -> list R * G) (mvn : G -> (nat -> nat -> R) -> nat -> nat -> list (list R) * G).
(** constant in time: one draw for all times; otherwise one draw per time; independent real and imaginary parts *)
Theorem gauss_fg_rows : forall amp scale fr nf nt g,
  (forall t t' f, fst (gauss_cov_fg mvn amp scale fr nf nt true g) t f = fst (gauss_cov_fg mvn amp scale fr nf nt true g) t' f) /\
  (exists s g', mvn g (gcov amp scale fr) nf 2 = (s, g') /\ gauss_cov_fg mvn amp scale fr nf nt true g = (fst (gauss_cov_fg mvn amp scale fr nf nt true g), g') /\
     forall t f, fst (gauss_cov_fg mvn amp scale fr nf nt true g) t f = mkC (nth f (nth 0 s []) 0) (nth f (nth 1 s []) 0)) /\
  (exists s g', mvn g (gcov amp scale fr) nf (2 * nt) = (s, g') /\ gauss_cov_fg mvn amp scale fr nf nt false g = (fst (gauss_cov_fg mvn amp scale fr nf nt false g), g') /\
     forall t f, fst (gauss_cov_fg mvn amp scale fr nf nt false g) t f = mkC (nth f (nth t s []) 0) (nth f (nth (nt + t) s []) 0)).
Proof.
  intros amp scale fr nf nt g. unfold gauss_cov_fg. destruct (mvn g (gcov amp scale fr) nf 2) as [s g'] eqn:E. destruct (mvn g (gcov amp scale fr) nf (2 * nt)) as [s' g''] eqn:E'.
  cbn [fst]. split; [reflexivity|]. split; [exists s, g'|exists s', g'']; repeat split.
Qed.
(** ** C311: the radiometer equation of sky_noise_jy_autos *)
Theorem jy_radiometer : forall c kb a omega fr int cw trx, c <> 0 -> kb <> 0 -> omega <> 0 -> fr <> 0 -> 0 < int * cw ->
  let tsky_jy := a + trx * (2 * kb * omega * 10 ^ 26 * (fr / c) ^ 2) in
  jy_rms c kb a omega fr int cw trx = tsky_jy / sqrt (int * cw).
Proof.
  intros c kb a omega fr int cw trx Hc Hk Ho Hf Hi. unfold jy_rms, Jy2K. cbv zeta.
  assert (S0 : sqrt (int * cw) <> 0) by (apply Rgt_not_eq, sqrt_lt_R0; exact Hi). set (s := sqrt (int * cw)) in *. set (T := 10 ^ 26). assert (T <> 0) by (unfold T; apply pow_nonzero; lra).
  field. repeat split; assumption.
Qed.

(** ** C312: sky_noise_sim *)
Context {Pol : Type} (pol_dec : forall a b : Pol, {a = b} + {a <> b}) (auto_pol qu_v : Pol -> bool) (pI : Pol).
Notation ssim := (sky_noise_sim seedg entropy draw mvn pol_dec auto_pol qu_v pI).
Notation sloop := (sky_loop draw mvn pol_dec auto_pol qu_v pI).
Notation obl := (one_bl draw mvn pol_dec auto_pol qu_v pI).
Lemma sloop_spec par u sig ks g l g' : sloop par u sig ks g = (Ok l, g') ->
  map fst l = ks /\ forall k v, In (k, v) l -> exists g0 g1, obl par u sig k g0 = (Ok v, g1).
Proof.
  revert g l g'; induction ks as [|k ks IH]; intros g l g' H; cbn [sky_loop] in H.
  - injection H as <- <-. split; [reflexivity|intros k v []].
  - destruct (obl par u sig k g) as [[v|] g1] eqn:E; [|discriminate]. destruct (sloop par u sig ks g1) as [[l0|] g2] eqn:E2; cbn [bind] in H; [|discriminate].
    injection H as <- <-. destruct (IH _ _ _ E2) as [A B]. split; [cbn; f_equal; exact A|]. intros k' v' [Q|Q]; [injection Q as <- <-; exists g, g1; exact E|apply B; exact Q].
Qed.
(** the autocorrelation used for a polarization: its own, or that of pI for pQ, pU, pV *)
Definition auto_data (u : skyuv Pol) (a : Z) (p : Pol) (t f : nat) : R := re (s_data u (a, a, if qu_v p then pI else p) t f).
Lemma auto_of_ok u a p x : auto_of pol_dec auto_pol qu_v pI u a p = Ok x ->
  x = auto_data u a p /\ In (a, a, p) (s_keys u) /\ In (a, a, if qu_v p then pI else p) (s_keys u) /\ auto_pol p = true.
Proof.
  unfold auto_of. destruct (in_dec (key_dec pol_dec) (a, a, p) (s_keys u)) as [I|]; [|discriminate]. destruct (auto_pol p) eqn:A; [|discriminate]. cbv zeta.
  destruct (in_dec (key_dec pol_dec) (a, a, if qu_v p then pI else p) (s_keys u)) as [J|]; [|discriminate]. intro H. injection H as <-. repeat split; assumption.
Qed.
Definition positive (par : skypar Pol) (p : Pol) : Prop := p_c par <> 0 /\ p_kb par <> 0 /\ 0 < p_int par * p_cw par /\ (forall f, p_omega par p f <> 0 /\ p_fr par f <> 0).
Theorem sky_sim_values : forall (par : skypar Pol) (u : skyuv Pol) g d g', ssim par u g = (Ok d, g') -> NoDup (s_keys u) ->
  (forall k t f, In k (s_keys u) -> is_auto k = true -> d k t f = Some (s_data u k t f)) /\
  (forall k t f, ~ In k (s_keys u) -> d k t f = Some (s_data u k t f)) /\
  exists common, forall a b p, In (a, b, p) (s_keys u) -> a <> b -> positive par p ->
    In (a, a, p) (s_keys u) /\ In (b, b, p) (s_keys u) /\
    exists x1 x2 s, (p_per_bl par = true -> s = common) /\ (p_in_time par = true -> forall t t' f, s t f = s t' f) /\
      forall t f, let A := auto_data u a p t f * auto_data u b p t f in let ns := s_ns u (a, b, p) t f in
        0 <= A ->
        let sd := sqrt A / sqrt (p_int par * p_cw par) / sqrt 2 in
        let noise := mkC (nth (t * p_nf par + f) x1 0 * sd) (nth (t * p_nf par + f) x2 0 * sd) in
        (p_bynsamp par = false -> d (a, b, p) t f = Some (noise + s t f)%C) /\
        (p_bynsamp par = true -> / 10 ^ 8 < ns -> d (a, b, p) t f = Some (mkC (re noise / sqrt ns) (im noise / sqrt ns) + s t f)%C) /\
        (p_bynsamp par = true -> ns = 0 -> d (a, b, p) t f = Some (s t f)).
Proof.
  intros par u g d g' H ND. unfold sky_noise_sim in H. destruct (s_crosshand u); [discriminate|]. destruct (read_autos pol_dec auto_pol qu_v pI u) as [rr|]; [|discriminate].
  set (gf := gauss_cov_fg mvn (p_amp par) (p_scale par * 1000000) (p_fr par) (p_nf par) (p_nt par) (p_in_time par)) in *.
  destruct (if p_per_bl par then let '(s, g'0) := gf g in (Some s, g'0) else (None, g)) as [sig g1] eqn:SG.
  set (g2 := match p_seed par with Some s => seedg s | None => entropy end) in *. set (ks := filter (fun k => negb (is_auto k)) (s_keys u)) in *.
  destruct (sloop par u sig ks g2) as [[l|] g3] eqn:L; cbn [bind] in H; [|discriminate]. injection H as <- <-.
  destruct (sloop_spec _ _ _ _ _ _ _ L) as [M V].
  assert (NDk : NoDup ks) by (apply NoDup_filter; exact ND).
  assert (FN : forall k, ~ In k ks -> find (fun kv : key Pol * (nat -> nat -> option C) => if key_dec pol_dec (fst kv) k then true else false) l = None).
  { intros k N. destruct (find _ l) as [kv|] eqn:F; [|reflexivity]. apply find_some in F. destruct F as [I F]. destruct (key_dec pol_dec (fst kv) k) as [<-|]; [|discriminate]. exfalso. apply N. rewrite <- M. apply in_map. exact I. }
  split; [|split].
  - intros k t f I A. rewrite FN; [reflexivity|]. intro Q. apply filter_In in Q. destruct Q as [_ Q]. rewrite A in Q. discriminate.
  - intros k t f N. rewrite FN; [reflexivity|]. intro Q. apply filter_In in Q. tauto.
  - exists (fst (gf g)). intros a b p I N POS.
    assert (IK : In (a, b, p) ks). { apply filter_In. split; [exact I|]. cbn. destruct (Z.eqb_spec a b); [contradiction|reflexivity]. }
    assert (exists v, find (fun kv : key Pol * (nat -> nat -> option C) => if key_dec pol_dec (fst kv) (a, b, p) then true else false) l = Some ((a, b, p), v) /\ In ((a, b, p), v) l) as [v [F IV]].
    { destruct (find _ l) as [[k' v]|] eqn:F.
      - apply find_some in F. destruct F as [I' F]. cbn [fst] in F. destruct (key_dec pol_dec k' (a, b, p)) as [->|]; [|discriminate]. exists v. auto.
      - exfalso. rewrite <- M in IK. apply in_map_iff in IK. destruct IK as [kv [E1 E2]]. pose proof (find_none _ _ F kv E2) as Q. cbn beta in Q. rewrite E1 in Q. destruct (key_dec pol_dec (a, b, p) (a, b, p)); congruence. }
    destruct (V _ _ IV) as [h0 [h1 O]]. unfold one_bl in O.
    destruct (auto_of pol_dec auto_pol qu_v pI u a p) as [x|] eqn:Ax; cbn [bind] in O; [|discriminate]. destruct (auto_of pol_dec auto_pol qu_v pI u b p) as [y|] eqn:Ay; cbn [bind] in O; [|discriminate].
    apply auto_of_ok in Ax, Ay. destruct Ax as [-> [Ia [_ _]]], Ay as [-> [Ib [_ _]]].
    unfold sky_noise_jy_autos in O. destruct (draw h0 _) as [x1 h2] eqn:D1. destruct (draw h2 _) as [x2 h3] eqn:D2. fold gf in O.
    destruct (match sig with Some s => (s, h3) | None => gf h3 end) as [s h4] eqn:SS. injection O as <- <-.
    split; [exact Ia|]. split; [exact Ib|]. exists x1, x2, s. split; [|split].
    + intro PB. rewrite PB in SG. destruct (gf g) as [s0 g0]. injection SG as <- <-. injection SS as <- <-. reflexivity.
    + intros PT t t' f. assert (CT : forall gg, forall q q' w, fst (gf gg) q w = fst (gf gg) q' w).
      { intros gg q q' w. unfold gf. rewrite PT. apply (proj1 (gauss_fg_rows _ _ _ _ _ gg)). }
      destruct sig as [s0|].
      * injection SS as <- <-. destruct (p_per_bl par); [|discriminate]. pose proof (CT g t t' f) as Q. destruct (gf g) as [sz gz]. injection SG as <- <-. exact Q.
      * pose proof (CT h3 t t' f) as Q. rewrite SS in Q. exact Q.
    + intros t f. cbv zeta. intros A0. rewrite F. cbn [snd]. destruct POS as [P1 [P2 [P3 P4]]]. destruct (P4 f) as [P5 P6].
      pose proof (jy_radiometer (p_c par) (p_kb par) (sqrt (auto_data u a p t f * auto_data u b p t f)) (p_omega par p f) (p_fr par f) (p_int par) (p_cw par) 0 P1 P2 P5 P6 P3) as RM. cbv zeta in RM.
      rewrite Rmult_0_l, Rplus_0_r in RM.
      assert (RS : rsqrt (auto_data u a p t f * auto_data u b p t f) = Some (sqrt (auto_data u a p t f * auto_data u b p t f))).
      { unfold rsqrt. destruct (Rle_dec 0 _) as [_|C]; [reflexivity|contradiction]. }
      set (sd := sqrt (auto_data u a p t f * auto_data u b p t f) / sqrt (p_int par * p_cw par)) in *.
      assert (NZ : forall z, z / sqrt 2 * sd = z * (sd / sqrt 2)) by (intro; unfold Rdiv; ring).
      split; [|split].
      * intros ->. cbv beta. rewrite RS. cbn [bindo]. rewrite RM, !NZ. reflexivity.
      * intros -> Hns. cbv beta. rewrite RS. cbn [bindo]. rewrite RM, !NZ. unfold by_samples. assert (0 < / 10 ^ 8) by (apply Rinv_0_lt_compat, pow_lt; lra).
        destruct (Rle_dec (Rabs (s_ns u (a, b, p) t f)) (/ 10 ^ 8)) as [C|_]; [rewrite Rabs_pos_eq in C by lra; lra|]. destruct (Rlt_dec 0 (s_ns u (a, b, p) t f)); [|lra]. reflexivity.
      * intros -> Hns. cbv beta. rewrite RS. cbn [bindo]. rewrite RM, !NZ. unfold by_samples. rewrite Hns, Rabs_R0. destruct (Rle_dec 0 (/ 10 ^ 8)) as [_|C]; [|exfalso; apply C, Rlt_le, Rinv_0_lt_compat, pow_lt; lra].
        cbn [bindo]. f_equal. destruct (s t f) as [sr si]. unfold Cadd, C0. cbn [re im]. f_equal; ring.
Qed.
(** ** C313-C314: reproducibility: the noise, and the signal if it is drawn per baseline *)
Theorem sky_sim_seed : forall (par : skypar Pol) (u : skyuv Pol) s g g', p_seed par = Some s -> p_per_bl par = false -> fst (ssim par u g) = fst (ssim par u g').
Proof.
  intros par u s g g' S P. unfold sky_noise_sim. destruct (s_crosshand u); [reflexivity|]. destruct (read_autos pol_dec auto_pol qu_v pI u); [|reflexivity]. rewrite P, S.
  destruct (sloop par u None _ (seedg s)) as [r g3]. reflexivity.
Qed.
(** cross-hand polarizations are refused; a missing autocorrelation is a KeyError *)
Theorem sky_sim_refuses : forall (par : skypar Pol) (u : skyuv Pol) g, 
  (s_crosshand u = true -> fst (ssim par u g) = Err AssertionError) /\
  (forall a b p, s_crosshand u = false -> In (a, b, p) (s_keys u) -> a <> b -> ~ (In (a, a, p) (s_keys u) /\ In (b, b, p) (s_keys u) /\ auto_pol p = true) -> fst (ssim par u g) = Err KeyError).
Proof.
  assert (AE : forall u a p e, auto_of pol_dec auto_pol qu_v pI u a p = Err e -> e = KeyError).
  { intros u a p e. unfold auto_of. destruct (if in_dec _ _ _ then _ else _); [|congruence]. cbv zeta. destruct (in_dec _ _ _); congruence. }
  assert (OE : forall par u sig k g e g1, obl par u sig k g = (Err e, g1) -> e = KeyError).
  { intros par u sig [[a b] p] g e g1. unfold one_bl. destruct (auto_of _ _ _ _ u a p) as [x|ea] eqn:E1; cbn [bind]; [|intro H; injection H as <- <-; apply (AE _ _ _ _ E1)].
    destruct (auto_of _ _ _ _ u b p) as [y|eb] eqn:E2; cbn [bind]; [|intro H; injection H as <- <-; apply (AE _ _ _ _ E2)].
    destruct (sky_noise_jy_autos _ _ _ _ _ _ _ _ _ _ _ _). destruct (match sig with Some _ => _ | None => _ end). discriminate. }
  assert (LE : forall par u sig ks g, (exists l, fst (sloop par u sig ks g) = Ok l) \/ fst (sloop par u sig ks g) = Err KeyError).
  { intros par u sig ks. induction ks as [|k ks IH]; intro g; cbn [sky_loop]; [left; exists []; reflexivity|]. destruct (obl par u sig k g) as [[v|e] g1] eqn:E.
    - destruct (IH g1) as [[l Q]|Q]; destruct (sloop par u sig ks g1) as [r g2]; cbn [fst] in *; subst r; [left; eexists; reflexivity|right; reflexivity].
    - right. cbn [fst]. rewrite (OE _ _ _ _ _ _ _ E). reflexivity. }
  intros par u g. split.
  - intro C. unfold sky_noise_sim. rewrite C. reflexivity.
  - intros a b p C I N M.
    destruct (fst (ssim par u g)) as [d|e] eqn:R0.
    + exfalso. destruct (ssim par u g) as [r g'] eqn:S. cbn [fst] in R0. subst r. unfold sky_noise_sim in S. rewrite C in S. destruct (read_autos pol_dec auto_pol qu_v pI u); [|discriminate].
      destruct (if p_per_bl par then _ else _) as [sig g1]. set (ks := filter _ _) in S. destruct (sloop par u sig ks _) as [[l|] g3] eqn:L; cbn [bind] in S; [|discriminate].
      destruct (sloop_spec _ _ _ _ _ _ _ L) as [Mm V]. assert (IK : In (a, b, p) ks). { apply filter_In. split; [exact I|]. cbn. destruct (Z.eqb_spec a b); [contradiction|reflexivity]. }
      rewrite <- Mm in IK. apply in_map_iff in IK. destruct IK as [[k v] [E1 E2]]. cbn [fst] in E1. subst k. destruct (V _ _ E2) as [h0 [h1 O]]. unfold one_bl in O.
      destruct (auto_of _ _ _ _ u a p) as [x|] eqn:Ax; cbn [bind] in O; [|discriminate]. destruct (auto_of _ _ _ _ u b p) as [y|] eqn:Ay; cbn [bind] in O; [|discriminate].
      apply auto_of_ok in Ax, Ay. apply M. repeat split; apply Ax || apply Ay.
    + f_equal. unfold sky_noise_sim in R0. rewrite C in R0. destruct (read_autos pol_dec auto_pol qu_v pI u) as [rr|er] eqn:RA.
      * destruct (if p_per_bl par then _ else _) as [sig g1]. set (ks := filter _ _) in R0. destruct (LE par u sig ks (match p_seed par with Some s => seedg s | None => entropy end)) as [[l Q]|Q];
          destruct (sloop par u sig ks _) as [r g3]; cbn [fst] in *; subst r; cbn [bind] in R0; [discriminate|]. congruence.
      * cbn [fst] in R0. injection R0 as <-. unfold read_autos in RA. revert RA. set (L := filter _ _). clearbody L. induction L as [|[[a0 b0] p0] L IH]; cbn [map_res]; [discriminate|].
        destruct (auto_of _ _ _ _ u a0 p0) eqn:E0; cbn [bind]; [|intro Q; injection Q as <-; apply (AE _ _ _ _ E0)]. destruct (map_res _ L); cbn [bind]; [discriminate|]. intro Q. injection Q as <-. apply IH. reflexivity.
Qed.
(** ... and nothing else is refused: it is enough that the two autocorrelations of every cross-correlation are there, and
    those of pI wherever a listed autocorrelation takes its values from them *)
Theorem sky_sim_accepts : forall (par : skypar Pol) (u : skyuv Pol) g, s_crosshand u = false ->
  (forall a p, In (a, a, p) (s_keys u) -> auto_pol p = true -> qu_v p = true -> In (a, a, pI) (s_keys u)) ->
  (forall a b p, In (a, b, p) (s_keys u) -> a <> b -> In (a, a, p) (s_keys u) /\ In (b, b, p) (s_keys u) /\ auto_pol p = true) ->
  exists d, fst (ssim par u g) = Ok d.
Proof.
  intros par u g C A X.
  assert (AO : forall a p, In (a, a, p) (s_keys u) -> auto_pol p = true -> exists x, auto_of pol_dec auto_pol qu_v pI u a p = Ok x).
  { intros a p I P. unfold auto_of. destruct (in_dec (key_dec pol_dec) (a, a, p) (s_keys u)) as [_|N]; [|contradiction]. rewrite P. cbv zeta.
    destruct (in_dec (key_dec pol_dec) (a, a, if qu_v p then pI else p) (s_keys u)) as [_|N]; [eauto|]. exfalso. apply N. destruct (qu_v p) eqn:Q; [apply (A a p I P Q)|exact I]. }
  assert (RA : exists rr, read_autos pol_dec auto_pol qu_v pI u = Ok rr).
  { unfold read_autos. set (L := filter _ _). assert (HL : forall k, In k L -> In k (s_keys u) /\ is_auto k = true /\ auto_pol (snd k) = true).
    { intros k Hk. apply filter_In in Hk. destruct Hk as [H1 H2]. apply andb_prop in H2. tauto. }
    clearbody L. induction L as [|[[a b] p] L IH]; cbn [map_res]; [eexists; reflexivity|].
    destruct (HL (a, b, p) (or_introl eq_refl)) as (H1 & H2 & H3). cbn in H2, H3. apply Z.eqb_eq in H2. subst b.
    destruct (AO a p H1 H3) as [x ->]. cbn [bind]. destruct IH as [rr ->]; [intros k Hk; apply HL; right; exact Hk|]. eexists; reflexivity. }
  destruct RA as [rr RA]. unfold sky_noise_sim. rewrite C, RA. destruct (if p_per_bl par then _ else _) as [sig g1].
  set (ks := filter _ _). assert (HK : forall k, In k ks -> In k (s_keys u) /\ is_auto k = false).
  { intros k Hk. apply filter_In in Hk. destruct Hk as [H1 H2]. split; [exact H1|]. apply negb_true_iff in H2. exact H2. }
  assert (LE : forall h, exists l, fst (sloop par u sig ks h) = Ok l).
  { clearbody ks. induction ks as [|[[a b] p] ks IH]; intros h; cbn [sky_loop]; [eexists; reflexivity|].
    destruct (HK (a, b, p) (or_introl eq_refl)) as (H1 & H2). cbn in H2. apply Z.eqb_neq in H2. destruct (X a b p H1 H2) as (I1 & I2 & P).
    destruct (AO a p I1 P) as [x Ex], (AO b p I2 P) as [y Ey]. unfold one_bl. rewrite Ex, Ey. cbn [bind].
    destruct (sky_noise_jy_autos _ _ _ _ _ _ _ _ _ _ _ _) as [n h1]. destruct (match sig with Some _ => _ | None => _ end) as [s h2].
    destruct (IH ltac:(intros k Hk; apply HK; right; exact Hk) h2) as [l El]. destruct (sloop par u sig ks h2) as [r h3]. cbn [fst] in *. subst r. cbn [bind]. eexists; reflexivity. }
  match goal with |- context [sloop par u sig ks ?h] => destruct (LE h) as [l El]; destruct (sloop par u sig ks h) as [r h3] end.
  cbn [fst] in *. subst r. cbn [bind]. eexists; reflexivity.
Qed.
End Sky.
Print Assumptions gauss_cov_shape.
Print Assumptions gauss_fg_rows.
Print Assumptions jy_radiometer.
Print Assumptions sky_sim_values.
Print Assumptions sky_sim_seed.
Print Assumptions sky_sim_refuses.
(** a generator whose state is a number that every draw returns *)
Definition kdraw (g : nat) (n : nat) : list R * nat := (repeat (INR g) n, g).
Definition kmvn (g : nat) (C : nat -> nat -> R) (nf n : nat) : list (list R) * nat := (repeat (repeat (INR g) nf) n, g).
Definition xsky : skyuv unit := mksky [(1, 1, tt); (2, 2, tt); (1, 2, tt)]%Z (fun _ _ _ => C1) (fun _ _ _ => 1) false.
Definition xpar (s : option Z) : skypar unit := mkpar 1 1 (fun _ _ => 1) (fun _ => 1) 1%nat 1%nat 1 1 1 1 true true s false.
Notation xsim := (sky_noise_sim (fun _ => 0%nat) 0%nat kdraw kmvn (fun a b : unit => match a, b with tt, tt => left eq_refl end) (fun _ => true) (fun _ => false) tt).
Lemma xsky_value g : exists d, fst (xsim (xpar (Some 1%Z)) xsky g) = Ok d /\ d (1, 2, tt)%Z 0%nat 0%nat = Some (mkC (0 / sqrt 2 * jy_rms 1 1 (sqrt (1 * 1)) 1 1 1 1 0 + INR g) (0 / sqrt 2 * jy_rms 1 1 (sqrt (1 * 1)) 1 1 1 1 0 + INR g)).
Proof.
  eexists. split; [reflexivity|]. cbn. unfold rsqrt. destruct (Rle_dec 0 (1 * 1)) as [_|C]; [|exfalso; apply C; lra]. reflexivity.
Qed.
Theorem sky_seed_refuted :
  ~ (forall (par : skypar unit) s g g', p_seed par = Some s -> fst (xsim par xsky g) = fst (xsim par xsky g')).
Proof.
  intro H. specialize (H (xpar (Some 1%Z)) 1%Z 0%nat 1%nat eq_refl). destruct (xsky_value 0) as [d0 [E0 V0]]. destruct (xsky_value 1) as [d1 [E1 V1]].
  rewrite E0, E1 in H. injection H as H. rewrite H in V0. rewrite V0 in V1. apply (f_equal (fun o => match o with Some c => re c | None => 0 end)) in V1. cbn [re INR] in V1. lra.
Qed.
Print Assumptions sky_seed_refuted.

(** ** C315: the baseline-pairs of uvpspec_from_data *)
Section From.
Context {A : Type} (eqb : A -> A -> bool) (eqb_ok : forall a b, eqb a b = true <-> a = b).
Definition as_groups (gs : list (list A)) : blarg A := AGroup (map (fun g => AGroup (map ATuple g)) gs).
Lemma tuples_map g : tuples (map (@ATuple A) g) = Ok g.
Proof. unfold tuples. induction g as [|x g IH]; [reflexivity|]. cbn [map map_res bind]. rewrite IH. reflexivity. Qed.
Theorem from_data_pairs : forall gs, gs <> [] -> Forall (fun g => g <> [] /\ NoDup g) gs ->
  exists b1 b2, from_data_bls eqb (as_groups gs) = Ok (b1, b2) /\ length b1 = length b2 /\
    forall a b, In (a, b) (combine b1 b2) <-> exists g, In g gs /\ before a b g.
Proof.
  intros gs N F.
  assert (P : exists pss, map_res (fun g => bind (tuples (group_items g)) (fun bls => construct_blpairs eqb bls true false true)) (map (fun g => AGroup (map ATuple g)) gs) =
     Ok (map (fun ps : list (A * A) => (map fst ps, map snd ps, ps)) pss) /\ Forall2 (fun g ps => forall a b, In (a, b) ps <-> before a b g) gs pss).
  { clear N. induction F as [|g gs [G1 G2] F IH]; [exists []; split; [reflexivity|constructor]|]. destruct IH as [pss [E Q]].
    destruct (C24_pairs A eqb eqb_ok g true false true G1 eq_refl G2) as [ps [E1 [_ S]]]. exists (ps :: pss). split.
    - cbn [map map_res group_items]. rewrite tuples_map. cbn [bind]. rewrite E1. cbn [bind]. rewrite E. reflexivity.
    - constructor; [|exact Q]. intros a b. rewrite (S a b). split.
      + intros [_ [_ [C [_ D]]]]. destruct (D eq_refl) as [->|B]; [exfalso; apply (C eq_refl); reflexivity|exact B].
      + intros B. destruct B as [x [y [z B]]]. repeat split.
        * rewrite B. apply in_or_app. right; left; reflexivity.
        * rewrite B. apply in_or_app. right; right. apply in_or_app. right; left; reflexivity.
        * intros _ ->. rewrite B in G2. apply NoDup_remove_2 in G2. apply G2. apply in_or_app. right. apply in_or_app. right; left; reflexivity.
        * discriminate.
        * intros _. right. exists x, y, z. exact B. }
  destruct P as [pss [E Q]]. exists (concat (map (map fst) pss)), (concat (map (map snd) pss)). split.
  - destruct gs as [|g gs]; [congruence|]. unfold from_data_bls, as_groups. cbn [map is_group]. unfold require.
    assert (forallb is_group (AGroup (map ATuple g) :: map (fun g0 => AGroup (map (@ATuple A) g0)) gs) = true) as ->.
    { apply forallb_forall. intros x Hx. destruct Hx as [<-|Hx]; [reflexivity|]. apply in_map_iff in Hx. destruct Hx as [g0 [<- _]]. reflexivity. }
    assert (FT : forall l : list (list A), Forall (fun g => g <> [] /\ NoDup g) l -> map_res first_tuple (map (fun g => AGroup (map (@ATuple A) g)) l) = Ok (map (fun _ => true) l)).
    { induction 1 as [|h l [H1 _] F' IH]; [reflexivity|]. cbn [map map_res]. rewrite IH. destruct h; [congruence|reflexivity]. }
    change (AGroup (map ATuple g) :: map (fun g0 => AGroup (map (@ATuple A) g0)) gs) with (map (fun g0 => AGroup (map (@ATuple A) g0)) (g :: gs)). rewrite (FT _ F). cbn [bind].
    assert (forallb (fun b : bool => b) (map (fun _ : list A => true) (g :: gs)) = true) as ->. { apply forallb_forall. intros x Hx. apply in_map_iff in Hx. destruct Hx as [? [<- _]]. reflexivity. }
    rewrite E. cbn [bind]. rewrite !map_map. cbn [fst snd]. reflexivity.
  - split; [rewrite !concat_length || idtac; clear; induction pss as [|ps pss IH]; [reflexivity|]; cbn; rewrite !app_length, IH, !map_length; reflexivity|].
    intros a b. assert (CC : combine (concat (map (map fst) pss)) (concat (map (map snd) pss)) = concat pss).
    { clear. induction pss as [|ps pss IH]; [reflexivity|]. cbn [map concat]. rewrite <- IH. clear. induction ps as [|[x y] ps IH]; [reflexivity|]. cbn. rewrite IH. reflexivity. }
    rewrite CC. clear -Q. induction Q as [|g ps gs pss H Q IH]; cbn [concat].
    + split; [intros []|intros [g [[] _]]].
    + rewrite in_app_iff, IH, (H a b). split.
      * intros [B|[h [I B]]]; [exists g; split; [left; reflexivity|exact B]|exists h; split; [right; exact I|exact B]].
      * intros [h [[<-|I] B]]; [left; exact B|right; exists h; auto].
Qed.
(** a plain list of baselines is one group; anything that is not a list, and an empty list, is refused *)
Theorem from_data_flat : forall g, g <> [] -> from_data_bls eqb (AGroup (map ATuple g)) = from_data_bls eqb (as_groups [g]).
Proof. intros g N. destruct g; [congruence|reflexivity]. Qed.
Theorem from_data_refuses : forall b, from_data_bls eqb (ATuple b) = Err AssertionError /\ from_data_bls eqb (@AOther A) = Err AssertionError /\ from_data_bls eqb (@AGroup A []) = Err IndexError /\
  (forall g, from_data_bls eqb (AGroup [AGroup (map ATuple g); ATuple b]) = Err AssertionError) /\
  (forall x l, (forall a, x <> ATuple a) -> from_data_bls eqb (AGroup [AGroup (x :: l)]) = Err AssertionError) /\
  (forall l, from_data_bls eqb (AGroup (AOther :: l)) = Err AssertionError).
Proof. intro b. split; [reflexivity|]. split; [reflexivity|]. split; [reflexivity|]. split; [reflexivity|]. split; [|reflexivity]. intros x l H. destruct x as [g|a|]; [reflexivity|destruct (H a eq_refl)|reflexivity]. Qed.
End From.
Print Assumptions from_data_pairs.
Print Assumptions from_data_flat.
Print Assumptions from_data_refuses.
Example ex_from_data : from_data_bls Z.eqb (AGroup [AGroup [ATuple 1; ATuple 2; ATuple 3]; AGroup [ATuple 7; ATuple 8]])%Z = Ok ([1; 1; 2; 7], [2; 3; 3; 8])%Z.
Proof. reflexivity. Qed.
