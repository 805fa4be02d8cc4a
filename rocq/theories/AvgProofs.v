From Coq Require Import Reals Lra QArith Permutation.
From Verif Require Import PyDict.
From Verif Require Import Prelude ListLemmas UvpModel UvpSpec UvpProofs KeyProofs LengthProofs AvgModel.
Open Scope nat_scope.

Lemma tiny_pos : (0 < tiny)%R.
Proof. unfold tiny. apply Rinv_0_lt_compat. apply IZR_lt. reflexivity. Qed.
Lemma clip_pos x : (0 < clip x)%R.
Proof. unfold clip. pose proof tiny_pos. pose proof (Rmax_l tiny x). lra. Qed.
Lemma clip_id x : (tiny <= x)%R -> clip x = x.
Proof. intro H. unfold clip. apply Rmax_right. exact H. Qed.

(** * sums *)
Lemma Rsum_app l1 l2 : Rsum (l1 ++ l2) = (Rsum l1 + Rsum l2)%R.
Proof. induction l1 as [|x l IH]; cbn [Rsum app]; [ring | rewrite IH; ring]. Qed.
Lemma Rsum_concat ls : Rsum (concat ls) = Rsum (map Rsum ls).
Proof. induction ls as [|l ls IH]; [reflexivity|]. cbn [concat map Rsum]. rewrite Rsum_app, IH. reflexivity. Qed.
Lemma Rsum_perm l1 l2 : Permutation l1 l2 -> Rsum l1 = Rsum l2.
Proof. induction 1; cbn [Rsum]; lra. Qed.
Lemma Rsum_scale c l : Rsum (map (fun x => (c * x)%R) l) = (c * Rsum l)%R.
Proof. induction l as [|x l IH]; cbn [map Rsum]; [ring | rewrite IH; ring]. Qed.
Lemma Rsum_nonneg l : Forall (fun x => (0 <= x)%R) l -> (0 <= Rsum l)%R.
Proof. induction 1 as [|x l H F IH]; cbn [Rsum]; lra. Qed.
Lemma Rsum_zero l : Forall (fun x => x = 0%R) l -> Rsum l = 0%R.
Proof. induction 1 as [|x l H F IH]; cbn [Rsum]; [reflexivity | subst; lra]. Qed.

(** * broadcasting *)
Definition fits (N : nat) (row : list R) : Prop := length row = 1 \/ length row = N.

Lemma bc_nth N row d : length row = N -> d < N -> bc row d = nth d row 0%R.
Proof. intros L H. destruct row as [|x [|y row]]; cbn in *; try reflexivity. subst. destruct d; [reflexivity|lia]. Qed.
Lemma bc_single row d : length row = 1 -> bc row d = nth 0 row 0%R.
Proof. destruct row as [|x [|y row]]; cbn; intro; try lia. reflexivity. Qed.

Lemma bc_map N f row d : fits N row -> d < N -> bc (map f row) d = f (bc row d).
Proof.
  intros F H. destruct row as [|x [|y row]]; cbn [map bc].
  - destruct F as [F|F]; cbn in F; lia.
  - reflexivity.
  - destruct F as [F|F]; [cbn in F; lia|]. rewrite <- F in H.
    change (f x :: f y :: map f row) with (map f (x :: y :: row)).
    rewrite (nth_indep _ 0%R (f 0%R)) by (rewrite map_length; exact H). apply map_nth.
Qed.

Lemma bop_length f a b : length (bop f a b) = bwidth a b.
Proof. unfold bop. rewrite map_length, seq_length. reflexivity. Qed.
Lemma bwidth_fits N a b : fits N a -> fits N b -> bwidth a b = 1 \/ bwidth a b = N.
Proof. unfold bwidth, fits. destruct (Nat.eqb_spec (length a) 1); intuition. Qed.
Lemma bop_fits N f a b : fits N a -> fits N b -> fits N (bop f a b).
Proof. intros. unfold fits. rewrite bop_length. apply bwidth_fits; assumption. Qed.
Lemma bop_full N f a b : length a = N -> fits N b -> length (bop f a b) = N.
Proof. intros. rewrite bop_length. unfold bwidth. destruct (Nat.eqb_spec (length a) 1); [|assumption]. destruct H0; lia. Qed.

Lemma bc_bop N f a b d : fits N a -> fits N b -> d < N -> bc (bop f a b) d = f (bc a d) (bc b d).
Proof.
  intros Fa Fb H. destruct (Nat.eq_dec (bwidth a b) 1) as [E|E].
  - rewrite bc_single by (rewrite bop_length; exact E). unfold bop. rewrite E. cbn [seq map nth].
    unfold bwidth in E. destruct (Nat.eqb_spec (length a) 1) as [La|La].
    + rewrite !(bc_single a) by assumption. rewrite !(bc_single b) by assumption. reflexivity.
    + contradiction.
  - destruct (bwidth_fits N a b Fa Fb) as [E'|E']; [contradiction|].
    rewrite (bc_nth N) by (rewrite ?bop_length; assumption). unfold bop. rewrite E'.
    rewrite (nth_indep _ 0%R (f (bc a 0) (bc b 0))) by (rewrite map_length, seq_length; exact H).
    rewrite (map_nth (fun d => f (bc a d) (bc b d)) (seq 0 N) 0 d). rewrite seq_nth by exact H. reflexivity.
Qed.

Lemma colsum_length rows L : rows <> [] -> Forall (fun r => length r = L) rows -> length (colsum rows) = L.
Proof.
  intros Hne F. unfold colsum. rewrite map_length, seq_length.
  destruct rows as [|r rows]; [congruence|]. inversion F; subst; reflexivity.
Qed.

Lemma bc_colsum N L rows d : rows <> [] -> Forall (fun r => length r = L) rows -> L = 1 \/ L = N -> d < N ->
  bc (colsum rows) d = Rsum (map (fun r => bc r d) rows).
Proof.
  intros Hne F HL H. pose proof (colsum_length rows L Hne F) as CL.
  assert (Hd : forall i, i < L -> nth i (colsum rows) 0%R = Rsum (map (fun r => nth i r 0%R) rows)).
  { intros i Hi. unfold colsum.
    rewrite (nth_indep _ 0%R ((fun d => Rsum (map (fun r => nth d r 0%R) rows)) 0))
      by (rewrite map_length, seq_length; unfold colsum in CL; rewrite map_length, seq_length in CL; lia).
    rewrite (map_nth (fun d => Rsum (map (fun r => nth d r 0%R) rows))).
    rewrite seq_nth; [reflexivity|]. unfold colsum in CL; rewrite map_length, seq_length in CL; lia. }
  destruct (Nat.eq_dec L 1) as [-> | N1].
  - rewrite bc_single by exact CL. rewrite Hd by lia. f_equal. apply map_ext_in. intros r Hr.
    rewrite Forall_forall in F. rewrite bc_single by (apply F; exact Hr). reflexivity.
  - destruct HL as [?| ->]; [contradiction|]. rewrite (bc_nth N) by assumption. rewrite Hd by exact H.
    f_equal. apply map_ext_in. intros r Hr. rewrite Forall_forall in F.
    rewrite (bc_nth N) by (try apply F; assumption). reflexivity.
Qed.

(** * the weighted mean: specification *)
Definition wsum (l : list (R * R)) : R := Rsum (map snd l).
Definition xsum (l : list (R * R)) : R := Rsum (map (fun p => (fst p * snd p)%R) l).
Definition wmean (l : list (R * R)) : R := (xsum l / wsum l)%R.

Lemma wsum_app a b : wsum (a ++ b) = (wsum a + wsum b)%R.
Proof. unfold wsum. rewrite map_app. apply Rsum_app. Qed.
Lemma xsum_app a b : xsum (a ++ b) = (xsum a + xsum b)%R.
Proof. unfold xsum. rewrite map_app. apply Rsum_app. Qed.
Lemma wsum_concat ls : wsum (concat ls) = Rsum (map wsum ls).
Proof. induction ls as [|l ls IH]; [reflexivity|]. cbn [concat map Rsum]. rewrite wsum_app, IH. reflexivity. Qed.
Lemma xsum_concat ls : xsum (concat ls) = Rsum (map xsum ls).
Proof. induction ls as [|l ls IH]; [reflexivity|]. cbn [concat map Rsum]. rewrite xsum_app, IH. reflexivity. Qed.
Lemma wmean_perm a b : Permutation a b -> wmean a = wmean b.
Proof.
  intro H. unfold wmean, xsum, wsum.
  rewrite (Rsum_perm _ _ (Permutation_map (fun p => (fst p * snd p)%R) H)).
  rewrite (Rsum_perm _ _ (Permutation_map snd H)). reflexivity.
Qed.

Lemma wmean_bounds l lo hi : Forall (fun p => (0 <= snd p)%R) l -> (0 < wsum l)%R ->
  Forall (fun p => (0 < snd p)%R -> (lo <= fst p <= hi)%R) l -> (lo <= wmean l <= hi)%R.
Proof.
  intros F0 Hp F.
  assert (B : (lo * wsum l <= xsum l <= hi * wsum l)%R).
  { clear Hp. unfold wsum, xsum. induction l as [|[x w] l IH]; cbn [map Rsum fst snd]; [lra|].
    inversion F0; subst. inversion F; subst. cbn [fst snd] in *. specialize (IH H2 H4).
    destruct (Req_dec w 0) as [->|Hw]; [lra|]. assert (0 < w)%R by lra. specialize (H3 H).
    nra. }
  unfold wmean. split.
  - apply Rmult_le_reg_r with (wsum l); [exact Hp|]. unfold Rdiv. rewrite Rmult_assoc, Rinv_l by lra. lra.
  - apply Rmult_le_reg_r with (wsum l); [exact Hp|]. unfold Rdiv. rewrite Rmult_assoc, Rinv_l by lra. lra.
Qed.

(** * shapes *)
Record shape (N L T : nat) (b : block) : Prop := {
  sh_L : L = 1 \/ L = N;
  sh_T : length (b_data b) = T;
  sh_Tw : length (b_w b) = T;
  sh_Ti : length (b_ints b) = T;
  sh_Tn : length (b_nsmp b) = T;
  sh_data : Forall (fun r => length r = N) (b_data b);
  sh_w : Forall (fun r => length r = L) (b_w b);
  sh_ints : Forall (fun r => length r = 1 \/ length r = L) (b_ints b);
  sh_nsmp : Forall (fun r => length r = 1) (b_nsmp b) }.

Lemma map2_length {A B C} (f : A -> B -> C) a b : length (map2 f a b) = Nat.min (length a) (length b).
Proof. revert b; induction a as [|x a IH]; intros [|y b]; cbn; auto. Qed.
Lemma map2_Forall {A B C} (f : A -> B -> C) (P : A -> Prop) (Q : B -> Prop) (S : C -> Prop) a b :
  Forall P a -> Forall Q b -> (forall x y, P x -> Q y -> S (f x y)) -> Forall S (map2 f a b).
Proof.
  intros Ha Hb H. revert b Hb. induction Ha as [|x a Hx Ha IH]; intros [|y b] Hb; cbn; constructor.
  - inversion Hb; auto.
  - apply IH. inversion Hb; auto.
Qed.
Lemma map2_map_l {A B C D} (g : C -> D) (f : A -> B -> C) a b : map g (map2 f a b) = map2 (fun x y => g (f x y)) a b.
Proof. revert b; induction a as [|x a IH]; intros [|y b]; cbn; auto. f_equal. apply IH. Qed.
Lemma map2_ext_in {A B C} (f g : A -> B -> C) (P : A -> Prop) (Q : B -> Prop) a b :
  Forall P a -> Forall Q b -> (forall x y, P x -> Q y -> f x y = g x y) -> map2 f a b = map2 g a b.
Proof.
  intros Ha Hb H. revert b Hb. induction Ha as [|x a Hx Ha IH]; intros [|y b] Hb; cbn; auto.
  inversion Hb; subst. f_equal; auto.
Qed.
Lemma fits_of_len N L r : L = 1 \/ L = N -> length r = L -> fits N r.
Proof. unfold fits. intros [->| ->]; auto. Qed.
Lemma nth_Forall {A} (P : A -> Prop) l i d : Forall P l -> i < length l -> P (nth i l d).
Proof. intros F H. rewrite Forall_forall in F. apply F, nth_In, H. Qed.

(** contributions of one baseline-pair to bin [d] of output row [r]: all its integrations when
    averaging over time, else its [r]-th *)
Definition terms (time_avg : bool) (f : block -> list (list R)) (b : block) (r d : nat) : list (R * R) :=
  if time_avg then map2 (fun x w => (bc x d, bc w d)) (f b) (b_w b)
  else [(bc (nth r (f b) []) d, bc (nth r (b_w b) []) d)].

(** either enough weight for the 1e-40 clip not to matter, or none at all *)
Definition weighted (l : list (R * R)) : Prop := (tiny <= wsum l)%R \/ Forall (fun p => snd p = 0%R) l.

Lemma weighted_zero l : Forall (fun p => snd p = 0%R) l -> xsum l = 0%R /\ wsum l = 0%R.
Proof.
  intro F. split; apply Rsum_zero; apply Forall_forall; intros x Hx; apply in_map_iff in Hx;
    destruct Hx as [p [<- Hp]]; rewrite Forall_forall in F; rewrite (F p Hp); ring.
Qed.

(** the two averaged fields, with the width [M] of their products with the weights *)
Definition rowfun (N L : nat) (f : block -> list (list R)) (M : nat) : Prop :=
  (f = b_data /\ M = N) \/ (f = b_ints /\ M = L).

Section Shape.
Variables (N L T : nat) (f : block -> list (list R)) (M : nat).
Hypothesis Hf : rowfun N L f M.
Hypothesis HL : L = 1 \/ L = N.

Lemma rowfun_T b : shape N L T b -> length (f b) = T.
Proof. intro S. destruct Hf as [[-> _] | [-> _]]; apply S. Qed.
Lemma rowfun_M : M = 1 \/ M = N.
Proof. destruct Hf as [[_ ->] | [_ ->]]; auto. Qed.
Lemma rowfun_rows b : shape N L T b ->
  Forall (fun r => fits N r /\ forall w, length w = L -> length (bmul r w) = M) (f b).
Proof.
  intro S. destruct Hf as [[-> ->] | [-> ->]].
  - eapply Forall_impl; [|apply (sh_data _ _ _ _ S)]. cbn. intros r Hr. split; [right; exact Hr|].
    intros w Hw. apply bop_full; [exact Hr | eapply fits_of_len; [exact HL | exact Hw]].
  - eapply Forall_impl; [|apply (sh_ints _ _ _ _ S)]. cbn. intros r Hr. split.
    + destruct Hr as [Hr|Hr]; [left; exact Hr | eapply fits_of_len; [exact HL | exact Hr]].
    + intros w Hw. unfold bmul. rewrite bop_length. unfold bwidth.
      destruct (Nat.eqb_spec (length r) 1); [exact Hw|]. destruct Hr; [contradiction|assumption].
Qed.
Lemma w_nonempty b : shape N L T b -> 1 <= T -> b_w b <> [].
Proof using. clear HL Hf. intros S HT E. pose proof (sh_Tw _ _ _ _ S) as E'. rewrite E in E'. cbn in E'. lia. Qed.

Lemma prod_nonempty b : shape N L T b -> 1 <= T -> map2 bmul (f b) (b_w b) <> [].
Proof using Hf. clear HL.
  intros S HT E. apply (f_equal (@length _)) in E. rewrite map2_length, (rowfun_T b S), (sh_Tw _ _ _ _ S) in E.
  cbn in E. lia.
Qed.
Lemma prod_width b : shape N L T b -> Forall (fun r => length r = M) (map2 bmul (f b) (b_w b)).
Proof.
  intro S. eapply map2_Forall; [apply (rowfun_rows b S) | apply (sh_w _ _ _ _ S)|].
  cbn. intros x w [_ Hx] Hw. apply Hx, Hw.
Qed.

Lemma time_sum b d : shape N L T b -> 1 <= T -> d < N ->
  bc (colsum (map2 bmul (f b) (b_w b))) d = xsum (terms true f b 0 d).
Proof.
  intros S HT Hd.
  rewrite (bc_colsum N M); [|apply prod_nonempty; assumption|apply prod_width; exact S|exact rowfun_M|exact Hd].
  unfold xsum, terms. rewrite !map2_map_l. cbn [fst snd]. f_equal.
  eapply map2_ext_in; [apply (rowfun_rows b S) | apply (sh_w _ _ _ _ S)|]. cbn. intros x w [Hx _] Hw.
  unfold bmul. apply (bc_bop N); [exact Hx | eapply fits_of_len; [exact HL | exact Hw] | exact Hd].
Qed.

Lemma time_wsum b d : shape N L T b -> 1 <= T -> d < N ->
  bc (colsum (b_w b)) d = wsum (terms true f b 0 d).
Proof.
  intros S HT Hd. rewrite (bc_colsum N L); [|apply w_nonempty; assumption | apply S | exact HL | exact Hd].
  unfold wsum, terms. rewrite map2_map_l. cbn [snd]. f_equal.
  assert (El : length (f b) = length (b_w b)) by (rewrite (rowfun_T b S); symmetry; apply S).
  revert El. generalize (f b) (b_w b). intros l1; induction l1 as [|x l1 IH]; intros [|y l2] El; cbn in *; try discriminate; auto.
  f_equal. apply IH. lia.
Qed.
End Shape.

Lemma colsum_fits N L rows : rows <> [] -> Forall (fun r => length r = L) rows -> L = 1 \/ L = N -> fits N (colsum rows).
Proof. intros H1 H2 H3. unfold fits. rewrite (colsum_length rows L H1 H2). tauto. Qed.

Lemma time_average_shape N L T b : shape N L T b -> 1 <= T -> shape N L 1 (time_average b).
Proof.
  intros S HT. pose proof (sh_L _ _ _ _ S) as HL.
  pose proof (w_nonempty N L T b S HT) as Wne.
  assert (WL : length (map clip (colsum (b_w b))) = L)
    by (rewrite map_length; apply colsum_length; [exact Wne | apply S]).
  assert (RD : rowfun N L b_data N) by (left; auto). assert (RI : rowfun N L b_ints L) by (right; auto).
  constructor; cbn; try reflexivity.
  - exact HL.
  - constructor; [|constructor]. apply bop_full; [|eapply fits_of_len; [exact HL | exact WL]].
    apply colsum_length; [apply (prod_nonempty N L T b_data N RD b S HT) | apply (prod_width N L T b_data N RD HL b S)].
  - constructor; [|constructor]. apply colsum_length; [exact Wne | apply S].
  - constructor; [|constructor]. right. unfold bdiv. rewrite bop_length. unfold bwidth.
    rewrite (colsum_length _ L); [|apply (prod_nonempty N L T b_ints L RI b S HT) | apply (prod_width N L T b_ints L RI HL b S)].
    destruct (Nat.eqb_spec L 1); [rewrite WL; reflexivity | reflexivity].
  - constructor; [|constructor]. apply colsum_length; [|apply S].
    intro E. pose proof (sh_Tn _ _ _ _ S) as E'. rewrite E in E'. cbn in E'. lia.
Qed.

(** a block as used in the group mean *)
Definition prepared (time_avg : bool) (b : block) : block := if time_avg then time_average b else b.
Definition out_rows (time_avg : bool) (T : nat) : nat := if time_avg then 1 else T.

Lemma prepared_shape ta N L T b : shape N L T b -> 1 <= T -> shape N L (out_rows ta T) (prepared ta b).
Proof. intros S HT. destruct ta; cbn; [apply time_average_shape with T; assumption | exact S]. Qed.

Lemma prepared_terms ta N L T f M b r d : rowfun N L f M -> shape N L T b -> 1 <= T -> d < N -> r < out_rows ta T ->
  weighted (terms ta f b r d) ->
  (bc (nth r (f (prepared ta b)) []) d * bc (nth r (b_w (prepared ta b)) []) d)%R = xsum (terms ta f b r d) /\
  bc (nth r (b_w (prepared ta b)) []) d = wsum (terms ta f b r d).
Proof.
  intros Hf S HT Hd Hr HW. pose proof (sh_L _ _ _ _ S) as HL. destruct ta; cbn [prepared out_rows] in *.
  - assert (r = 0) by lia. subst r.
    pose proof (w_nonempty N L T b S HT) as Wne.
    assert (EW : bc (nth 0 (b_w (time_average b)) []) d = wsum (terms true f b 0 d))
      by (cbn; apply (time_wsum N L T f M Hf HL); assumption).
    split; [|exact EW]. rewrite EW.
    assert (EX : bc (nth 0 (f (time_average b)) []) d = (xsum (terms true f b 0 d) / clip (wsum (terms true f b 0 d)))%R).
    { rewrite <- (time_sum N L T f M Hf HL b d S HT Hd), <- (time_wsum N L T f M Hf HL b d S HT Hd).
      assert (G : nth 0 (f (time_average b)) [] = bdiv (colsum (map2 bmul (f b) (b_w b))) (map clip (colsum (b_w b))))
        by (destruct Hf as [[-> _] | [-> _]]; reflexivity).
      rewrite G. unfold bdiv. rewrite (bc_bop N).
      - f_equal. apply (bc_map N); [|exact Hd]. apply (colsum_fits N L); [exact Wne | apply S | apply S].
      - apply (colsum_fits N M); [apply (prod_nonempty N L T f M Hf b S HT) | apply (prod_width N L T f M Hf HL b S)
          | apply (rowfun_M N L f M Hf HL)].
      - unfold fits. rewrite map_length. apply (colsum_fits N L); [exact Wne | apply S | apply S].
      - exact Hd. }
    rewrite EX. destruct HW as [HW|HW].
    + rewrite clip_id by exact HW. field. pose proof tiny_pos. lra.
    + destruct (weighted_zero _ HW) as [-> ->]. unfold Rdiv. ring.
  - unfold terms, xsum, wsum. cbn. split; ring.
Qed.

(** * the group mean *)
Lemma nth_map_seq {B} (g : nat -> B) n i d0 : i < n -> nth i (map g (seq 0 n)) d0 = g i.
Proof.
  intro H. rewrite (nth_indep _ d0 (g 0)) by (rewrite map_length, seq_length; exact H).
  rewrite map_nth, seq_nth by exact H. reflexivity.
Qed.

Lemma group_mean_spec N L T cs : cs <> [] -> Forall (shape N L T) cs ->
  exists b, group_mean cs = Ok b /\ shape N L T b /\
    (forall f M r d, rowfun N L f M -> r < T -> d < N ->
      bc (nth r (f b) []) d =
      (Rsum (map (fun c => bc (nth r (f c) []) d * bc (nth r (b_w c) []) d)%R cs) /
       clip (Rsum (map (fun c => bc (nth r (b_w c) []) d) cs)))%R) /\
    (forall r, r < T -> bc (nth r (b_nsmp b) []) 0 = Rsum (map (fun c => bc (nth r (b_nsmp c) []) 0) cs)).
Proof.
  intros Hne F. destruct cs as [|c cs]; [congruence|]. set (cl := c :: cs) in *.
  pose proof (Forall_inv F) as Sc. rewrite Forall_forall in F.
  unfold group_mean. unfold cl at 1. fold cl.
  assert (Hreq : forallb (fun b => Nat.eqb (length (b_data b)) (length (b_data c))) cl = true).
  { apply forallb_forall. intros x Hx. pose proof (F x Hx) as Sx.
    apply Nat.eqb_eq. rewrite (sh_T _ _ _ _ Sc), (sh_T _ _ _ _ Sx). reflexivity. }
  rewrite Hreq. cbn [require]. rewrite (sh_T _ _ _ _ Sc).
  pose proof (sh_L _ _ _ _ Sc) as HL.
  assert (HW : forall r, r < T -> Forall (fun x => length x = L) (map (fun b => nth r (b_w b) []) cl)).
  { intros r Hr. apply Forall_forall. intros x Hx. apply in_map_iff in Hx. destruct Hx as [b [<- Hb]].
    pose proof (F b Hb) as Sb.
    apply (nth_Forall (fun x => length x = L)); [apply Sb | rewrite (sh_Tw _ _ _ _ Sb); exact Hr]. }
  assert (HWne : forall r, map (fun b => nth r (b_w b) []) cl <> []) by (intros; discriminate).
  assert (HWl : forall r, r < T -> length (map clip (colsum (map (fun b => nth r (b_w b) []) cl))) = L).
  { intros r Hr. rewrite map_length. apply colsum_length; [apply HWne | apply HW, Hr]. }
  assert (HP : forall f M r, rowfun N L f M -> r < T ->
             Forall (fun x => length x = M) (map (fun c0 => bmul (nth r (f c0) []) (nth r (b_w c0) [])) cl)).
  { intros f M r Hf Hr. apply Forall_forall. intros x Hx. apply in_map_iff in Hx. destruct Hx as [b [<- Hb]].
    pose proof (F b Hb) as Sb. pose proof (rowfun_rows N L T f M Hf HL b Sb) as FR.
    assert (P := nth_Forall _ (f b) r [] FR). cbn in P. destruct P as [_ P]; [rewrite (rowfun_T N L T f M Hf b Sb); exact Hr|].
    apply P. apply (nth_Forall (fun x => length x = L)); [apply Sb | rewrite (sh_Tw _ _ _ _ Sb); exact Hr]. }
  assert (Hsum : forall f M r d, rowfun N L f M -> r < T -> d < N ->
     bc (sum_row f cl r) d = Rsum (map (fun c0 => bc (nth r (f c0) []) d * bc (nth r (b_w c0) []) d)%R cl)).
  { intros f M r d Hf Hr Hd. unfold sum_row.
    rewrite (bc_colsum N M); [|discriminate | apply HP; assumption | apply (rowfun_M N L f M Hf HL) | exact Hd].
    rewrite map_map. f_equal. apply map_ext_in. intros b Hb. pose proof (F b Hb) as Sb. unfold bmul.
    apply (bc_bop N); [| |exact Hd].
    - pose proof (rowfun_rows N L T f M Hf HL b Sb) as FR. assert (P := nth_Forall _ (f b) r [] FR). cbn in P.
      apply P. rewrite (rowfun_T N L T f M Hf b Sb); exact Hr.
    - eapply fits_of_len; [exact HL|]. apply (nth_Forall (fun x => length x = L)); [apply Sb | rewrite (sh_Tw _ _ _ _ Sb); exact Hr]. }
  assert (Hw : forall r d, r < T -> d < N -> bc (map clip (colsum (map (fun b => nth r (b_w b) []) cl))) d =
     clip (Rsum (map (fun c0 => bc (nth r (b_w c0) []) d) cl))).
  { intros r d Hr Hd. rewrite (bc_map N); [|apply (colsum_fits N L); [apply HWne | apply HW, Hr | exact HL] | exact Hd].
    f_equal. rewrite (bc_colsum N L); [|apply HWne | apply HW, Hr | exact HL | exact Hd]. rewrite map_map. reflexivity. }
  assert (HN : forall r, r < T -> Forall (fun x => length x = 1) (map (fun b => nth r (b_nsmp b) []) cl)).
  { intros r Hr. apply Forall_forall. intros x Hx. apply in_map_iff in Hx. destruct Hx as [b [<- Hb]].
    pose proof (F b Hb) as Sb.
    apply (nth_Forall (fun x => length x = 1)); [apply Sb | rewrite (sh_Tn _ _ _ _ Sb); exact Hr]. }
  assert (RD : rowfun N L b_data N) by (left; auto). assert (RI : rowfun N L b_ints L) by (right; auto).
  eexists. split; [reflexivity|]. split; [|split].
  - constructor; cbn [b_data b_w b_ints b_nsmp]; rewrite ?map_length, ?seq_length; try reflexivity.
    + exact HL.
    + apply Forall_forall. intros x Hx. apply in_map_iff in Hx. destruct Hx as [r [<- Hr]]. apply in_seq in Hr.
      apply bop_full; [|eapply fits_of_len; [exact HL | apply HWl; lia]].
      apply colsum_length; [discriminate | apply (HP b_data N r RD); lia].
    + apply Forall_forall. intros x Hx. apply in_map_iff in Hx. destruct Hx as [r [<- Hr]]. apply in_seq in Hr.
      apply colsum_length; [discriminate | apply HW; lia].
    + apply Forall_forall. intros x Hx. apply in_map_iff in Hx. destruct Hx as [r [<- Hr]]. apply in_seq in Hr.
      right. unfold bdiv. rewrite bop_length. unfold bwidth, sum_row.
      rewrite (colsum_length _ L); [|discriminate | apply (HP b_ints L r RI); lia].
      destruct (Nat.eqb_spec L 1); [apply HWl; lia | reflexivity].
    + apply Forall_forall. intros x Hx. apply in_map_iff in Hx. destruct Hx as [r [<- Hr]]. apply in_seq in Hr.
      apply colsum_length; [discriminate | apply HN; lia].
  - intros f M r d Hf Hr Hd. rewrite <- (Hsum f M r d Hf Hr Hd), <- (Hw r d Hr Hd).
    assert (G : nth r (f {|
              b_data := map (fun r0 => bdiv (sum_row b_data cl r0) (map clip (colsum (map (fun b => nth r0 (b_w b) []) cl)))) (seq 0 T);
              b_ints := map (fun r0 => bdiv (sum_row b_ints cl r0) (map clip (colsum (map (fun b => nth r0 (b_w b) []) cl)))) (seq 0 T);
              b_nsmp := map (fun r0 => colsum (map (fun b => nth r0 (b_nsmp b) []) cl)) (seq 0 T);
              b_w := map (fun r0 => colsum (map (fun b => nth r0 (b_w b) []) cl)) (seq 0 T) |}) [] =
              bdiv (sum_row f cl r) (map clip (colsum (map (fun b => nth r (b_w b) []) cl)))).
    { destruct Hf as [[-> _] | [-> _]]; cbn [b_data b_ints]; rewrite nth_map_seq by exact Hr; reflexivity. }
    rewrite G. unfold bdiv. apply (bc_bop N); [| |exact Hd].
    + unfold sum_row. apply (colsum_fits N M); [discriminate | apply HP; assumption | apply (rowfun_M N L f M Hf HL)].
    + eapply fits_of_len; [exact HL | apply HWl, Hr].
  - intros r Hr. cbn [b_nsmp]. rewrite nth_map_seq by exact Hr.
    rewrite (bc_colsum 1 1); [|discriminate | apply HN, Hr | auto | lia]. rewrite map_map. reflexivity.
Qed.

(** * one group *)
Definition group_terms (ta : bool) (f : block -> list (list R)) (cs : list block) (r d : nat) : list (R * R) :=
  concat (map (fun b => terms ta f b r d) cs).

Definition nsmp_total (ta : bool) (b : block) (r : nat) : R :=
  if ta then Rsum (map (fun x => bc x 0) (b_nsmp b)) else bc (nth r (b_nsmp b) []) 0.

Lemma map_repeat' {A B} (g : A -> B) x n : map g (repeat x n) = repeat (g x) n.
Proof. induction n; cbn; congruence. Qed.
Lemma expand_map {A B} (g : A -> B) l : expand (map (fun bw => (g (fst bw), snd bw)) l) = map g (expand l).
Proof.
  unfold expand. induction l as [|[b w] l IH]; [reflexivity|]. cbn [map flat_map fst snd].
  rewrite map_app, map_repeat', IH. reflexivity.
Qed.
Lemma expand_In {A} (l : list (A * R)) x : In x (expand l) -> In x (map fst l).
Proof.
  unfold expand. intro H. apply in_flat_map in H. destruct H as [[b w] [H1 H2]]. apply repeat_spec in H2. subst.
  apply in_map_iff. exists (b, w). auto.
Qed.

Theorem group_average_spec ta N L T cs :
  cs <> [] -> Forall (fun c => exists Tc, shape N L Tc c /\ 1 <= Tc /\ out_rows ta Tc = T) cs ->
  exists b, group_mean (map (prepared ta) cs) = Ok b /\ shape N L T b /\
    (forall f M r d, rowfun N L f M -> r < T -> d < N ->
       (forall c, In c cs -> weighted (terms ta f c r d)) ->
       (tiny <= wsum (group_terms ta f cs r d))%R ->
       bc (nth r (f b) []) d = wmean (group_terms ta f cs r d)) /\
    (forall r, r < T -> bc (nth r (b_nsmp b) []) 0 = Rsum (map (fun c => nsmp_total ta c r) cs)).
Proof.
  intros Hne F.
  destruct (group_mean_spec N L T (map (prepared ta) cs)) as [b [Eb [Sb [Hd Hn]]]].
  - destruct cs; [congruence | discriminate].
  - apply Forall_forall. intros x Hx. apply in_map_iff in Hx. destruct Hx as [c [<- Hc]].
    rewrite Forall_forall in F. destruct (F c Hc) as [Tc [S1 [S2 <-]]]. apply prepared_shape; assumption.
  - exists b. split; [exact Eb|]. split; [exact Sb|]. rewrite Forall_forall in F. split.
    + intros f M r d Hf Hr HdN HW HT'. rewrite (Hd f M r d Hf Hr HdN). rewrite !map_map.
      assert (E1 : map (fun x => (bc (nth r (f (prepared ta x)) []) d * bc (nth r (b_w (prepared ta x)) []) d)%R) cs =
                   map xsum (map (fun c => terms ta f c r d) cs)).
      { rewrite map_map. apply map_ext_in. intros c Hc. destruct (F c Hc) as [Tc [S1 [S2 S3]]]. rewrite <- S3 in Hr.
        apply (prepared_terms ta N L Tc f M c r d Hf S1 S2 HdN Hr (HW c Hc)). }
      assert (E2 : map (fun x => bc (nth r (b_w (prepared ta x)) []) d) cs =
                   map wsum (map (fun c => terms ta f c r d) cs)).
      { rewrite map_map. apply map_ext_in. intros c Hc. destruct (F c Hc) as [Tc [S1 [S2 S3]]]. rewrite <- S3 in Hr.
        apply (prepared_terms ta N L Tc f M c r d Hf S1 S2 HdN Hr (HW c Hc)). }
      rewrite E1, E2. rewrite <- xsum_concat, <- wsum_concat. unfold wmean. fold (group_terms ta f cs r d).
      rewrite clip_id by exact HT'. reflexivity.
    + intros r Hr. rewrite (Hn r Hr). rewrite map_map. f_equal. apply map_ext_in. intros c Hc.
      destruct (F c Hc) as [Tc [Sc [S2 S3]]]. rewrite <- S3 in Hr.
      unfold nsmp_total. destruct ta; cbn [prepared]; [|reflexivity]. cbn in Hr. assert (r = 0) by lia. subst r.
      cbn [time_average b_nsmp nth].
      apply (bc_colsum 1 1); [|apply Sc | auto | lia].
      intro E. pose proof (sh_Tn _ _ _ _ Sc) as E'. rewrite E in E'. cbn in E'. lia.
Qed.
