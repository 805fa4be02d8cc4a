(** Properties C322-C324: an object split by [select] is put together again by [combine_uvpspec]. *)
From Coq Require Import QArith Qabs Sorted Permutation.
From Verif Require Import PyDict.
From Verif Require Import Prelude ListLemmas UvpModel UvpSpec UvpProofs SelectProofs SelectMain SelectTotal CommonProofs LawModel LawProofs LawSelect CombineModel CombineProofs CombineMain CombineSound CombineObject SplitProofs SplitBridge UvpProps.
Open Scope nat_scope.

(** * vocabulary *)
Section Voc.
Context {X : Type}.
Variables (zt : Q -> Z) (zf : X -> Z) (zd : Q -> Z) (step : list Z -> Z).
Notation view := (to_c zt zf zd).

(** an object as the code makes them: windows numbered 0, 1, ...; no window range, blpair-time or polarization pair stored twice;
    windows in increasing order of frequency; the baselines are those of the baseline-pairs *)
Record usual (u : uvp X) : Prop := {
  us_wf : wf u;
  us_ord : u_spw_array u = seq 0 (u_Nspws u);
  us_some : u_Nspws u <> 0 /\ u_blpair_array u <> [] /\ u_polpair_array u <> [];
  us_s : NoDup (spws step (view u));
  us_b : NoDup (c_blpts (view u));
  us_p : NoDup (u_polpair_array u);
  us_sorted : windows_sorted step (view u);
  us_bl : NoDup (u_bl_array u);
  us_used : forall bl, In bl (u_bl_array u) -> exists b, In b (u_blpair_array u) /\ (bl = b / 1000000 \/ bl = b mod 1000000)%Z }.

(** [c] stores what [c0] stores, under the same window range, blpair-time, polarization pair and baseline *)
Record same_content {V M Sc Vec} (c c0 : cobj V M Sc Vec) : Prop := {
  sc_blpts : Permutation (c_blpts c) (c_blpts c0);
  sc_sorted : StronglySorted (fun x y => blpt_leb x y = true) (c_blpts c);
  sc_pols : Permutation (c_pols c) (c_pols c0);
  sc_spws : Permutation (spws step c) (spws step c0);
  sc_cells : forall s b p v, holds step c s b p v <-> holds step c0 s b p v;
  sc_rows : forall b x, row_of c b x <-> row_of c0 b x;
  sc_windows : forall s w, window_of step c s w <-> window_of step c0 s w;
  sc_scalar : forall s p x, scalar_of step c s p x <-> scalar_of step c0 s p x;
  sc_static : c_static c = c_static c0;
  sc_bls : forall e, In e (c_bls c) <-> In e (c_bls c0) }.

(** [parts]: selections of [u] and their results *)
Definition pieces (u : uvp X) (parts : list (select_args * uvp X)) : Prop :=
  2 <= length parts /\ forall a v, In (a, v) parts -> select u a = Ok v.
(** every [i] that is [there] is in exactly one part *)
Definition once {A} (there : A -> Prop) (inpart : select_args -> A -> Prop) (parts : list (select_args * uvp X)) : Prop :=
  (forall i, there i -> exists a v, In (a, v) parts /\ inpart a i) /\
  (forall pre a v mid a' v' post, parts = pre ++ (a, v) :: mid ++ (a', v') :: post -> forall i, there i -> inpart a i -> inpart a' i -> False).
(** selections by blpair-times, by polarization pairs and by windows only *)
Definition only_rows (a : select_args) : Prop := a_spws a = None /\ a_polpairs a = None.
Definition only_pols (a : select_args) : Prop := a_spws a = None /\ no_row_args a.
Definition only_windows (a : select_args) : Prop := no_row_args a /\ a_polpairs a = None /\ a_spws a <> Some [].
Definition pol_in (a : select_args) (p : Z) : Prop := match a_polpairs a with None => True | Some l => In p l end.
Definition window_in (a : select_args) (w : nat) : Prop := match a_spws a with None => True | Some l => In w l end.
End Voc.

(** * proofs *)
Section P.
Context {X : Type}.
Variables (zt : Q -> Z) (zf : X -> Z) (zd : Q -> Z) (step : list Z -> Z).
Notation view := (to_c zt zf zd).

Lemma combine_len {A B} (a : list A) (b : list B) : length b = length a -> length (combine a b) = length a.
Proof. intros H. rewrite List.combine_length. lia. Qed.
Lemma view_blpts_len (u : uvp X) : wf u -> length (c_blpts (view u)) = length (u_blpair_array u).
Proof. intros W. unfold to_c, blpt; cbn [c_blpts c_rows]. rewrite !List.combine_length, !map_length, (wf_t1 u W), (wf_t2 u W). lia. Qed.
Lemma view_wfc (u : uvp X) : usual zt zf zd step u -> wfc step (view u) /\ nonempty (view u).
Proof.
  intros U. pose proof (us_wf _ _ _ _ _ U) as W. pose proof (view_blpts_len u W) as LB. split.
  - split; [exact (us_s _ _ _ _ _ U)|exact (us_b _ _ _ _ _ U)|exact (us_p _ _ _ _ _ U)| | |].
    + split; [cbn; rewrite !map_length; reflexivity|]. intros r Hr. cbn in Hr. apply in_map_iff in Hr. destruct Hr as [s [<- _]]. rewrite LB. unfold table.
      split; [rewrite map_length, seq_length; reflexivity|]. intros e He. apply in_map_iff in He. destruct He as [i [<- _]]. cbn. rewrite map_length, seq_length. reflexivity.
    + rewrite LB. unfold to_c, blpt; cbn [c_blpts c_rows]. rewrite !List.combine_length, (wf_ta u W), (wf_l1 u W), (wf_l2 u W), (wf_la u W). lia.
    + destruct (wf_scalar u W) as [L1 L2]. split; [cbn; rewrite map_length, seq_length, L1, (us_ord _ _ _ _ _ U), seq_length; reflexivity|exact L2].
  - destruct (us_some _ _ _ _ _ U) as (N1 & N2 & N3). repeat split; [| |exact N3].
    + cbn. destruct (u_Nspws u); [congruence|discriminate].
    + intros E. rewrite E in LB. destruct (u_blpair_array u); [congruence|discriminate].
Qed.
Lemma new_bls_spec (cs : list (cobj (list (option (list X))) (Q * Q * Q * Q) X X)) bls : new_bls cs = Ok bls ->
  (forall e, In e bls -> exists u, In u cs /\ In e (c_bls u)) /\ (forall u e, In u cs -> In e (c_bls u) -> In (fst e) (map fst bls)).
Proof.
  unfold new_bls. intros H. split.
  - intros e He. apply In_nth_error in He. destruct He as [j Hj]. destruct (map_res_nth_r _ _ _ _ _ H Hj) as [bl [_ E]].
    apply bind_ok in E. destruct E as [u [E1 E2]]. apply bind_ok in E2. destruct E2 as [h [_ E2]]. unfold owner_of in E1.
    destruct (find _ cs) as [w|] eqn:F; [|discriminate]. injection E1 as ->. apply find_some in F. exists u. split; [apply F|]. apply nth_res_ok in E2. exact (nth_error_In _ _ E2).
  - intros u e Hu He. assert (I : In (fst e) (sorted_set Z.eq_dec Z.leb (concat (map (fun u => map fst (c_bls u)) cs)))).
    { apply sorted_set_In, in_concat. exists (map fst (c_bls u)). split; [apply (in_map (fun u => map fst (c_bls u))), Hu|apply in_map, He]. }
    apply In_nth_error in I. destruct I as [j Hj]. destruct (map_res_nth _ _ _ _ _ H Hj) as [y [Hy E]].
    apply bind_ok in E. destruct E as [w [E1 E2]]. apply bind_ok in E2. destruct E2 as [h [E2 E3]]. apply index_res_ok in E2. apply nth_res_ok in E3.
    rewrite nth_error_map, E3 in E2. cbn in E2. injection E2 as E2. rewrite <- E2. apply in_map. exact (nth_error_In _ _ Hy).
Qed.
(** baselines of the combined parts *)
Lemma bls_again (u : uvp X) parts bls : usual zt zf zd step u -> pieces u parts ->
  (forall b, In b (u_blpair_array u) -> exists a v, In (a, v) parts /\ In b (u_blpair_array v)) ->
  new_bls (map (fun av => view (snd av)) parts) = Ok bls -> forall e, In e bls <-> In e (c_bls (view u)).
Proof.
  intros U [_ PC] CV H. pose proof (us_wf _ _ _ _ _ U) as W. destruct (new_bls_spec _ _ H) as [H1 H2].
  assert (F : forall e, In e bls -> In e (c_bls (view u))).
  { intros e He. destruct (H1 e He) as [c [Hc Ec]]. apply in_map_iff in Hc. destruct Hc as [[a v] [<- Hv]]. cbn in Ec |- *.
    destruct (select_bl_vecs u a v W (PC a v Hv)) as [(_ & E1 & E2)|(_ & E)]; [rewrite E1, E2 in Ec; exact Ec|]. rewrite E in Ec. apply filter_In in Ec. tauto. }
  intros e. split; [apply F|]. intros He. cbn in He.
  assert (Hb : In (fst e) (u_bl_array u)) by (destruct e as [x y]; exact (in_combine_l _ _ _ _ He)).
  destruct (us_used _ _ _ _ _ U _ Hb) as [b [Ib Eb]]. destruct (CV b Ib) as (a & v & Hv & Ivb).
  assert (Iv : In e (c_bls (view v))).
  { cbn. destruct (select_bl_vecs u a v W (PC a v Hv)) as [(_ & E1 & E2)|(_ & E)]; [rewrite E1, E2; exact He|]. rewrite E. apply filter_In. split; [exact He|].
    apply existsb_exists. exists b. split; [exact Ivb|]. apply orb_true_iff. destruct Eb as [Eb|Eb]; [left|right]; apply Z.eqb_eq; exact Eb. }
  pose proof (H2 (view v) e (in_map (fun av => view (snd av)) parts (a, v) Hv) Iv) as I. apply in_map_iff in I. destruct I as [e' [E' I']].
  pose proof (F e' I') as He'. cbn in He'. assert (e' = e); [|subst; exact I']. destruct e as [x y], e' as [x' y']. cbn in E'. subst x'. f_equal.
  pose proof (us_bl _ _ _ _ _ U) as ND. clear -He He' ND. revert He He' ND. generalize (u_bl_array u) (u_bl_vecs u). intros l. induction l as [|z l IH]; intros [|w m] H1 H2 N; cbn in *; try tauto.
  inversion N as [|? ? N1 N2]; subst. destruct H1 as [H1|H1], H2 as [H2|H2]; [congruence| | |eauto].
  - injection H1 as -> _. exfalso. apply N1. exact (in_combine_l _ _ _ _ H2).
  - injection H2 as -> _. exfalso. apply N1. exact (in_combine_l _ _ _ _ H1).
Qed.

Lemma split_parts {A B} (f : A -> B) l a u b v d : map f l = a ++ u :: b ++ v :: d ->
  exists a' x b' y d', l = a' ++ x :: b' ++ y :: d' /\ f x = u /\ f y = v.
Proof.
  revert a. induction l as [|z l IH]; intros a E; [destruct a; discriminate|]. destruct a as [|w a]; cbn in E; injection E as E1 E2.
  - destruct (in_split v (map f l)) as (l1 & l2 & El); [rewrite E2; apply in_or_app; right; left; reflexivity|]. clear El l1 l2.
    assert (G : exists b' y d', l = b' ++ y :: d' /\ f y = v).
    { clear -E2. revert b E2. induction l as [|x l IHl]; intros b E; [destruct b; discriminate|]. destruct b as [|w b]; cbn in E; injection E as E1 E2.
      - exists [], x, l. split; [reflexivity|exact E1].
      - destruct (IHl b E2) as (b' & y & d' & -> & Ey). exists (x :: b'), y, d'. split; [reflexivity|exact Ey]. }
    destruct G as (b' & y & d' & -> & Ey). exists [], z, b', y, d'. repeat split; assumption.
  - destruct (IH a E2) as (a' & x & b' & y & d' & -> & Ex & Ey). exists (z :: a'), x, b', y, d'. repeat split; assumption.
Qed.

(** the positions kept by a selection, seen from the entries *)
Lemma blpt_at (u : uvp X) : wf u -> forall i, i < length (u_blpair_array u) <-> exists b, nth_error (c_blpts (view u)) i = Some b.
Proof.
  intros W i. split.
  - intros H. apply nth_error_lt. rewrite view_blpts_len; assumption.
  - intros [b Hb]. apply nth_error_Some_lt in Hb. rewrite view_blpts_len in Hb; assumption.
Qed.

Section G.
Variable u : uvp X.
Hypothesis U : usual zt zf zd step u.
Let c := view u.

Lemma In_picked_rows a v R P i b : select_spec u a v R P -> nth_error (c_blpts c) i = Some b -> (In b (c_blpts (view v)) <-> row_wanted u a i).
Proof.
  intros S Hi. pose proof (us_wf _ _ _ _ _ U) as W. pose proof (sp_rows _ _ _ _ _ S) as G.
  assert (PB : picks R (c_blpts c) (c_blpts (view v))).
  { apply picks_combine; [apply picks_combine|]; [exact (rp_bp _ _ _ G)|apply picks_map; exact (rp_t1 _ _ _ G)|apply picks_map; exact (rp_t2 _ _ _ G)]. }
  rewrite (picks_In _ _ _ _ PB). split.
  - intros [j [Hj Ej]]. assert (j = i) by exact (NoDup_nth_inj _ _ _ _ (us_b _ _ _ _ _ U) Ej Hi). subst j. apply (sp_R _ _ _ _ _ S) in Hj. tauto.
  - intros Hw. exists i. split; [|exact Hi]. apply (sp_R _ _ _ _ _ S). split; [|exact Hw]. apply (blpt_at u W). eauto.
Qed.
Lemma In_picked_pols a v R P p : select_spec u a v R P -> (In p (u_polpair_array v) <-> In p (u_polpair_array u) /\ match a_polpairs a with None => True | Some l => In p l end).
Proof.
  intros S. rewrite (picks_In _ _ _ _ (sp_pols _ _ _ _ _ S)). split.
  - intros [k [Hk Ek]]. split; [exact (nth_error_In _ _ Ek)|]. apply (sp_P _ _ _ _ _ S) in Hk. destruct Hk as [p' [E' K]]. rewrite E' in Ek. injection Ek as ->. exact K.
  - intros [Hp K]. apply In_nth_error in Hp. destruct Hp as [k Hk]. exists k. split; [|exact Hk]. apply (sp_P _ _ _ _ _ S). exists p. split; assumption.
Qed.
Lemma In_picked_spws a v R P w : select_spec u a v R P -> part (spw_kept u a) R P c (view v) -> w < u_Nspws u ->
  (In (wkey step (win_of zf zd u w)) (spws step (view v)) <-> spw_wanted a w = true).
Proof.
  intros S PT Hw. pose proof (part_spws step c (view v) _ _ _ PT) as PS. rewrite (picks_In _ _ _ _ PS).
  assert (E : nth_error (spws step c) w = Some (wkey step (win_of zf zd u w))).
  { unfold spws, c. cbn. rewrite map_map, nth_error_map, (nth_error_nth' _ 0) by (rewrite seq_length; exact Hw). rewrite seq_nth by exact Hw. reflexivity. }
  split.
  - intros [j [Hj Ej]]. assert (j = w) by exact (NoDup_nth_inj _ _ _ _ (us_s _ _ _ _ _ U) Ej E). subst j. apply filter_In in Hj. tauto.
  - intros K. exists w. split; [|exact E]. apply filter_In. split; [|exact K]. rewrite (us_ord _ _ _ _ _ U). apply in_seq. lia.
Qed.
Lemma pols_full a v R P : select_spec u a v R P -> a_polpairs a = None -> agree (c_pols c) (c_pols (view v)).
Proof. intros S E x. cbn. rewrite (In_picked_pols a v R P x S), E. tauto. Qed.
Lemma rows_full a v R P : select_spec u a v R P -> no_row_args a -> agree (c_blpts c) (c_blpts (view v)).
Proof.
  intros S N x. pose proof (us_wf _ _ _ _ _ U) as W. pose proof (sp_rows _ _ _ _ _ S) as G.
  assert (PB : picks R (c_blpts c) (c_blpts (view v))).
  { apply picks_combine; [apply picks_combine|]; [exact (rp_bp _ _ _ G)|apply picks_map; exact (rp_t1 _ _ _ G)|apply picks_map; exact (rp_t2 _ _ _ G)]. }
  split.
  - intros Hx. apply In_nth_error in Hx. destruct Hx as [i Hi]. apply (In_picked_rows a v R P i x S Hi).
    assert (L : i < length (u_blpair_array u)) by (apply (blpt_at u W); eauto).
    destruct (nth_error_lt _ _ L) as [b Hb]. destruct (nth_error_lt (u_time_avg_array u) i) as [t Ht]; [rewrite (wf_ta u W); exact L|].
    destruct (nth_error_lt (u_lst_avg_array u) i) as [l Hl]; [rewrite (wf_la u W); exact L|]. exists b, t, l. destruct N as (N1 & N2 & N3 & N4).
    repeat split; try assumption; [left; split; assumption|intros ts E; rewrite N3 in E; discriminate|intros ts E; rewrite N4 in E; discriminate].
  - intros Hx. apply (picks_In _ _ _ _ PB) in Hx. destruct Hx as [i [_ Hi]]. exact (nth_error_In _ _ Hi).
Qed.
Lemma spws_full a v R P : select_spec u a v R P -> part (spw_kept u a) R P c (view v) -> a_spws a = None -> agree (spws step c) (spws step (view v)).
Proof.
  intros S PT E x. split.
  - intros Hx. unfold spws, c in Hx. cbn in Hx. rewrite map_map in Hx. apply in_map_iff in Hx. destruct Hx as [w [<- Hw]]. apply in_seq in Hw.
    apply (In_picked_spws a v R P w S PT); [lia|]. unfold spw_wanted. rewrite E. reflexivity.
  - intros Hx. apply (picks_In _ _ _ _ (part_spws step c (view v) _ _ _ PT)) in Hx. destruct Hx as [i [_ Hi]]. exact (nth_error_In _ _ Hi).
Qed.
Lemma rows_nonempty a v R P : select_spec u a v R P -> c_blpts (view v) <> [].
Proof.
  intros S. destruct (us_some _ _ _ _ _ U) as (_ & N2 & _). pose proof (us_wf _ _ _ _ _ U) as W.
  assert (PB : length (c_blpts (view v)) = length R).
  { pose proof (sp_rows _ _ _ _ _ S) as G. unfold to_c, blpt; cbn [c_blpts c_rows]. rewrite !List.combine_length, !map_length, (picks_length _ _ _ (rp_bp _ _ _ G)), (picks_length _ _ _ (rp_t1 _ _ _ G)), (picks_length _ _ _ (rp_t2 _ _ _ G)). lia. }
  intros E. rewrite E in PB. destruct R as [|i R]; [|discriminate]. 
  assert (D : no_row_args a \/ ~ no_row_args a).
  { unfold no_row_args. destruct (a_bls a), (a_blpairs a), (a_times a), (a_lsts a); try (right; intros (? & ? & ? & ?); discriminate). left. repeat split. }
  destruct D as [D|D]; [|exact (sp_R_ne _ _ _ _ _ S D eq_refl)].
  destruct (view_wfc u U) as [_ (_ & Nb & _)]. apply Nb. fold c. destruct (c_blpts c) as [|b bs] eqn:Ec; [reflexivity|]. exfalso.
  pose proof (proj1 (rows_full a v [] P S D b)) as K. rewrite E, Ec in K. apply K. left. reflexivity.
Qed.
Lemma pols_nonempty a v R P : select_spec u a v R P -> c_pols (view v) <> [].
Proof.
  intros S E. cbn in E. pose proof (picks_length _ _ _ (sp_pols _ _ _ _ _ S)) as L. rewrite E in L. destruct P as [|p P]; [|discriminate].
  destruct (a_polpairs a) eqn:Ea; [apply (sp_P_ne _ _ _ _ _ S); congruence|]. destruct (us_some _ _ _ _ _ U) as (_ & _ & N3).
  destruct (u_polpair_array u) as [|p ps] eqn:Ep; [congruence|]. pose proof (proj2 (In_picked_pols a v R [] p S)) as K. rewrite E, Ep, Ea in K. apply K. split; [left; reflexivity|exact I].
Qed.
Lemma windows_nonempty a v R P : select_spec u a v R P -> a_spws a = None -> c_windows (view v) <> [].
Proof.
  intros S E. cbn. rewrite (sp_N _ _ _ _ _ S), (spw_kept_none u a E), (us_ord _ _ _ _ _ U), seq_length. destruct (us_some _ _ _ _ _ U) as (N1 & _).
  destruct (u_Nspws u); [congruence|discriminate].
Qed.
Lemma parts_part parts v' : pieces u parts -> (u_folded u = false \/ forall a v, In (a, v) parts -> a_spws a = None) ->
  In v' (map (fun av : select_args * uvp X => view (snd av)) parts) -> exists a v R P, In (a, v) parts /\ v' = view v /\ select_spec u a v R P /\ part (spw_kept u a) R P c v'.
Proof.
  intros PC NF H. apply in_map_iff in H. destruct H as [[a v] [<- Hv]]. destruct PC as [_ PC']. pose proof (us_wf _ _ _ _ _ U) as W.
  destruct (select_correct u a v W (PC' a v Hv)) as (R & P & S). exists a, v, R, P. split; [exact Hv|]. split; [reflexivity|]. split; [exact S|].
  apply (select_part zt zf zd u v a W (us_ord _ _ _ _ _ U)); [|exact S]. destruct NF as [N|N]; [right; exact N|left; exact (N a v Hv)].
Qed.
End G.

Lemma to_same (u : uvp X) parts c' (ax : axis) : usual zt zf zd step u -> pieces u parts ->
  (forall b, In b (u_blpair_array u) -> exists a v, In (a, v) parts /\ In b (u_blpair_array v)) ->
  c_blpts c' = sorted_set blpt_dec blpt_leb (c_blpts (view u)) /\ Permutation (c_pols c') (c_pols (view u)) /\ Permutation (spws step c') (spws step (view u)) /\
    (ax <> AxSpw -> c_windows c' = c_windows (view u)) /\
    (forall s b p v, holds step c' s b p v <-> holds step (view u) s b p v) /\
    (forall b x, row_of c' b x <-> row_of (view u) b x) /\
    (forall s w, window_of step c' s w <-> window_of step (view u) s w) /\
    (forall s p x, scalar_of step c' s p x <-> scalar_of step (view u) s p x) /\
    c_static c' = c_static (view u) /\ new_bls (map (fun av => view (snd av)) parts) = Ok (c_bls c') ->
  same_content step c' (view u).
Proof.
  intros U PC CV (H1 & H2 & H3 & _ & H5 & H6 & H7 & H8 & H9 & H10). split; try assumption.
  - rewrite H1. apply NoDup_Permutation; [apply sorted_set_NoDup|exact (us_b _ _ _ _ _ U)|]. intros x. apply sorted_set_In.
  - rewrite H1. apply sorted_set_sorted. exact blpt_order.
  - exact (bls_again u parts _ U PC CV H10).
Qed.
End P.

(** * C322: split by blpair-times *)
Theorem split_rows_combine : forall (X : Type) (zt : Q -> Z) (zf : X -> Z) (zd : Q -> Z) (step : list Z -> Z) (isclose : X -> X -> bool) (round8 : Z -> Z) (u : uvp X) parts,
  (forall x, isclose x x = true) -> usual zt zf zd step u -> pieces u parts ->
  (forall a v, In (a, v) parts -> only_rows a) ->
  once (fun i => i < length (u_blpair_array u)) (row_wanted u) parts ->
  exists c, combine_objs isclose round8 step (map (fun av => to_c zt zf zd (snd av)) parts) = Ok c /\
    same_content step c (to_c zt zf zd u) /\ c_windows c = c_windows (to_c zt zf zd u).
Proof.
  intros X zt zf zd step isclose round8 u parts Rf U PC OR [CV AP]. pose proof (us_wf _ _ _ _ _ U) as W.
  assert (NF : u_folded u = false \/ forall a v, In (a, v) parts -> a_spws a = None) by (right; intros a v H; apply (OR a v H)).
  destruct (view_wfc zt zf zd step u U) as [WC NC]. pose proof (us_b _ _ _ _ _ U) as ND.
  destruct (recombine isclose round8 step (to_c zt zf zd u) AxBlpts (map (fun av => to_c zt zf zd (snd av)) parts) Rf WC NC) as (c & E & H).
  - rewrite map_length. apply PC.
  - intros v' Hv'. destruct (parts_part zt zf zd step u U parts v' PC NF Hv') as (a & v & R & P & _ & _ & _ & PT). eauto.
  - intros v' Hv'. destruct (parts_part zt zf zd step u U parts v' PC NF Hv') as (a & v & R & P & Ha & -> & S & PT). destruct (OR a v Ha) as [O1 O2]. split.
    + repeat split; [exact (windows_nonempty zt zf zd step u U a v R P S O1)|exact (rows_nonempty zt zf zd step u U a v R P S)|exact (pols_nonempty zt zf zd step u U a v R P S)].
    + split; [intros _; exact (spws_full zt zf zd step u U a v R P S PT O1)|split; [congruence|intros _; exact (pols_full zt zf zd u a v R P S O2)]].
  - intros s b p _ Hb _. apply In_nth_error in Hb. destruct Hb as [i Hi]. assert (L : i < length (u_blpair_array u)) by (apply (blpt_at zt zf zd u W); eauto).
    destruct (CV i L) as (a & v & Ha & Hw). exists (to_c zt zf zd v). split; [exact (in_map (fun av => to_c zt zf zd (snd av)) parts (a, v) Ha)|].
    destruct PC as [_ PC']. destruct (select_correct u a v W (PC' a v Ha)) as (R & P & S). cbn [on_axis]. apply (In_picked_rows zt zf zd step u U a v R P i b S Hi). exact Hw.
  - intros pre x mid y post Es s b p H1 H2. apply split_parts in Es. destruct Es as (a' & [a v] & b' & [a2 v2] & d' & El & <- & <-). cbn in H1, H2.
    destruct PC as [_ PC']. assert (I1 : In (a, v) parts) by (rewrite El; apply in_or_app; right; left; reflexivity).
    assert (I2 : In (a2, v2) parts) by (rewrite El; apply in_or_app; right; right; apply in_or_app; right; left; reflexivity).
    destruct (select_correct u a v W (PC' a v I1)) as (R & P & S). destruct (select_correct u a2 v2 W (PC' a2 v2 I2)) as (R2 & P2 & S2).
    assert (Hb : In b (c_blpts (to_c zt zf zd u))).
    { pose proof (select_part zt zf zd u v a W (us_ord _ _ _ _ _ U) (or_introl (proj1 (OR a v I1))) R P S) as PT.
      apply (picks_In _ _ _ _ (pt_blpts _ _ _ _ _ PT)) in H1. destruct H1 as [i [_ Hi]]. exact (nth_error_In _ _ Hi). }
    apply In_nth_error in Hb. destruct Hb as [i Hi].
    apply (AP a' a v b' a2 v2 d' El i); [apply (blpt_at zt zf zd u W); eauto|apply (In_picked_rows zt zf zd step u U a v R P i b S Hi); exact H1|apply (In_picked_rows zt zf zd step u U a2 v2 R2 P2 i b S2 Hi); exact H2].
  - intros _. exact (us_sorted _ _ _ _ _ U).
  - congruence.
  - exists c. split; [exact E|]. split; [|apply H; discriminate]. apply (to_same zt zf zd step u parts c AxBlpts U PC); [|exact H].
    intros b Hb. apply In_nth_error in Hb. destruct Hb as [i Hi]. destruct (CV i (nth_error_Some_lt _ _ _ Hi)) as (a & v & Ha & Hw). exists a, v. split; [exact Ha|].
    destruct PC as [_ PC']. destruct (select_correct u a v W (PC' a v Ha)) as (R & P & S). apply (picks_In _ _ _ _ (rp_bp _ _ _ (sp_rows _ _ _ _ _ S))). exists i. split; [|exact Hi].
    apply (sp_R _ _ _ _ _ S). split; [exact (nth_error_Some_lt _ _ _ Hi)|exact Hw].
Qed.
Print Assumptions split_rows_combine.

(** * C323: split by polarization pairs *)
Theorem split_pols_combine : forall (X : Type) (zt : Q -> Z) (zf : X -> Z) (zd : Q -> Z) (step : list Z -> Z) (isclose : X -> X -> bool) (round8 : Z -> Z) (u : uvp X) parts,
  (forall x, isclose x x = true) -> usual zt zf zd step u -> unique_lookup round8 (c_blpts (to_c zt zf zd u)) -> pieces u parts ->
  (forall a v, In (a, v) parts -> only_pols a) ->
  once (fun p => In p (u_polpair_array u)) pol_in parts ->
  exists c, combine_objs isclose round8 step (map (fun av => to_c zt zf zd (snd av)) parts) = Ok c /\
    same_content step c (to_c zt zf zd u) /\ c_windows c = c_windows (to_c zt zf zd u).
Proof.
  intros X zt zf zd step isclose round8 u parts Rf U UL PC OR [CV AP]. pose proof (us_wf _ _ _ _ _ U) as W.
  assert (NF : u_folded u = false \/ forall a v, In (a, v) parts -> a_spws a = None) by (right; intros a v H; apply (OR a v H)).
  destruct (view_wfc zt zf zd step u U) as [WC NC].
  destruct (recombine isclose round8 step (to_c zt zf zd u) AxPols (map (fun av => to_c zt zf zd (snd av)) parts) Rf WC NC) as (c & E & H).
  - rewrite map_length. apply PC.
  - intros v' Hv'. destruct (parts_part zt zf zd step u U parts v' PC NF Hv') as (a & v & R & P & _ & _ & _ & PT). eauto.
  - intros v' Hv'. destruct (parts_part zt zf zd step u U parts v' PC NF Hv') as (a & v & R & P & Ha & -> & S & PT). destruct (OR a v Ha) as [O1 O2]. split.
    + repeat split; [exact (windows_nonempty zt zf zd step u U a v R P S O1)|exact (rows_nonempty zt zf zd step u U a v R P S)|exact (pols_nonempty zt zf zd step u U a v R P S)].
    + split; [intros _; exact (spws_full zt zf zd step u U a v R P S PT O1)|split; [intros _; exact (rows_full zt zf zd step u U a v R P S O2)|congruence]].
  - intros s b p _ _ Hp. destruct (CV p Hp) as (a & v & Ha & Hw). exists (to_c zt zf zd v). split; [exact (in_map (fun av => to_c zt zf zd (snd av)) parts (a, v) Ha)|].
    destruct PC as [_ PC']. destruct (select_correct u a v W (PC' a v Ha)) as (R & P & S). cbn [on_axis]. apply (In_picked_pols u a v R P p S). split; [exact Hp|exact Hw].
  - intros pre x mid y post Es s b p H1 H2. apply split_parts in Es. destruct Es as (a' & [a v] & b' & [a2 v2] & d' & El & <- & <-). cbn in H1, H2.
    destruct PC as [_ PC']. assert (I1 : In (a, v) parts) by (rewrite El; apply in_or_app; right; left; reflexivity).
    assert (I2 : In (a2, v2) parts) by (rewrite El; apply in_or_app; right; right; apply in_or_app; right; left; reflexivity).
    destruct (select_correct u a v W (PC' a v I1)) as (R & P & S). destruct (select_correct u a2 v2 W (PC' a2 v2 I2)) as (R2 & P2 & S2).
    apply (In_picked_pols u a v R P p S) in H1. apply (In_picked_pols u a2 v2 R2 P2 p S2) in H2. destruct H1 as [Hp H1], H2 as [_ H2].
    exact (AP a' a v b' a2 v2 d' El p Hp H1 H2).
  - intros _. exact (us_sorted _ _ _ _ _ U).
  - intros _. exact UL.
  - exists c. split; [exact E|]. split; [|apply H; discriminate]. apply (to_same zt zf zd step u parts c AxPols U PC); [|exact H].
    intros b Hb. apply In_nth_error in Hb. destruct Hb as [i Hi]. destruct parts as [|[a v] parts]; [destruct PC as [L _]; cbn in L; lia|]. exists a, v. split; [left; reflexivity|].
    destruct PC as [_ PC']. destruct (select_correct u a v W (PC' a v (or_introl eq_refl))) as (R & P & S). apply (picks_In _ _ _ _ (rp_bp _ _ _ (sp_rows _ _ _ _ _ S))). exists i. split; [|exact Hi].
    destruct (blpt_at zt zf zd u W i) as [K _]. destruct (K (nth_error_Some_lt _ _ _ Hi)) as [bt Hbt].
    apply (sp_R _ _ _ _ _ S). split; [exact (nth_error_Some_lt _ _ _ Hi)|]. apply (In_picked_rows zt zf zd step u U a v R P i bt S Hbt).
    apply (rows_full zt zf zd step u U a v R P S (proj2 (OR a v (or_introl eq_refl)))). exact (nth_error_In _ _ Hbt).
Qed.
Print Assumptions split_pols_combine.

(** * C324: split by spectral windows *)
Lemma window_in_wanted a w : window_in a w <-> spw_wanted a w = true.
Proof.
  unfold window_in, spw_wanted. destruct (a_spws a) as [l|]; [|tauto]. unfold memN. rewrite existsb_exists. split.
  - intros H. exists w. split; [exact H|apply Nat.eqb_refl].
  - intros [x [H E]]. apply Nat.eqb_eq in E. subst x. exact H.
Qed.
Theorem split_windows_combine : forall (X : Type) (zt : Q -> Z) (zf : X -> Z) (zd : Q -> Z) (step : list Z -> Z) (isclose : X -> X -> bool) (round8 : Z -> Z) (u : uvp X) parts,
  (forall x, isclose x x = true) -> usual zt zf zd step u -> unique_lookup round8 (c_blpts (to_c zt zf zd u)) -> u_folded u = false -> pieces u parts ->
  (forall a v, In (a, v) parts -> only_windows a) ->
  once (fun w => w < u_Nspws u) window_in parts ->
  exists c, combine_objs isclose round8 step (map (fun av => to_c zt zf zd (snd av)) parts) = Ok c /\ same_content step c (to_c zt zf zd u).
Proof.
  intros X zt zf zd step isclose round8 u parts Rf U UL UF PC OR [CV AP]. pose proof (us_wf _ _ _ _ _ U) as W.
  assert (NF : u_folded u = false \/ forall a v, In (a, v) parts -> a_spws a = None) by (left; exact UF).
  destruct (view_wfc zt zf zd step u U) as [WC NC].
  assert (WIN : forall s, In s (spws step (to_c zt zf zd u)) -> exists w, w < u_Nspws u /\ s = wkey step (win_of zf zd u w)).
  { intros s Hs. unfold spws in Hs. cbn in Hs. rewrite map_map in Hs. apply in_map_iff in Hs. destruct Hs as [w [<- Hw]]. apply in_seq in Hw. exists w. split; [lia|reflexivity]. }
  assert (PT : forall a v R P, select_spec u a v R P -> part (spw_kept u a) R P (to_c zt zf zd u) (to_c zt zf zd v)).
  { intros a v R P S. exact (select_part zt zf zd u v a W (us_ord _ _ _ _ _ U) (or_intror UF) R P S). }
  destruct (recombine isclose round8 step (to_c zt zf zd u) AxSpw (map (fun av => to_c zt zf zd (snd av)) parts) Rf WC NC) as (c & E & H).
  - rewrite map_length. apply PC.
  - intros v' Hv'. destruct (parts_part zt zf zd step u U parts v' PC NF Hv') as (a & v & R & P & _ & _ & _ & Q). eauto.
  - intros v' Hv'. destruct (parts_part zt zf zd step u U parts v' PC NF Hv') as (a & v & R & P & Ha & -> & S & Q). destruct (OR a v Ha) as (O1 & O2 & O3). split.
    + repeat split; [|exact (rows_nonempty zt zf zd step u U a v R P S)|exact (pols_nonempty zt zf zd step u U a v R P S)].
      intros Ew. pose proof (picks_length _ _ _ (pt_windows _ _ _ _ _ Q)) as L. rewrite Ew in L. cbn in L.
      assert (V : valid_args u a) by (apply select_ok_iff; [exact W|]; exists v; apply PC; exact Ha).
      assert (I : exists w, In w (spw_kept u a)).
      { destruct (a_spws a) as [[|s l]|] eqn:Ea; [congruence| |].
        - exists s. apply filter_In. split; [|apply window_in_wanted; unfold window_in; rewrite Ea; left; reflexivity].
          apply (wf_freq_in u W). apply (va_spws _ _ V (s :: l) Ea s (or_introl eq_refl)).
        - exists 0. rewrite (spw_kept_none u a Ea), (us_ord _ _ _ _ _ U). apply in_seq. destruct (us_some _ _ _ _ _ U) as (N & _). lia. }
      destruct I as [w Hw]. destruct (spw_kept u a); [destruct Hw|discriminate].
    + split; [congruence|split; [intros _; exact (rows_full zt zf zd step u U a v R P S O1)|intros _; exact (pols_full zt zf zd u a v R P S O2)]].
  - intros s b p Hs _ _. destruct (WIN s Hs) as (w & Hw & ->). destruct (CV w Hw) as (a & v & Ha & Hi). exists (to_c zt zf zd v). split; [exact (in_map (fun av => to_c zt zf zd (snd av)) parts (a, v) Ha)|].
    destruct PC as [_ PC']. destruct (select_correct u a v W (PC' a v Ha)) as (R & P & S). cbn [on_axis]. apply (In_picked_spws zt zf zd step u U a v R P w S (PT a v R P S) Hw). apply window_in_wanted, Hi.
  - intros pre x mid y post Es s b p H1 H2. apply split_parts in Es. destruct Es as (a' & [a v] & b' & [a2 v2] & d' & El & <- & <-). cbn [snd on_axis] in H1, H2.
    destruct PC as [_ PC']. assert (I1 : In (a, v) parts) by (rewrite El; apply in_or_app; right; left; reflexivity).
    assert (I2 : In (a2, v2) parts) by (rewrite El; apply in_or_app; right; right; apply in_or_app; right; left; reflexivity).
    destruct (select_correct u a v W (PC' a v I1)) as (R & P & S). destruct (select_correct u a2 v2 W (PC' a2 v2 I2)) as (R2 & P2 & S2).
    assert (Hs : In s (spws step (to_c zt zf zd u))).
    { apply (picks_In _ _ _ _ (part_spws step _ _ _ _ _ (PT a v R P S))) in H1. destruct H1 as [i [_ Hi]]. exact (nth_error_In _ _ Hi). }
    destruct (WIN s Hs) as (w & Hw & ->). apply (In_picked_spws zt zf zd step u U a v R P w S (PT a v R P S) Hw) in H1. apply (In_picked_spws zt zf zd step u U a2 v2 R2 P2 w S2 (PT a2 v2 R2 P2 S2) Hw) in H2.
    apply (AP a' a v b' a2 v2 d' El w Hw); apply window_in_wanted; assumption.
  - congruence.
  - intros _. exact UL.
  - exists c. split; [exact E|]. apply (to_same zt zf zd step u parts c AxSpw U PC); [|exact H].
    intros b Hb. apply In_nth_error in Hb. destruct Hb as [i Hi]. destruct parts as [|[a v] parts]; [destruct PC as [L _]; cbn in L; lia|]. exists a, v. split; [left; reflexivity|].
    destruct PC as [_ PC']. destruct (select_correct u a v W (PC' a v (or_introl eq_refl))) as (R & P & S). apply (picks_In _ _ _ _ (rp_bp _ _ _ (sp_rows _ _ _ _ _ S))). exists i. split; [|exact Hi].
    destruct (blpt_at zt zf zd u W i) as [K _]. destruct (K (nth_error_Some_lt _ _ _ Hi)) as [bt Hbt].
    apply (sp_R _ _ _ _ _ S). split; [exact (nth_error_Some_lt _ _ _ Hi)|]. apply (In_picked_rows zt zf zd step u U a v R P i bt S Hbt).
    apply (rows_full zt zf zd step u U a v R P S (proj1 (OR a v (or_introl eq_refl)))). exact (nth_error_In _ _ Hbt).
Qed.
Print Assumptions split_windows_combine.

(** ** a case: the sample object of UvpProps split in each of the three ways *)
Definition zq (q : Q) : Z := (Qnum q * 1000000000 / Zpos (Qden q))%Z.
Definition st1 (f : list Z) : Z := match f with a :: b :: _ => (b - a)%Z | _ => 1%Z end.
Definition rows_of (b : Z) (t : list Q) : select_args := {| a_spws := None; a_bls := None; a_only_pairs_in_bls := true; a_blpairs := Some [b]; a_times := Some t; a_lsts := None; a_polpairs := None |}.
Definition pols_of (p : list Z) : select_args := {| a_spws := None; a_bls := None; a_only_pairs_in_bls := true; a_blpairs := None; a_times := None; a_lsts := None; a_polpairs := Some p |}.
Definition wins_of (w : list nat) : select_args := {| a_spws := Some w; a_bls := None; a_only_pairs_in_bls := true; a_blpairs := None; a_times := None; a_lsts := None; a_polpairs := None |}.
Definition sel (a : select_args) : uvp Z := match select sample a with Ok v => v | Err _ => sample end.
Definition cut (l : list select_args) : list (select_args * uvp Z) := map (fun a => (a, sel a)) l.
Definition by_rows := cut [rows_of bA [1%Q]; rows_of bB [1%Q]; rows_of bA [2%Q]].
Definition by_pols := cut [pols_of [606%Z]; pols_of [505%Z]].
Definition by_wins := cut [wins_of [1]; wins_of [0]].
Lemma sample_usual : usual zq (fun z => z) zq st1 sample.
Proof.
  split; [exact sample_wf|reflexivity|split; [discriminate|split; discriminate]| | | | | |].
  - vm_compute. repeat (constructor; [cbn; intuition discriminate|]). constructor.
  - vm_compute. repeat (constructor; [cbn; intuition discriminate|]). constructor.
  - vm_compute. repeat (constructor; [cbn; intuition discriminate|]). constructor.
  - vm_compute. repeat constructor.
  - vm_compute. repeat (constructor; [cbn; intuition discriminate|]). constructor.
  - intros bl [<-|[<-|[]]]; [exists bA|exists bB]; (split; [cbn; tauto|]); vm_compute; tauto.
Qed.
Definition back (parts : list (select_args * uvp Z)) := combine_objs Z.eqb (fun t => t) st1 (map (fun av => to_c zq (fun z => z) zq (snd av)) parts).
Example split_rows_case : pieces sample by_rows /\ (forall a v, In (a, v) by_rows -> only_rows a) /\
  exists c, back by_rows = Ok c /\ c_blpts c = [(bA, 1000000000, 1000000000); (bA, 2000000000, 2000000000); (bB, 1000000000, 1000000000)]%Z /\ length (c_cells c) = 2.
Proof.
  split; [split; [cbn; lia|intros a v [E|[E|[E|[]]]]; injection E as <- <-; vm_compute; reflexivity]|].
  split; [intros a v [E|[E|[E|[]]]]; injection E as <- <-; split; reflexivity|].
  eexists. split; [vm_compute; reflexivity|split; reflexivity].
Qed.
Lemma sample_rows_once : once (fun i => i < length (u_blpair_array sample)) (row_wanted sample) by_rows.
Proof.
  assert (G : forall b t i, row_wanted sample (rows_of b t) i <-> exists x y, nth_error (u_blpair_array sample) i = Some x /\ nth_error (u_time_avg_array sample) i = Some y /\ x = b /\ exists t', In t' t /\ close y t').
  { intros b t i. unfold row_wanted. split.
    - intros (x & y & l & H1 & H2 & H3 & H4 & H5 & _). exists x, y. repeat split; try assumption; [|exact (H5 t eq_refl)].
      destruct H4 as [[_ H4]|[[bls [H4 _]]|[bps [H4 K]]]]; try discriminate. injection H4 as <-. destruct K as [K|[]]. congruence.
    - intros (x & y & H1 & H2 & H3 & H4). destruct (nth_error_lt (u_lst_avg_array sample) i) as [l Hl]; [apply nth_error_Some_lt in H2; exact H2|].
      exists x, y, l. repeat split; try assumption; [right; right; exists [b]; split; [reflexivity|left; congruence]|intros ts E; injection E as <-; exact H4|intros ts E; discriminate]. }
  split.
  - intros i Hi. cbn in Hi. destruct i as [|[|[|i]]]; [| | |lia].
    + exists (rows_of bA [1%Q]), (sel (rows_of bA [1%Q])). split; [left; reflexivity|]. apply G. exists bA, 1%Q. repeat split. exists 1%Q. split; [left; reflexivity|vm_compute; discriminate].
    + exists (rows_of bB [1%Q]), (sel (rows_of bB [1%Q])). split; [right; left; reflexivity|]. apply G. exists bB, 1%Q. repeat split. exists 1%Q. split; [left; reflexivity|vm_compute; discriminate].
    + exists (rows_of bA [2%Q]), (sel (rows_of bA [2%Q])). split; [right; right; left; reflexivity|]. apply G. exists bA, 2%Q. repeat split. exists 2%Q. split; [left; reflexivity|vm_compute; discriminate].
  - intros pre a v mid a' v' post E i Hi H1 H2.
    assert (P : (exists b t, a = rows_of b t) /\ (exists b t, a' = rows_of b t)).
    { assert (Q : forall x y, In (x, y) by_rows -> exists b t, x = rows_of b t) by (intros x y [F|[F|[F|[]]]]; injection F as <- _; eauto).
      split; eapply Q; rewrite E; apply in_or_app; right; [left; reflexivity|right; apply in_or_app; right; left; reflexivity]. }
    destruct pre as [|p0 pre]; [|destruct pre as [|p1 pre]].
    + injection E as <- <- E. destruct mid as [|m0 mid]; [injection E as <- <- _|injection E as _ E; destruct mid as [|m1 mid]; [injection E as <- <- _|injection E as _ E; destruct mid; discriminate]];
      apply G in H1, H2; destruct H1 as (x & y & A1 & A2 & A3 & t1 & [<-|[]] & A4), H2 as (x2 & y2 & B1 & B2 & B3 & t2 & [<-|[]] & B4).
      * rewrite A1 in B1. injection B1 as ->. subst. discriminate.
      * cbn in Hi. destruct i as [|[|[|i]]]; [| | |lia]; cbn in A2, B2; injection A2 as <-; injection B2 as <-; vm_compute in A4, B4; congruence.
    + injection E as _ <- <- E. destruct mid as [|m0 mid]; [injection E as <- <- _|injection E as _ E; destruct mid; discriminate].
      apply G in H1, H2; destruct H1 as (x & y & A1 & A2 & A3 & t1 & [<-|[]] & A4), H2 as (x2 & y2 & B1 & B2 & B3 & t2 & [<-|[]] & B4). rewrite A1 in B1. injection B1 as ->. subst. discriminate.
    + injection E as _ _ E. destruct pre as [|p2 pre]; [injection E as _ _ E; destruct mid; discriminate|injection E as _ E; destruct pre; discriminate].
Qed.
Example split_pols_case : pieces sample by_pols /\ (forall a v, In (a, v) by_pols -> only_pols a) /\ unique_lookup (fun t => t) (c_blpts (to_c zq (fun z => z) zq sample)) /\
  exists c, back by_pols = Ok c /\ c_pols c = [505; 606]%Z.
Proof.
  split; [split; [cbn; lia|intros a v [E|[E|[]]]; injection E as <- <-; vm_compute; reflexivity]|].
  split; [intros a v [E|[E|[]]]; injection E as <- <-; repeat split; reflexivity|]. split.
  - intros a b Ha Hb. vm_compute in Ha, Hb. destruct Ha as [<-|[<-|[<-|[]]]], Hb as [<-|[<-|[<-|[]]]]; intros E; (reflexivity || (vm_compute in E; discriminate)).
  - eexists. split; [vm_compute; reflexivity|reflexivity].
Qed.
Lemma sample_pols_once : once (fun p => In p (u_polpair_array sample)) pol_in by_pols.
Proof.
  split.
  - intros p [<-|[<-|[]]]; [exists (pols_of [505%Z]), (sel (pols_of [505%Z])); split; [right; left; reflexivity|left; reflexivity]|exists (pols_of [606%Z]), (sel (pols_of [606%Z])); split; [left; reflexivity|left; reflexivity]].
  - intros pre a v mid a' v' post E p _ H1 H2. destruct pre as [|p0 pre].
    + injection E as <- _ E. destruct mid as [|m0 mid]; [injection E as <- _ _|injection E as _ E; destruct mid; discriminate]. destruct H1 as [<-|[]], H2 as [H2|[]]. discriminate.
    + injection E as _ E. destruct pre as [|p1 pre]; [injection E as _ _ E; destruct mid; discriminate|injection E as _ E; destruct pre; discriminate].
Qed.
Example split_windows_case : pieces sample by_wins /\ (forall a v, In (a, v) by_wins -> only_windows a) /\
  exists c, back by_wins = Ok c /\ spws st1 c = spws st1 (to_c zq (fun z => z) zq sample).
Proof.
  split; [split; [cbn; lia|intros a v [E|[E|[]]]; injection E as <- <-; vm_compute; reflexivity]|].
  split; [intros a v [E|[E|[]]]; injection E as <- <-; repeat split; discriminate|]. eexists. split; [vm_compute; reflexivity|vm_compute; reflexivity].
Qed.
Lemma sample_windows_once : once (fun w => w < u_Nspws sample) window_in by_wins.
Proof.
  split.
  - intros w Hw. cbn in Hw. destruct w as [|[|w]]; [| |lia]; [exists (wins_of [0]), (sel (wins_of [0])); split; [right; left; reflexivity|left; reflexivity]|exists (wins_of [1]), (sel (wins_of [1])); split; [left; reflexivity|left; reflexivity]].
  - intros pre a v mid a' v' post E p _ H1 H2. destruct pre as [|p0 pre].
    + injection E as <- _ E. destruct mid as [|m0 mid]; [injection E as <- _ _|injection E as _ E; destruct mid; discriminate]. destruct H1 as [<-|[]], H2 as [H2|[]]. discriminate.
    + injection E as _ E. destruct pre as [|p1 pre]; [injection E as _ _ E; destruct mid; discriminate|injection E as _ E; destruct pre; discriminate].
Qed.

Definition fsample : uvp Z := Eval vm_compute in
  mkuvp true (u_Nspws sample) (u_spw_array sample) (u_spw_freq_array sample) (u_spw_dly_array sample) (u_freq_array sample) (u_dly_array sample) (u_scalar_array sample)
    (u_blpair_array sample) (u_time_1_array sample) (u_time_2_array sample) (u_time_avg_array sample) (u_lst_1_array sample) (u_lst_2_array sample) (u_lst_avg_array sample)
    (u_bl_array sample) (u_bl_vecs sample) (u_polpair_array sample) (u_data sample) (u_wgt sample) (u_integration sample) (u_nsample sample) None None None
    (u_label_1_array sample) (u_label_2_array sample) (u_OmegaP sample).
Definition fsel (a : select_args) : uvp Z := match select fsample a with Ok v => v | Err _ => sample end.
Definition fparts := [(wins_of [1], fsel (wins_of [1])); (wins_of [0], fsel (wins_of [0]))].

(** a folded object split by windows does not come back: the delays that are not positive are gone from the delay axis *)
Theorem split_folded_windows_refuted : exists (u : uvp Z) parts c, usual zq (fun z => z) zq st1 u /\ pieces u parts /\
  (forall a v, In (a, v) parts -> only_windows a) /\ once (fun w => w < u_Nspws u) window_in parts /\ u_folded u = true /\
  back parts = Ok c /\ map (fun w => length (w_dlys w)) (c_windows c) = [1; 1] /\ map (fun w => length (w_dlys w)) (c_windows (to_c zq (fun z => z) zq u)) = [3; 4].
Proof.
  assert (B : exists c, back fparts = Ok c /\ map (fun w => length (w_dlys w)) (c_windows c) = [1; 1]).
  { destruct (back fparts) as [c|] eqn:E; vm_compute in E; [|discriminate]. injection E as <-. eexists. split; [reflexivity|vm_compute; reflexivity]. }
  destruct B as (c & B1 & B2). exists fsample, fparts, c. split.
  { pose proof sample_usual as U. destruct U as [U1 U2 U3 U4 U5 U6 U7 U8 U9]. split; try assumption. destruct U1. constructor; assumption. }
  split; [split; [cbn; lia|intros a v [E|[E|[]]]; injection E as <- <-; vm_compute; reflexivity]|].
  split; [intros a v [E|[E|[]]]; injection E as <- <-; repeat split; discriminate|]. split.
  { split.
    - intros w Hw. cbn in Hw. destruct w as [|[|w]]; [| |lia]; [exists (wins_of [0]), (fsel (wins_of [0])); split; [right; left; reflexivity|left; reflexivity]|exists (wins_of [1]), (fsel (wins_of [1])); split; [left; reflexivity|left; reflexivity]].
    - intros pre a v mid a' v' post E p _ H1 H2. destruct pre as [|p0 pre].
      + injection E as <- _ E. destruct mid as [|m0 mid]; [injection E as <- _ _|injection E as _ E; destruct mid; discriminate]. destruct H1 as [<-|[]], H2 as [H2|[]]. discriminate.
      + injection E as _ E. destruct pre as [|p1 pre]; [injection E as _ _ E; destruct mid; discriminate|injection E as _ E; destruct pre; discriminate]. }
  split; [reflexivity|]. split; [exact B1|]. split; [exact B2|vm_compute; reflexivity].
Qed.
Print Assumptions split_folded_windows_refuted.

(** * C08: a selection keeps every baseline with its own vector *)
Theorem select_keeps_vectors : forall (X : Type) (u v : uvp X) a, wf u -> select u a = Ok v ->
  combine (u_bl_array v) (u_bl_vecs v) =
    (if match a_bls a, a_blpairs a, a_times a, a_lsts a with None, None, None, None => true | _, _, _, _ => false end then combine (u_bl_array u) (u_bl_vecs u)
     else filter (fun bv => existsb (fun b => (fst bv =? b / 1000000)%Z || (fst bv =? b mod 1000000)%Z) (u_blpair_array v)) (combine (u_bl_array u) (u_bl_vecs u))).
Proof.
  intros X u v a W H. destruct (select_bl_vecs u a v W H) as [(N & -> & ->)|(N & E)].
  - destruct N as (-> & -> & -> & ->). reflexivity.
  - rewrite E. destruct (a_bls a) eqn:E1, (a_blpairs a) eqn:E2, (a_times a) eqn:E3, (a_lsts a) eqn:E4; try reflexivity. exfalso. apply N. repeat split; assumption.
Qed.
Print Assumptions select_keeps_vectors.
Example select_vectors_case : option_map (fun v => combine (u_bl_array v) (u_bl_vecs v)) (match select sample (rows_of bA [2%Q]) with Ok v => Some v | _ => None end) = Some [(101102, 7)]%Z.
Proof. vm_compute. reflexivity. Qed.
