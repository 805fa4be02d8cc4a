(** Strengthenings of C17, C18 and C20 found by mutation testing: the same claims without model
    helpers in their statements. *)
From Coq Require Import String Reals QArith.
From Verif Require Import PyDict PyStr.
From Verif Require Import Prelude ListLemmas ContainerModel ContainerProofs PscCombineModel PscCombineProofs PscCombineProps
  UvpModel UvpSpec UvpProofs KeyProofs LengthProofs AvgModel AvgProofs AvgMain AvgObject AvgProps
  GroupModel GroupProofs.
Open Scope nat_scope.

(** * C17: what a merged spectrum contains *)
Lemma read_parts (obj : Type) (f : pystr -> bool) (d : list (pystr * obj)) : NoDup (map fst d) ->
  map_res (read_one d) (filter f (map fst d)) = Ok (map snd (filter (fun kv => f (fst kv)) d)).
Proof.
  intros N.
  assert (G : forall d1, (forall k v, In (k, v) d1 -> dget pystr_dec d k = Some v) ->
    map_res (read_one d) (filter f (map fst d1)) = Ok (map snd (filter (fun kv => f (fst kv)) d1))).
  { induction d1 as [|[k v] d1 IH]; intro H; [reflexivity|]. cbn [map filter fst].
    assert (IH' := IH (fun k v Hk => H k v (or_intror Hk))).
    destruct (f k); [|exact IH'].
    cbn [map_res]. unfold read_one at 1. rewrite (H k v (or_introl eq_refl)). cbn [bind]. rewrite IH'. reflexivity. }
  apply G. intros k v Hk. clear G. induction d as [|[k1 v1] d IH]; [destruct Hk|]. cbn [map fst] in N.
  inversion N as [|? ? Nk N']; subst. cbn [dget]. destruct (pystr_dec k k1) as [->|Nk1].
  - destruct Hk as [E|Hk]; [congruence|]. exfalso. apply Nk. apply (in_map fst) in Hk. exact Hk.
  - destruct Hk as [E|Hk]; [congruence|]. apply IH; assumption.
Qed.

(** [parts b]: the objects stored under the names whose output is [b], in stored order *)
Theorem C17_contents : forall (obj : Type) (combine : list obj -> result obj) dsep esep overwrite (d : list (pystr * obj)),
  let names := map fst d in let base := base_name dsep esep in
  let d' := combine_group combine dsep esep overwrite d in
  let parts b := map snd (filter (fun kv => str_eqb (base (fst kv)) b) d) in
  NoDup names ->
  (forall n m, In n names -> In m names -> substr (base n) m = str_eqb (base m) (base n)) ->
  (forall n m, In n names -> In m names -> base n = m -> base m = base n) ->
  forall n b, In n names -> b = base n -> (In b names -> overwrite = true) ->
  (* one object: it is stored as it is under the output name *)
  (forall o, parts b = [o] -> dget pystr_dec d' b = Some o /\ (n <> b -> dget pystr_dec d' n = None)) /\
  (* several: the result of combining all of them *)
  (forall m, 2 <= List.length (parts b) -> combine (parts b) = Ok m ->
     dget pystr_dec d' b = Some m /\ (n <> b -> dget pystr_dec d' n = None)) /\
  (* they cannot be combined: nothing happens to any of them *)
  (forall e, 2 <= List.length (parts b) -> combine (parts b) = Err e ->
     dget pystr_dec d' b = dget pystr_dec d b /\ dget pystr_dec d' n = dget pystr_dec d n).
Proof.
  intros obj combine dsep esep ov d names base d' parts N H1 H2 n b Hn -> Hov.
  pose proof (C17_merge obj combine dsep esep ov d N H1 H2) as [_ M]. specialize (M n Hn). cbv zeta in M.
  fold names base d' in M.
  assert (F : memS (base n) names && negb ov = false).
  { destruct (memS (base n) names) eqn:E; [|reflexivity]. apply memS_In in E. rewrite (Hov E). reflexivity. }
  rewrite F in M. unfold merged in M. unfold names in M.
  rewrite (read_parts obj (fun m => str_eqb (base m) (base n)) d N) in M. cbn [bind] in M.
  change (map snd (filter (fun kv => str_eqb (base (fst kv)) (base n)) d)) with (parts (base n)) in M.
  split; [|split].
  - intros o E. rewrite E in M. exact M.
  - intros m L E. destruct (parts (base n)) as [|x [|y l]]; cbn [List.length] in L; [lia|lia|].
    rewrite E in M. exact M.
  - intros m L E. destruct (parts (base n)) as [|x [|y l]]; cbn [List.length] in L; [lia|lia|].
    rewrite E in M. destruct M; split; assumption.
Qed.
Print Assumptions C17_contents.
Example C17_contents_case :
  let d := [(s_ "a_x_b_1", [1]); (s_ "a_x_b_2", [2]); (s_ "c_x_d_1", [3])] in
  map snd (filter (fun kv => str_eqb (base_name xdsep (s_ "_") (fst kv)) (s_ "a_x_b")) d) = [[1]; [2]] /\
  map snd (filter (fun kv => str_eqb (base_name xdsep (s_ "_") (fst kv)) (s_ "c_x_d")) d) = [[3]] /\
  dget pystr_dec (combine_group cat xdsep (s_ "_") false d) (s_ "c_x_d") = Some [3] /\
  dget pystr_dec (combine_group cat xdsep (s_ "_") false d) (s_ "c_x_d_1") = None.
Proof. vm_compute. repeat split. Qed.

(** * C18: the metadata of the averaged object *)
(** the entries of [vals] in the rows whose baseline-pair is [b] *)
Definition rows_of (keys : list Z) (vals : list Q) (b : Z) : list Q :=
  map snd (filter (fun kv => Z.eqb (fst kv) b) (combine keys vals)).
Definition mean_of (l : list Q) : Q := (fold_right Qplus 0 l / inject_Z (Z.of_nat (List.length l)))%Q.
(** one value per group when times are averaged, otherwise the rows of the first member *)
Definition averaged_rows (ta : bool) (m : list Q -> Q) (keys : list Z) (vals : list Q) (firsts : list Z) : list Q :=
  concat (map (fun b => if ta then [m (rows_of keys vals b)] else rows_of keys vals b) firsts).

Lemma mask_rows keys : forall vals b, mask (or_maskZ keys [b]) vals = rows_of keys vals b.
Proof.
  induction keys as [|k keys IH]; intros vals b; [reflexivity|]. destruct vals as [|v vals]; [reflexivity|].
  unfold rows_of. cbn [or_maskZ map mask combine filter fst].
  assert (E : memZ k [b] = Z.eqb k b) by (cbn; destruct (Z.eqb k b); reflexivity). rewrite E.
  specialize (IH vals b). unfold or_maskZ, rows_of in IH. rewrite IH. destruct (Z.eqb k b); reflexivity.
Qed.

Lemma meta_rows_eq u ta m (f : uvp R -> list Q) gs r : List.length (f u) = List.length (u_blpair_array u) ->
  meta_rows u ta m f gs = Ok r ->
  r = averaged_rows ta m (u_blpair_array u) (f u) (map (fun g => hd 0%Z (fst g)) gs).
Proof.
  intros L H. unfold meta_rows in H. apply bind_ok in H. destruct H as [l [Hl H]]. injection H as <-.
  unfold averaged_rows. f_equal. apply map_res_spec in Hl. induction Hl as [|g x gs l Hg Hl IH]; [reflexivity|].
  cbn [map]. f_equal; [|exact IH]. apply bind_ok in Hg. destruct Hg as [idx [Hi Hg]].
  unfold blpair_to_indices in Hi. apply require_ok in Hi. destruct Hi as [_ Hi]. injection Hi as <-.
  rewrite (gather_mask (u_blpair_array u) (f u) (hd 0%Z (fst g)) (eq_sym L)) in Hg. cbn [bind] in Hg.
  injection Hg as <-. rewrite mask_rows. reflexivity.
Qed.

Theorem C18_metadata : forall u ta norm errw exact_w order circ groups weights u' gs,
  wf u -> effective_groups u exact_w order groups weights = Ok gs ->
  average_spectra u exact_w order circ ta norm errw groups weights = Ok u' ->
  let keys := u_blpair_array u in
  let firsts := map (fun g => hd 0%Z (fst g)) gs in
  u_blpair_array u' = concat (map (fun b => if ta then [b] else repeat b (count_occ Z.eq_dec keys b)) firsts) /\
  u_time_1_array u' = averaged_rows ta mean_of keys (u_time_1_array u) firsts /\
  u_time_2_array u' = averaged_rows ta mean_of keys (u_time_2_array u) firsts /\
  u_time_avg_array u' = averaged_rows ta mean_of keys (u_time_avg_array u) firsts /\
  u_lst_1_array u' = averaged_rows ta circ keys (u_lst_1_array u) firsts /\
  u_lst_2_array u' = averaged_rows ta circ keys (u_lst_2_array u) firsts /\
  u_lst_avg_array u' = averaged_rows ta circ keys (u_lst_avg_array u) firsts /\
  u_polpair_array u' = u_polpair_array u /\ u_freq_array u' = u_freq_array u /\ u_dly_array u' = u_dly_array u /\
  u_scalar_array u' = u_scalar_array u /\ u_folded u' = u_folded u.
Proof.
  intros u ta norm errw exact_w order circ groups weights u' gs W Hgs Hav keys firsts.
  pose proof (blpair_rows_eq u ta norm errw exact_w order circ groups weights u' gs Hgs Hav) as [Hb _].
  unfold average_spectra in Hav. rewrite Hgs in Hav. cbn [bind] in Hav.
  apply bind_ok in Hav. destruct Hav as [spws [_ H]]. apply bind_ok in H. destruct H as [bl [_ H]].
  apply bind_ok in H; destruct H as [t1 [Ht1 H]]. apply bind_ok in H; destruct H as [t2 [Ht2 H]].
  apply bind_ok in H; destruct H as [tm [Htm H]]. apply bind_ok in H; destruct H as [l1 [Hl1 H]].
  apply bind_ok in H; destruct H as [l2 [Hl2 H]]. apply bind_ok in H; destruct H as [la [Hla H]].
  pose proof (meta_rows_eq _ _ _ _ _ _ (wf_t1 u W) Ht1) as E1. pose proof (meta_rows_eq _ _ _ _ _ _ (wf_t2 u W) Ht2) as E2.
  pose proof (meta_rows_eq _ _ _ _ _ _ (wf_ta u W) Htm) as E3. pose proof (meta_rows_eq _ _ _ _ _ _ (wf_l1 u W) Hl1) as E4.
  pose proof (meta_rows_eq _ _ _ _ _ _ (wf_l2 u W) Hl2) as E5. pose proof (meta_rows_eq _ _ _ _ _ _ (wf_la u W) Hla) as E6.
  split.
  - rewrite Hb. unfold firsts. rewrite map_map. f_equal. apply map_ext. intro g. unfold grows, out_rows.
    destruct ta; reflexivity.
  - injection H as <-. cbn. rewrite E1, E2, E3, E4, E5, E6. repeat split; reflexivity.
Qed.
Print Assumptions C18_metadata.
Example C18_metadata_case : exists u',
  average_spectra avg_obj false (fun l => l) (fun _ => 0%Q) true true false [[22; 11]%Z] None = Ok u' /\
  u_blpair_array u' = [22%Z] /\ exists t, u_time_1_array u' = [t] /\ (t == 1 # 2)%Q.
Proof.
  destruct (C18_total avg_obj true (fun l => l) (fun _ => 0%Q) [[22; 11]%Z] avg_obj_averageable) as [u' H].
  - intros s Hs. cbn in Hs. assert (s = 0) by lia. subst. cbn. tauto.
  - intro l. apply Permutation.Permutation_refl.
  - discriminate.
  - intros g [<-|[]]. split; [discriminate|]. cbn. tauto.
  - intros g [<-|[]]. left; reflexivity.
  - exists u'. split; [exact H|].
    destruct (C18_metadata avg_obj true true false false (fun l => l) (fun _ => 0%Q) [[22; 11]%Z] None u' _
      (proj1 avg_obj_averageable) eq_refl H) as [B [T _]].
    rewrite B. split; [reflexivity|]. eexists. split; [rewrite T; reflexivity|]. reflexivity.
Qed.

(** * C20: the draw of a group is cut over several objects without losing or repeating a draw *)
Lemma skipn_add {A} (l : list A) : forall a b, skipn a (skipn b l) = skipn (b + a) l.
Proof. induction l as [|x l IH]; intros a [|b]; try reflexivity; [destruct a; reflexivity|]. cbn. apply IH. Qed.
Lemma split_nth {W} avail : forall (w : list W) i a, nth_error avail i = Some a ->
  nth_error (split_weights avail w) i =
  Some (a, firstn (List.length a) (skipn (List.length (concat (firstn i avail))) w)).
Proof.
  induction avail as [|x avail IH]; intros w [|i] a H; try discriminate.
  - injection H as ->. reflexivity.
  - cbn [split_weights nth_error firstn concat] in *. rewrite (IH _ _ _ H), skipn_add, app_length. reflexivity.
Qed.
Lemma split_fst {W} avail : forall (w : list W), map fst (split_weights avail w) = avail.
Proof. induction avail as [|x avail IH]; intro w; [reflexivity|]. cbn [split_weights map fst]. f_equal. apply IH. Qed.

Theorem C20_split_over_objects : forall objs grp draw,
  let r := bootstrap_group objs grp draw in
  let total := List.length (concat (map fst r)) in
  List.length r = List.length objs /\
  forall i o, nth_error objs i = Some o -> exists blps ws, nth_error r i = Some (blps, ws) /\
    NoDup blps /\ (forall b, In b blps <-> In b grp /\ In b o) /\
    List.length ws = List.length blps /\
    let before := List.length (concat (map fst (firstn i r))) in
    forall j, j < List.length blps -> nth_error ws j = Some (count_occ Nat.eq_dec (draw total) (before + j)).
Proof.
  intros objs grp draw r total. unfold total. clear total.
  set (avail := map (avail_in grp) objs). set (num := List.length (concat avail)).
  assert (Er : r = split_weights avail (multiplicities num (draw num))) by reflexivity.
  assert (Ef : map fst r = avail) by (rewrite Er; apply split_fst). rewrite Ef. fold num. split.
  - transitivity (List.length (map fst r)); [symmetry; apply map_length|]. rewrite Ef. apply map_length.
  - intros i o Ho. assert (Ha : nth_error avail i = Some (avail_in grp o)) by (apply map_nth_error; exact Ho).
    eexists _, _. split; [rewrite Er; apply split_nth; exact Ha|].
    destruct (avail_in_spec grp o) as [Nd HI]. split; [exact Nd|]. split; [exact HI|].
    assert (Eb : concat (map fst (firstn i r)) = concat (firstn i avail)) by (rewrite <- firstn_map, Ef; reflexivity).
    assert (Lc : List.length (concat (firstn i avail)) + List.length (avail_in grp o) <= num).
    { unfold num. rewrite <- (firstn_skipn i avail) at 2. rewrite concat_app, app_length.
      assert (Hs : exists l, skipn i avail = avail_in grp o :: l).
      { clear -Ha. revert Ha. generalize (avail_in grp o) as a. revert i. induction avail as [|x avail IH]; intros [|i] a H; try discriminate.
        - injection H as ->. eexists; reflexivity.
        - cbn [skipn]. apply IH. exact H. }
      destruct Hs as [l ->]. cbn [concat]. rewrite app_length. lia. }
    split.
    + rewrite firstn_length, skipn_length, multiplicities_length. lia.
    + cbv zeta. rewrite Eb. intros j Hj.
      assert (NF : forall (l : list nat) k q, k < q -> nth_error (firstn q l) k = nth_error l k).
      { clear. intro l. induction l as [|x l IH]; intros [|k] [|q] H; try lia; try reflexivity. cbn. apply IH. lia. }
      assert (NS : forall (l : list nat) k q, nth_error (skipn q l) k = nth_error l (q + k)).
      { clear. intro l. induction l as [|x l IH]; intros k [|q]; try reflexivity. - destruct k; reflexivity. - cbn. apply IH. }
      rewrite NF, NS by exact Hj. unfold multiplicities.
      rewrite (map_nth_error _ (_ + j) (seq 0 num) (d := (List.length (concat (firstn i avail)) + j))).
      * f_equal. generalize (draw num). clear. intro l. generalize (List.length (concat (firstn i avail)) + j) as v. intro v.
        induction l as [|x l IH]; [reflexivity|]. cbn. destruct (Nat.eqb_spec v x) as [->|Nx].
        -- destruct (Nat.eq_dec x x); [|congruence]. cbn. f_equal. exact IH.
        -- destruct (Nat.eq_dec x v); [congruence|]. exact IH.
      * rewrite (nth_error_nth' _ 0) by (rewrite seq_length; lia). rewrite seq_nth by lia. reflexivity.
Qed.
Print Assumptions C20_split_over_objects.
Example C20_split_case :
  bootstrap_group [[5; 6]; [7; 8]]%Z [8; 5; 7; 6]%Z (fun _ => [0; 2; 3; 3]) =
  [([5; 6]%Z, [1; 0]); ([8; 7]%Z, [1; 2])].
Proof. reflexivity. Qed.
