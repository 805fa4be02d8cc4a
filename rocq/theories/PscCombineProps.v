(** Property C17: combine_psc_spectra. *)
From Coq Require Import String.
From Verif Require Import PyDict PyStr.
From Verif Require Import Prelude ContainerModel ContainerProofs PscCombineModel PscCombineProofs.
Open Scope nat_scope.

(** when every output name is a substring of exactly the names it is the output of, each output
    [b] either receives the merge of the objects called b* (in stored order), which then
    disappear under their old names, or nothing at all happens to them *)
Theorem C17_merge : forall (obj : Type) (combine : list obj -> result obj) dsep esep overwrite (d : list (pystr * obj)),
  let names := map fst d in let base := base_name dsep esep in
  let d' := combine_group combine dsep esep overwrite d in
  NoDup names ->
  (forall n m, In n names -> In m names -> substr (base n) m = str_eqb (base m) (base n)) ->
  (forall n m, In n names -> In m names -> base n = m -> base m = base n) ->
  (* keys that are no output and no input are untouched *)
  (forall k, ~ In k names -> (forall n, In n names -> base n <> k) -> dget pystr_dec d' k = None) /\
  (forall n, In n names -> let b := base n in
     let parts := filter (fun m => str_eqb (base m) b) names in
     match (if memS b names && negb overwrite then Err ValueError
            else merged combine d parts) with
     | Ok m => dget pystr_dec d' b = Some m /\ (n <> b -> dget pystr_dec d' n = None)
     | Err _ => dget pystr_dec d' n = dget pystr_dec d n /\ dget pystr_dec d' b = dget pystr_dec d b
     end).
Proof.
  intros obj combine dsep esep overwrite d names base d' N Sep Bf.
  pose proof (group_done combine dsep esep overwrite d Sep Bf) as D. fold d' in D.
  destruct (unique_spec dsep esep names) as [NU HU]. fold base in HU.
  split.
  - intros k Hk Hb. rewrite D. destruct (find _ _) as [y|] eqn:F.
    + apply find_some in F. destruct F as [Hy Py]. destruct (pystr_dec k y) as [->|Nk]; [|reflexivity].
      exfalso. apply HU in Hy. destruct Hy as [n [Hn E]]. exact (Hb n Hn E).
    + apply dget_None. exact Hk.
  - intros n Hn b parts.
    assert (HbU : In b (unique_spectra dsep esep names)) by (apply HU; exists n; auto).
    assert (Hnm : In n (members dsep esep d b)) by (apply members_In; auto).
    assert (Key : forall k, k = b \/ In k (members dsep esep d b) ->
      dget pystr_dec d' k = match outcome combine dsep esep overwrite d b with
                            | Some m => if pystr_dec k b then Some m else None
                            | None => dget pystr_dec d k end).
    { intros k Hk. rewrite D. destruct (find _ _) as [y|] eqn:F.
      - apply find_some in F. destruct F as [Hy Py].
        assert (y = b) as ->.
        { destruct (outcome combine dsep esep overwrite d y) eqn:Oy; [|discriminate].
          assert (Hky : k = y \/ In k (members dsep esep d y)).
          { destruct (pystr_dec k y); [auto|]. destruct (in_dec pystr_dec k (members dsep esep d y)); [auto|discriminate]. }
          destruct Hk as [->|Hk].
          - destruct Hky as [E|Hky]; [congruence|].
            exact (touched_disjoint dsep esep d Bf y b b Hy HbU Hky (or_introl eq_refl)).
          - symmetry. exact (touched_disjoint dsep esep d Bf b y k HbU Hy Hk Hky). }
        destruct (outcome combine dsep esep overwrite d b); [reflexivity | discriminate].
      - pose proof (find_none _ _ F b HbU) as Q. cbv beta in Q.
        destruct (outcome combine dsep esep overwrite d b); [|reflexivity].
        destruct Hk as [->|Hk]; [destruct (pystr_dec b b); congruence|].
        destruct (pystr_dec k b); [discriminate|]. destruct (in_dec pystr_dec k (members dsep esep d b)); [discriminate|contradiction]. }
    unfold parts. fold (members dsep esep d b).
    pose proof (Key b (or_introl eq_refl)) as Kb. pose proof (Key n (or_intror Hnm)) as Kn.
    unfold outcome in Kb, Kn. unfold members in Kb, Kn. fold names in Kb, Kn. fold base in Kb, Kn.
    destruct (memS b names && negb overwrite); [auto|].
    destruct (merged combine d _) as [m|e]; [|auto].
    split; [rewrite Kb; destruct (pystr_dec b b); congruence|]. intros Ne. rewrite Kn. destruct (pystr_dec n b); congruence.
Qed.
Print Assumptions C17_merge.

Definition cat (l : list (list nat)) : result (list nat) := Ok (concat l).
Definition xdsep := Some (s_ "_x_").
Example C17_merge_case :
  let d := [(s_ "a_x_b_1", [1]); (s_ "a_x_b_2", [2]); (s_ "c_x_d_1", [3])] in
  let names := map fst d in let base := base_name xdsep (s_ "_") in
  NoDup names /\
  (forall n m, In n names -> In m names -> substr (base n) m = str_eqb (base m) (base n)) /\
  (forall n m, In n names -> In m names -> base n = m -> base m = base n) /\
  combine_group cat xdsep (s_ "_") false d = [(s_ "a_x_b", [1; 2]); (s_ "c_x_d", [3])].
Proof.
  cbv zeta. split; [|split; [|split]].
  - repeat constructor; cbn [In map fst]; intros H; repeat (destruct H as [H|H]; [vm_compute in H; discriminate|]); exact H.
  - cbn [In map fst]. intros n m Hn Hm. repeat (destruct Hn as [<-|Hn]; [|]); try contradiction;
    repeat (destruct Hm as [<-|Hm]; [vm_compute; reflexivity|]); contradiction.
  - cbn [In map fst]. intros n m Hn Hm E. repeat (destruct Hn as [<-|Hn]; [|]); try contradiction;
    repeat (destruct Hm as [<-|Hm]; [vm_compute in E; discriminate|]); contradiction.
  - vm_compute. reflexivity.
Qed.

(** but the test is "contains", so an output also swallows spectra of other datasets whose name
    contains it, and deletes them *)
Theorem C17_substring_refuted : exists d : list (pystr * list nat),
  let names := map fst d in
  base_name xdsep (s_ "_") (s_ "a_x_bc_1") = s_ "a_x_bc" /\ base_name xdsep (s_ "_") (s_ "a_x_b_1") = s_ "a_x_b" /\
  dget pystr_dec d (s_ "a_x_bc_1") = Some [7] /\
  dget pystr_dec (combine_group cat xdsep (s_ "_") false d) (s_ "a_x_b") = Some [1; 7] /\
  dget pystr_dec (combine_group cat xdsep (s_ "_") false d) (s_ "a_x_bc_1") = None /\
  dget pystr_dec (combine_group cat xdsep (s_ "_") false d) (s_ "a_x_bc") = None.
Proof. exists [(s_ "a_x_b_1", [1]); (s_ "a_x_bc_1", [7])]. vm_compute. repeat split. Qed.
Print Assumptions C17_substring_refuted.

(** a dataset label with an underscore: the output name is wrong and nothing is merged *)
Theorem C17_underscore_label_refuted : exists d : list (pystr * list nat),
  map fst d = [s_ "my_d_x_b_1"; s_ "my_d_x_b_2"] /\ combine_group cat xdsep (s_ "_") true d = d.
Proof. exists [(s_ "my_d_x_b_1", [1]); (s_ "my_d_x_b_2", [2])]. vm_compute. split; reflexivity. Qed.
Print Assumptions C17_underscore_label_refuted.

(** a container in transactional mode cannot be combined at all *)
Theorem C17_keep_open_required : forall (obj : Type) combine dsep esep ov (d : list (pystr * obj)),
  combine_psc combine false dsep esep ov d = Err TypeError /\
  combine_psc combine true dsep esep ov d = Ok (combine_group combine dsep esep ov d).
Proof. intros. split; reflexivity. Qed.
