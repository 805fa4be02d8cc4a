(** Property C10: fold_spectra. *)
From Coq Require Import QArith Qabs.
From Verif Require Import PyDict.
From Verif Require Import Prelude ListLemmas UvpModel UvpSpec FoldModel FoldProofs LengthProofs UvpProps.
Open Scope nat_scope.

Definition meanQ (x y : Q) : Q := ((x + y) / 2)%Q.
Definition quarterQ (a b c d : Q) : Q := ((1 # 4) * (a + b + c + d))%Q.

(** one spectrum [l] of [n] bins; bin [z = n/2] is zero delay, bin [z+m] delay [+m], bin [z-m]
    delay [-m]: +m becomes the mean of +m and -m, zero delay stays, negative bins are filled *)
Theorem C10_fold_bins : forall (fill : Q) (l : list Q), let n := length l in let z := n / 2 in
  length (fold_spectrum meanQ fill l) = n /\
  (forall i, i < z -> nth_error (fold_spectrum meanQ fill l) i = Some fill) /\
  nth_error (fold_spectrum meanQ fill l) z = nth_error l z /\
  (forall m, 0 < m -> z + m < n -> exists x y, nth_error l (z - m) = Some x /\ nth_error l (z + m) = Some y /\
       m <= z /\ nth_error (fold_spectrum meanQ fill l) (z + m) = Some ((x + y) / 2)%Q).
Proof.
  intros fill l n z. split; [exact (fold_spectrum_length meanQ fill l) | exact (fold_spectrum_bins meanQ fill l)].
Qed.
Print Assumptions C10_fold_bins.

Example C10_fold_case : fold_spectrum meanQ 0%Q [9; 1; 2; 3; 4; 6]%Q = [0; 0; 0; 3; (2 + 4) / 2; (1 + 6) / 2]%Q /\
  fold_spectrum meanQ 0%Q [1; 2; 3; 4; 6]%Q = [0; 0; 3; (2 + 4) / 2; (1 + 6) / 2]%Q.
Proof. split; reflexivity. Qed.

(** an even number of delays: the most negative bin has no partner and is dropped *)
Theorem C10_even_drops_first : forall (X : Type) (f : X -> X -> X) fill x y (l : list X),
  Nat.even (S (length l)) = true -> fold_spectrum f fill (x :: l) = fold_spectrum f fill (y :: l).
Proof.
  intros X f fill x y l E. unfold fold_spectrum. cbn [length]. set (n := S (length l)).
  unfold first_paired. replace (Nat.even n) with true by (symmetry; exact E).
  assert (Hz : 1 <= n / 2).
  { pose proof (halves n) as H. unfold n in *. destruct l as [|a l]; [discriminate|]. cbn [length] in *. lia. }
  destruct (n / 2) as [|k]; [lia|]. reflexivity.
Qed.
Print Assumptions C10_even_drops_first.

(** the whole object: every spectrum is folded, nsample doubled, everything else unchanged *)
Theorem C10_fold_object : forall (X : Type) mean invquad zero nan double (u u' : uvp X),
  fold_uvp mean invquad zero nan double u = Ok u' ->
  fold_spec mean invquad zero nan double u u' /\ (wf u -> wf u').
Proof. intros X. exact (@fold_correct X). Qed.
Print Assumptions C10_fold_object.

Theorem C10_fold_total : forall (X : Type) mean invquad zero nan double (u : uvp X),
  wf u -> u_folded u = false -> exists u', fold_uvp mean invquad zero nan double u = Ok u'.
Proof. intros X. exact (@fold_total X). Qed.
Print Assumptions C10_fold_total.

Theorem C10_fold_refuses_twice : forall (X : Type) mean invquad zero nan double (u u' : uvp X),
  fold_uvp mean invquad zero nan double u = Ok u' ->
  fold_uvp mean invquad zero nan double u' = Err AssertionError.
Proof.
  intros X mean invquad zero nan double u u' H. apply fold_twice.
  exact (fo_now _ _ _ _ _ _ _ (proj1 (fold_correct _ _ _ _ _ u u' H))).
Qed.
Print Assumptions C10_fold_refuses_twice.

Example C10_object_case : exists u', Zfold sample = Ok u' /\ u_folded u' = true.
Proof. eexists. split; vm_compute; reflexivity. Qed.

(** statistics: bins up to zero delay untouched, bin +m combines -m and +m *)
Theorem C10_fold_stats : forall (X : Type) (f : X -> X -> X) (l : list X), let n := length l in let z := n / 2 in
  (forall i, i <= z -> nth_error (fold_stat f l) i = nth_error l i) /\
  (forall m, 0 < m -> z + m < n -> exists x y, nth_error l (z - m) = Some x /\ nth_error l (z + m) = Some y /\
       nth_error (fold_stat f l) (z + m) = Some (f x y)).
Proof. intros X. exact (@fold_stat_bins X). Qed.
Print Assumptions C10_fold_stats.

(** covariance of the folded bands, away from zero delay: with folded(m) = (p(-m) + p(+m))/2,
    Cov(folded a, folded b) is the quarter sum of the four covariances *)
Theorem C10_fold_covariance : forall n (M : list (list Q)), dims M n n ->
  let z := n / 2 in let F := fold_matrix quarterQ 0%Q n n M in
  dims F n n /\
  (forall i j, i < n -> j < n -> i < z \/ j < z -> entry F i j = Some 0%Q) /\
  entry F z z = entry M z z /\
  (forall a b, 0 < a -> z + a < n -> 0 < b -> z + b < n -> exists w x y t,
     entry M (z - a) (z - b) = Some w /\ entry M (z - a) (z + b) = Some x /\
     entry M (z + a) (z - b) = Some y /\ entry M (z + a) (z + b) = Some t /\
     entry F (z + a) (z + b) = Some ((1 # 4) * (w + x + y + t))%Q).
Proof.
  intros n M D z F. destruct (fold_matrix_entries quarterQ 0%Q n n M D) as [H1 [H2 [H3 [H4 H5]]]].
  split; [exact H1|]. split; [exact H2|]. split; [|exact H5].
  destruct (Nat.lt_ge_cases z n) as [H|H].
  - apply H3; [lia | exact H].
  - unfold entry. destruct H1 as [L1 _]. destruct D as [L2 _].
    assert (E1 : nth_error F z = None) by (apply nth_error_None; unfold F; rewrite L1; exact H).
    assert (E2 : nth_error M z = None) by (apply nth_error_None; lia). rewrite E1, E2. reflexivity.
Qed.
Print Assumptions C10_fold_covariance.

(** but the covariance between zero delay and the folded delays is left as it was, for every
    matrix: it is not the mean of the two covariances unless they are equal *)
Theorem C10_covariance_zero_row_refuted : forall n (M : list (list Q)), dims M n n ->
  let z := n / 2 in let F := fold_matrix quarterQ 0%Q n n M in
  forall b x y, 0 < b -> z + b < n -> entry M z (z - b) = Some x -> entry M z (z + b) = Some y ->
  ~ (x == y)%Q -> exists v, entry F z (z + b) = Some v /\ ~ (v == (x + y) / 2)%Q.
Proof.
  intros n M D z F b x y Hb Hn Ex Ey Ne. exists y. split.
  - destruct (fold_matrix_entries quarterQ 0%Q n n M D) as [_ [_ [H3 _]]].
    unfold F, z. rewrite H3; [exact Ey | unfold z in *; lia | exact Hn].
  - intros C. apply Ne. assert (E : (y * 2 == x + y)%Q) by (rewrite C at 1; field).
    setoid_replace x with (y * 2 - y)%Q by (rewrite E; ring). ring.
Qed.
Print Assumptions C10_covariance_zero_row_refuted.

Example C10_covariance_case : dims [[1; 0; 0]; [1; 2; 3]; [0; 0; 5]]%Q 3 3 /\
  fold_matrix quarterQ 0%Q 3 3 [[1; 0; 0]; [1; 2; 3]; [0; 0; 5]]%Q = [[0; 0; 0]; [0; 2; 3]; [0; 0; (1 # 4) * (1 + 0 + 0 + 5)]]%Q.
Proof. split; [split; [reflexivity|]; intros r [<-|[<-|[<-|[]]]]; reflexivity | reflexivity]. Qed.

(** window functions, non-exact mode: the factor 0.25 halves the response. The identity (each band
    measures exactly its own delay) folds to a matrix with 1/2 on the diagonal, for every size *)
Theorem C10_window_identity_refuted : forall n (M : list (list Q)), dims M n n ->
  (forall i j, i < n -> j < n -> entry M i j = Some (if Nat.eqb i j then 1%Q else 0%Q)) ->
  forall m, 0 < m -> n / 2 + m < n ->
  exists v, entry (fold_matrix quarterQ 0%Q n n M) (n / 2 + m) (n / 2 + m) = Some v /\ (v == 1 # 2)%Q.
Proof.
  intros n M D I m Hm Hn. destruct (fold_matrix_entries quarterQ 0%Q n n M D) as [_ [_ [_ [_ H]]]].
  destruct (H m m Hm Hn Hm Hn) as [w [x [y [t [E1 [E2 [E3 [E4 E5]]]]]]]].
  rewrite E5. eexists; split; [reflexivity|]. pose proof (halves n) as Hh.
  rewrite I in E1, E2, E3, E4 by lia.
  replace (n / 2 - m =? n / 2 + m) with false in * by (symmetry; apply Nat.eqb_neq; lia).
  replace (n / 2 + m =? n / 2 - m) with false in * by (symmetry; apply Nat.eqb_neq; lia).
  rewrite !Nat.eqb_refl in *.
  assert (w = 1%Q) by congruence. assert (x = 0%Q) by congruence. assert (y = 0%Q) by congruence.
  assert (t = 1%Q) by congruence. subst. reflexivity.
Qed.
Print Assumptions C10_window_identity_refuted.

Example C10_window_row_sum_case :
  map (fold_right Qplus 0%Q) (fold_matrix quarterQ 0%Q 3 3 [[1; 0; 0]; [0; 1; 0]; [0; 0; 1]]%Q) = [0; 1 ; 2 # 4]%Q.
Proof. vm_compute. reflexivity. Qed.

(** exact windows: rows are averaged, so rows that sum to one still do *)
Definition qsum (l : list Q) : Q := fold_right Qplus 0%Q l.
Lemma qsum_mean : forall r1 r2 : list Q, length r1 = length r2 -> (qsum (map2 meanQ r1 r2) == (qsum r1 + qsum r2) / 2)%Q.
Proof.
  induction r1 as [|x r1 IH]; intros [|y r2] L; cbn in *; try discriminate; [reflexivity|].
  unfold qsum in IH. rewrite IH by lia. unfold meanQ. field.
Qed.

Theorem C10_exact_window_rows : forall (W : list (list Q)) fill nc,
  (forall r, In r W -> length r = nc /\ (qsum r == 1)%Q) ->
  forall m r, 0 < m -> nth_error (fold_spectrum (map2 meanQ) fill W) (length W / 2 + m) = Some r ->
  length W / 2 + m < length W -> (qsum r == 1)%Q.
Proof.
  intros W fill nc HW m r Hm E Hn.
  destruct (fold_spectrum_bins (map2 meanQ) fill W) as [_ [_ H]].
  destruct (H m Hm Hn) as [x [y [Ex [Ey [_ E']]]]]. rewrite E' in E. injection E as <-.
  apply nth_error_In in Ex, Ey. destruct (HW x Ex) as [L1 S1], (HW y Ey) as [L2 S2].
  rewrite qsum_mean by congruence. rewrite S1, S2. reflexivity.
Qed.
Print Assumptions C10_exact_window_rows.
