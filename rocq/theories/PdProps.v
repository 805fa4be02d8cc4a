(** C29, C55-C58: window settings and matrix caches of [PSpecData]. *)
From Coq Require Import Reals String Lra.
From Verif Require Import Prelude PyStr PyDict DelayBinModel DelayBinProofs SphModel SphProofs ListLemmas PdModel PdProofs.
Open Scope Z_scope.

(** what [R(key)] would return if nothing were cached *)
Definition recomputed {P} wmax covdata minv gen_window dayenu_inv pinv (st : pds P) (k : key) : result mat :=
  snd (callR wmax covdata minv gen_window dayenu_inv pinv (up_cache st [] [] [] [] []) k).
(** the value of [R(key)] in a state *)
Definition R_now {P} wmax covdata minv gen_window dayenu_inv pinv (st : pds P) (k : key) : result mat :=
  snd (callR wmax covdata minv gen_window dayenu_inv pinv st k).

(** calls that change neither the window, the extension, the symmetric taper, the datasets nor r_params *)
Definition keeps_window {P} (o : op P) : Prop :=
  match o with SetSpw _ _ | SetExt _ | SetSym _ | AddDataset | SetRParam _ _ => False | _ => True end.

(** C29: after clear_cache, R is the matrix for the current settings, for every data set with
    0/1 weights, from every state, and any further history of calls that keep the window (tapers,
    weightings and numbers of delays may change). Calls that change the window are not handled by the code (see the refutations below). *)
Theorem C29_fresh_after_clear : forall (P : Type) wmax covdata minv gen_window dayenu_inv pinv (st : pds P) ops k,
  (forall k c, wmax k c = 0%R \/ wmax k c = 1%R) -> Forall keeps_window ops ->
  let s := run wmax covdata minv gen_window dayenu_inv pinv st (ClearCache :: ops) in
  R_now wmax covdata minv gen_window dayenu_inv pinv s k = recomputed wmax covdata minv gen_window dayenu_inv pinv s k.
Proof.
  intros P wmax covdata minv gen_window dayenu_inv pinv st ops k B F s.
  assert (Bin : forall k c, binary (wmax k c) = true).
  { intros k' c. unfold binary, close. destruct (B k' c) as [-> | ->].
    - destruct (Rle_dec (Rabs (0 - 0)) (1 / IZR (10 ^ 8) + 1 / IZR (10 ^ 5) * Rabs 0)) as [_|n]; [reflexivity|]. exfalso. apply n. rewrite Rminus_0_r, Rabs_R0. lra.
    - destruct (Rle_dec (Rabs (1 - 1)) (1 / IZR (10 ^ 8) + 1 / IZR (10 ^ 5) * Rabs 1)) as [_|n]; [apply orb_true_r|]. exfalso. apply n. replace (1 - 1)%R with 0%R by lra. rewrite Rabs_R0, Rabs_R1. lra. }
  apply (coherent_fresh wmax covdata minv gen_window dayenu_inv pinv Bin).
  apply (run_quiet wmax covdata minv gen_window dayenu_inv pinv Bin ops); [apply clear_coherent | exact F].
Qed.
Print Assumptions C29_fresh_after_clear.

(** a small concrete world: 4 channels, the last two flagged; covariance of a window: entries c+1 on
    its diagonal and 1 off it; the taper "ramp" is 1, 2, 3, ...; dayenu weights are the parameter *)
Definition w0 (k : key) (c : nat) : R := if Nat.ltb c 2 then 1%R else 0%R.
Definition cov0 (k : key) (l : list nat) : mat := mkmat (length l) (length l) (fun i j => if Nat.eqb i j then INR (nth i l 0%nat + 1) else 1%R).
Definition inv0 (m : mat) : mat := m.
Definition win0 (t : pystr) (n i : nat) : R := INR (i + 1).
Definition day0 (p : R) (l : list nat) : mat := mkmat (length l) (length l) (fun i j => p).
Definition key0 : key := (0, 1, 2, 0)%nat.
Notation run0 := (run w0 cov0 inv0 win0 day0 inv0 (init 4)).
Notation R0 s := (R_now w0 cov0 inv0 win0 day0 inv0 s key0).
Notation fresh0 s := (recomputed w0 cov0 inv0 win0 day0 inv0 s key0).

Lemma binary01 x : x = 0%R \/ x = 1%R -> binary x = true.
Proof.
  intros [-> | ->]; unfold binary, close.
  - destruct (Rle_dec (Rabs (0 - 0)) (1 / IZR (10 ^ 8) + 1 / IZR (10 ^ 5) * Rabs 0)) as [_|n]; [reflexivity|]. exfalso. apply n. rewrite Rminus_0_r, Rabs_R0. lra.
  - destruct (Rle_dec (Rabs (1 - 1)) (1 / IZR (10 ^ 8) + 1 / IZR (10 ^ 5) * Rabs 1)) as [_|n]; [apply orb_true_r|]. exfalso. apply n. replace (1 - 1)%R with 0%R by lra. rewrite Rabs_R0, Rabs_R1. lra.
Qed.
Lemma bw k c : binary (w0 k c) = true.
Proof. apply binary01. unfold w0. destruct (Nat.ltb c 2); auto. Qed.
(** value of R in a state with empty caches *)
Lemma cleared_value {P} w cv iv g d pv (s : pds P) k : (forall k c, binary (w k c) = true) -> cY s = [] -> cI s = [] -> cC s = [] -> ciC s = [] -> cR s = [] ->
  R_now w cv iv g d pv s k = fresh w cv iv g d pv s (weight s) (taper s) k.
Proof.
  intros B H1 H2 H3 H4 H5. apply (callR_ok w cv iv g d pv B s k). unfold coherent. rewrite H1, H2, H3, H4, H5.
  split; [|split; [|split; [|split]]]; cbn; try discriminate; tauto.
Qed.
Lemma recomputed_value {P} w cv iv g d pv (s : pds P) k : (forall k c, binary (w k c) = true) ->
  recomputed w cv iv g d pv s k = fresh w cv iv g d pv s (weight s) (taper s) k.
Proof.
  intros B. change (recomputed w cv iv g d pv s k) with (R_now w cv iv g d pv (up_cache s [] [] [] [] []) k). rewrite cleared_value by (exact B || reflexivity).
  apply same_fresh. repeat split.
Qed.


Lemma run_app {P} w cv iv g d pv (st : pds P) a b : run w cv iv g d pv st (a ++ b) = run w cv iv g d pv (run w cv iv g d pv st a) b.
Proof. unfold run. apply fold_left_app. Qed.

(** C29 is false of the code. With identity or inverse covariance weighting, once R has been computed
    no later change of the window, of the extension or of the symmetric taper, nor adding datasets, changes it: *)
Theorem C29_stale_refuted : forall (P : Type) w cv iv g d pv (st : pds P) k m (o : op P),
  weight st <> Dayenu -> (match o with SetSpw _ _ | SetExt _ | SetSym _ | AddDataset => True | _ => False end) ->
  R_now w cv iv g d pv st k = Ok m -> R_now w cv iv g d pv (run w cv iv g d pv st [CallR k; o]) k = Ok m.
Proof.
  intros P w cv iv g d pv st k m o W O H. unfold R_now in *. cbn [run fold_left step].
  pose proof (callR_cached w cv iv g d pv st k m H) as C. destruct (callR_settings w cv iv g d pv st k) as (_ & W1 & T1 & _).
  destruct (callR w cv iv g d pv st k) as [s1 r]. cbn [fst snd] in *.
  assert (G : forall s2, cR s2 = cR s1 -> weight s2 = weight s1 -> taper s2 = taper s1 -> snd (callR w cv iv g d pv s2 k) = Ok m).
  { intros s2 A1 A2 A3. apply callR_hit. rewrite A1, <- C. f_equal. unfold rkey_of. rewrite A2, A3, W1, T1. destruct (weight st); congruence. }
  destruct o; try contradiction; cbn [step].
  - unfold set_spw, set_ndlys. destruct nd as [z|]; [destruct (Z.ltb _ _)|]; apply G; reflexivity.
  - unfold set_ext. destruct (sym s1 && _ && _); destruct (_ && _); apply G; reflexivity.
  - unfold set_sym. destruct (_ && _); apply G; reflexivity.
  - apply G; reflexivity.
Qed.
Print Assumptions C29_stale_refuted.
(** with dayenu weighting, neither a window of the same size elsewhere nor new filter parameters change it: *)
Theorem C29_stale_dayenu_refuted : forall (P : Type) w cv iv g d pv (st : pds P) k m (o : op P),
  weight st = Dayenu -> (match o with SetSpw s None => snd s - fst s = nfreqs st | SetRParam _ _ => True | _ => False end) ->
  R_now w cv iv g d pv st k = Ok m -> R_now w cv iv g d pv (run w cv iv g d pv st [CallR k; o]) k = Ok m.
Proof.
  intros P w cv iv g d pv st k m o W O H. unfold R_now in *. cbn [run fold_left step].
  pose proof (callR_cached w cv iv g d pv st k m H) as C. destruct (callR_settings w cv iv g d pv st k) as ((_ & S1 & N1 & X1 & Y1 & _) & W1 & T1 & _).
  destruct (callR w cv iv g d pv st k) as [s1 r]. cbn [fst snd] in *.
  assert (G : forall s2, cR s2 = cR s1 -> weight s2 = weight s1 -> taper s2 = taper s1 -> nfreqs s2 = nfreqs s1 -> ext s2 = ext s1 -> sym s2 = sym s1 -> snd (callR w cv iv g d pv s2 k) = Ok m).
  { intros s2 A1 A2 A3 A4 A5 A6. apply callR_hit. rewrite A1, <- C. f_equal. unfold rkey_of. rewrite A2, A3, A4, A5, A6, W1, T1, N1, X1, Y1. reflexivity. }
  destruct o; try contradiction; cbn [step].
  - destruct nd; [contradiction|]. unfold set_spw, set_ndlys. apply G; try reflexivity. cbn. congruence.
  - apply G; reflexivity.
Qed.
Print Assumptions C29_stale_dayenu_refuted.

(** what should have been returned, in terms of the state without the first call *)
Lemma recomputed_after {P} w cv iv g d pv (st : pds P) k o : (forall k c, binary (w k c) = true) ->
  (match o with SetSpw _ _ | SetExt _ | SetSym _ | AddDataset | SetRParam _ _ => True | _ => False end) ->
  recomputed w cv iv g d pv (run w cv iv g d pv st [CallR k; o]) k = recomputed w cv iv g d pv (run w cv iv g d pv st [o]) k.
Proof.
  intros B O. rewrite !recomputed_value by exact B. cbn [run fold_left]. destruct (callR_settings w cv iv g d pv st k) as ((A & S1 & N1 & X1 & Y1 & P1) & W1 & T1 & D1).
  change (step w cv iv g d pv st (CallR k)) with (let (s, r) := callR w cv iv g d pv st k in (s, void r)).
  destruct (callR w cv iv g d pv st k) as [s1 r]. cbn [fst snd] in *.
  assert (G : forall s2 s3 : pds P, same s2 s3 -> weight s2 = weight s3 -> taper s2 = taper s3 -> fresh w cv iv g d pv s2 (weight s2) (taper s2) k = fresh w cv iv g d pv s3 (weight s3) (taper s3) k).
  { intros s2 s3 E -> ->. apply same_fresh, E. }
  destruct o; try contradiction; cbn [step].
  - unfold set_spw, set_ndlys. destruct nd as [z|]; [destruct (Z.ltb _ _) eqn:L|]; cbn [up_spw nfreqs] in *; rewrite ?L; apply G; repeat split; cbn; congruence.
  - unfold set_ext. rewrite Y1, S1, A. destruct (sym s1 && _ && _); destruct (_ && _); apply G; repeat split; cbn; congruence.
  - unfold set_sym. rewrite X1. destruct (_ && _); apply G; repeat split; cbn; congruence.
  - cbn [fst]; apply G; repeat split; cbn; congruence.
  - cbn [fst]; apply G; repeat split; cbn; congruence.
Qed.

(** a stale case from its two values *)
Lemma stale_case (A B : mat -> Prop) (pre : list (op R)) o : let st := run0 pre in
  weight st <> Dayenu -> (match o with SetSpw _ _ | SetExt _ | SetSym _ | AddDataset => True | _ => False end) ->
  cY st = [] -> cI st = [] -> cC st = [] -> ciC st = [] -> cR st = [] ->
  (exists m, fresh w0 cov0 inv0 win0 day0 inv0 st (weight st) (taper st) key0 = Ok m /\ A m) ->
  (let s := run w0 cov0 inv0 win0 day0 inv0 st [o] in exists m', fresh w0 cov0 inv0 win0 day0 inv0 s (weight s) (taper s) key0 = Ok m' /\ B m') ->
  exists m m', R0 (run0 (pre ++ [CallR key0; o])) = Ok m /\ fresh0 (run0 (pre ++ [CallR key0; o])) = Ok m' /\ A m /\ B m'.
Proof.
  intros st W O H1 H2 H3 H4 H5 (m & E & HA) (m' & E' & HB). exists m, m'. split; [|split; [|auto]].
  - rewrite run_app. apply C29_stale_refuted; [exact W | exact O |]. rewrite cleared_value; auto using bw.
  - rewrite run_app, recomputed_after; [|exact bw|destruct o; exact I || contradiction]. rewrite recomputed_value by exact bw. exact E'.
Qed.
Ltac values := cbn -[sqrt IZR]; change (Pos.to_nat 2) with 2%nat; change (Pos.to_nat 4) with 4%nat; cbn -[sqrt IZR].


Notation fresh_ st := (fresh w0 cov0 inv0 win0 day0 inv0 st (weight st) (taper st) key0).
(** so that after set_spw R has the size of the old window, *)
Theorem C29_set_spw_refuted : let s := run0 [CallR key0; SetSpw (0, 2) None] in
  exists m m', R0 s = Ok m /\ fresh0 s = Ok m' /\ rows m = 4%nat /\ rows m' = 2%nat.
Proof.
  refine (stale_case (fun m => rows m = 4%nat) (fun m => rows m = 2%nat) [] (SetSpw (0, 2) None) _ I eq_refl eq_refl eq_refl eq_refl eq_refl _ _);
    [discriminate |..]; (eexists; split; [cbn; reflexivity | reflexivity]).
Qed.
Print Assumptions C29_set_spw_refuted.
Definition st1 := run0 [SetSpw (0, 2) None].
Definition st2 := run w0 cov0 inv0 win0 day0 inv0 st1 [SetSpw (2, 4) None].
(** the states reached, written out *)
Definition plain (win : Z * Z) (b : bool) (t : pystr) (w : weighting) : pds R := mkpds 4 win (snd win - fst win) (snd win - fst win) (0, 0) b t w [] [] [] [] [] [].
Lemma st1_value : exists m, fresh_ st1 = Ok m /\ ent m 0 0 = 1%R.
Proof. assert (E : st1 = plain (0, 2) true (s_ "none") Identity) by reflexivity. rewrite E. eexists. split; [cbn; reflexivity|]. unfold sandwich, sqY, sqrtT, eye, w0. values. rewrite sqrt_1. lra. Qed.
Lemma st2_value : exists m, fresh_ st2 = Ok m /\ ent m 0 0 = 0%R.
Proof. assert (E : st2 = plain (2, 4) true (s_ "none") Identity) by reflexivity. rewrite E. eexists. split; [cbn; reflexivity|]. unfold sandwich, sqY, sqrtT, eye, w0. values. rewrite sqrt_0. lra. Qed.
(** and in a window of the same size, the flags of the old one: channel 2 is flagged but has weight 1 *)
Theorem C29_same_size_refuted : let s := run0 [SetSpw (0, 2) None; CallR key0; SetSpw (2, 4) None] in
  exists m m', R0 s = Ok m /\ fresh0 s = Ok m' /\ ent m 0 0 = 1%R /\ ent m' 0 0 = 0%R.
Proof.
  refine (stale_case (fun m => ent m 0 0 = 1%R) (fun m => ent m 0 0 = 0%R) [SetSpw (0, 2) None] (SetSpw (2, 4) None) _ I eq_refl eq_refl eq_refl eq_refl eq_refl st1_value st2_value). discriminate.
Qed.
Print Assumptions C29_same_size_refuted.
Definition st3 := run0 [SetSpw (0, 2) None; SetTaper (s_ "ramp"); SetWeighting InvCov].
Definition st4 := run w0 cov0 inv0 win0 day0 inv0 st3 [SetSym false].
Lemma st3_value : exists m, fresh_ st3 = Ok m /\ ent m 0 1 = sqrt 2.
Proof. assert (E : st3 = plain (0, 2) true (s_ "ramp") InvCov) by reflexivity. rewrite E. eexists. split; [cbn; reflexivity|]. unfold sandwich, sqY, sqrtT, eye, w0, win0, tmat. values. replace (1 + 1)%R with 2%R by lra. rewrite ?sqrt_1. lra. Qed.
Lemma st4_value : exists m, fresh_ st4 = Ok m /\ ent m 0 1 = 1%R.
Proof. assert (E : st4 = plain (0, 2) false (s_ "ramp") InvCov) by reflexivity. rewrite E. eexists. split; [cbn; reflexivity|]. unfold sandwich, sqY, sqrtT, eye, w0, win0, tmat. values. rewrite ?sqrt_1. lra. Qed.
(** after switching the symmetric taper off, R keeps it: entry (0, 1) should be taper(0) * K = 1, is sqrt(1*2) * K *)
Theorem C29_symmetric_refuted : let s := run0 [SetSpw (0, 2) None; SetTaper (s_ "ramp"); SetWeighting InvCov; CallR key0; SetSym false] in
  exists m m', R0 s = Ok m /\ fresh0 s = Ok m' /\ ent m 0 1 = sqrt 2 /\ ent m' 0 1 = 1%R.
Proof.
  refine (stale_case (fun m => ent m 0 1 = sqrt 2) (fun m => ent m 0 1 = 1%R) [SetSpw (0, 2) None; SetTaper (s_ "ramp"); SetWeighting InvCov] (SetSym false) _ I eq_refl eq_refl eq_refl eq_refl eq_refl st3_value st4_value). discriminate.
Qed.
Print Assumptions C29_symmetric_refuted.

(** * C55: the order of calls in [pspec] *)
(** In every state (so after every history), setting the window and the extension and then clearing the
    cache, as [pspec] does for each window, and then any calls that keep the window: R is what it would
    be without any cache. *)
Theorem C55_window_fresh : forall (P : Type) wmax covdata minv gen_window dayenu_inv pinv (st : pds P) win nd e ops k,
  (forall k c, wmax k c = 0%R \/ wmax k c = 1%R) -> Forall keeps_window ops ->
  let s := run wmax covdata minv gen_window dayenu_inv pinv st (window_prologue win nd e ++ ops) in
  R_now wmax covdata minv gen_window dayenu_inv pinv s k = recomputed wmax covdata minv gen_window dayenu_inv pinv s k.
Proof.
  intros P w cv iv g d pv st win nd e ops k B F s.
  apply (C29_fresh_after_clear P w cv iv g d pv (run w cv iv g d pv st [SetSpw win nd; SetExt e]) ops k B F).
Qed.
Print Assumptions C55_window_fresh.

(** [taper] at channel [i] of a window of [n] channels *)
Definition taper_at (gen_window : pystr -> nat -> nat -> R) (t : pystr) (n i : nat) : R := if str_eqb t (s_ "none") then 1%R else gen_window t n i.

(** With identity weighting that R has one row per channel of the window and one column per channel
    of the extended window (clipped to the data), and applying it to data [x] multiplies each
    channel of the window by the taper and by the flag weight of that very channel. *)
Theorem C55_identity_value : forall (P : Type) wmax covdata minv gen_window dayenu_inv pinv (st : pds P) a b nd e0 e1 ops k,
  (forall k c, wmax k c = 0%R \/ wmax k c = 1%R) -> (forall t n i, 0 <= gen_window t n i)%R -> Forall keeps_window ops ->
  (a <= b <= NF st)%nat ->
  let s := run wmax covdata minv gen_window dayenu_inv pinv st (window_prologue (Z.of_nat a, Z.of_nat b) nd (Z.of_nat e0, Z.of_nat e1) ++ ops) in
  let f0 := Nat.min a e0 in let f1 := Nat.min (NF st - b) e1 in
  weight s = Identity -> (sym s = false \/ (f0 = 0 /\ f1 = 0)%nat) ->
  exists m, R_now wmax covdata minv gen_window dayenu_inv pinv s k = Ok m /\ rows m = (b - a)%nat /\ cols m = (b - a + f0 + f1)%nat /\
  forall (x : nat -> R) i, (i < b - a)%nat ->
    sum (cols m) (fun j => ent m i j * x (a - f0 + j)%nat)%R = (taper_at gen_window (taper s) (b - a) i * (wmax k (a + i)%nat * x (a + i)%nat))%R.
Proof.
  intros P w cv iv g d pv st a b nd e0 e1 ops k B G F Hab s f0 f1 Wt Sy.
  assert (Bin : forall k c, binary (w k c) = true) by (intros; apply binary01, B).
  pose (s1 := run w cv iv g d pv st [SetSpw (Z.of_nat a, Z.of_nat b) nd; SetExt (Z.of_nat e0, Z.of_nat e1)]).
  assert (P1 : NF s1 = NF st /\ spw s1 = (Z.of_nat a, Z.of_nat b) /\ nfreqs s1 = Z.of_nat (b - a) /\ ext s1 = (Z.of_nat f0, Z.of_nat f1)).
  { unfold s1. cbn [run fold_left step]. unfold set_spw, set_ndlys.
    assert (E : forall st' : pds P, NF st' = NF st -> spw st' = (Z.of_nat a, Z.of_nat b) -> nfreqs st' = Z.of_nat b - Z.of_nat a ->
      let s2 := fst (set_ext st' (Z.of_nat e0, Z.of_nat e1)) in NF s2 = NF st /\ spw s2 = (Z.of_nat a, Z.of_nat b) /\ nfreqs s2 = Z.of_nat (b - a) /\ ext s2 = (Z.of_nat f0, Z.of_nat f1)).
    { intros st' E1 E2 E3 s2. unfold s2, set_ext. cbn [fst snd]. rewrite (proj2 (Z.geb_le (Z.of_nat e0) 0)), (proj2 (Z.geb_le (Z.of_nat e1) 0)) by lia. cbn [andb fst].
      rewrite E1, E2. destruct (sym st' && _ && _); cbn; rewrite ?E1, ?E2, ?E3; (repeat split; [lia|]); unfold f0, f1; f_equal; lia. }
    destruct nd as [z|]; [destruct (Z.ltb _ _)|]; apply E; reflexivity. }
  destruct P1 as (A1 & A2 & A3 & A4).
  assert (R1 : coherent w cv iv g d pv s /\ same (fst (step w cv iv g d pv s1 ClearCache)) s).
  { apply (run_quiet w cv iv g d pv Bin ops (fst (step w cv iv g d pv s1 ClearCache))); [apply clear_coherent | exact F]. }
  destruct R1 as [Co Sm]. destruct Sm as (M1 & M2 & M3 & M4 & M5 & M6). cbn [step fst up_cache NF spw nfreqs ext sym rpar] in M1, M2, M3, M4, M5, M6.
  assert (Ch : chans s = seq (a - f0) (b - a + f0 + f1)) by (apply chans_in; [congruence | congruence | unfold f0; lia | rewrite <- M1, A1; unfold f1; lia]).
  unfold R_now. rewrite (proj1 (callR_ok w cv iv g d pv Bin s k Co)). unfold fresh. rewrite Wt, Ch, <- M3, <- M4, A3, A4. cbn [fst snd].
  rewrite (proj2 (Z.ltb_ge _ _)) by lia. unfold ident. rewrite (proj2 (Z.ltb_ge _ _)) by lia.
  replace (Z.to_nat (Z.of_nat (b - a) + Z.of_nat f0 + Z.of_nat f1)) with (b - a + f0 + f1)%nat by lia.
  set (n := (b - a)%nat) in *. set (N := (n + f0 + f1)%nat). set (y := map (w k) (seq (a - f0) N)).
  assert (Ly : length y = N) by (unfold y; rewrite map_length, seq_length; reflexivity).
  assert (Vy : forall j, (j < N)%nat -> (sqY y j * sqY y j)%R = w k (a - f0 + j)%nat).
  { intros j Hj. unfold sqY, y. rewrite (nth_indep _ 0%R (w k 0%nat)) by (rewrite map_length, seq_length; exact Hj). rewrite map_nth, seq_nth by exact Hj.
    apply sqrt_sqrt. destruct (B k (a - f0 + j)%nat) as [-> | ->]; lra. }
  unfold shape_is at 1. cbn [rows cols]. rewrite Ly, Nat.eqb_refl. cbn [andb require].
  assert (VT : forall i, (sqrtT g (up_weight (up_taper s (taper s)) Identity) n i * sqrtT g (up_weight (up_taper s (taper s)) Identity) n i)%R = taper_at g (taper s) n i).
  { intro i. unfold sqrtT, taper_at. cbn [up_weight up_taper taper]. destruct (str_eqb (taper s) (s_ "none")); [lra | apply sqrt_sqrt, G]. }
  unfold assemble. cbn [up_weight up_taper sym nfreqs ext]. rewrite <- M3, <- M4, A3, A4. cbn [fst snd]. rewrite !Nat2Z.id. set (sT := sqrtT g (up_weight (up_taper s (taper s)) Identity) n) in *.
  destruct (sym s) eqn:Sy'.
  - destruct Sy as [Sy|Sy]; [congruence|]. destruct Sy as [Z0 Z1]. assert (EN : N = n) by (unfold N; lia).
    unfold r_symmetric. rewrite Ly, EN, Nat.eqb_refl. unfold shape_is. cbn [sandwich rows cols]. rewrite Nat.eqb_refl. cbn [andb require].
    eexists. split; [reflexivity|]. cbn [sandwich rows cols ent]. split; [reflexivity|]. split; [reflexivity|]. intros x i Hi.
    rewrite (sum_single _ _ i Hi).
    + unfold eye. rewrite Nat.eqb_refl, Z0, Nat.sub_0_r. rewrite <- VT. specialize (Vy i ltac:(lia)). rewrite Z0, Nat.sub_0_r in Vy. rewrite <- Vy. ring.
    + intros j Hj Ne. unfold eye. destruct (Nat.eqb_spec i j); [congruence | ring].
  - unfold r_asymmetric. fold N. rewrite Ly, Nat.eqb_refl. unfold shape_is. cbn [sandwich rows cols]. rewrite Nat.eqb_refl. cbn [andb require].
    eexists. split; [reflexivity|]. cbn [rows cols ent]. split; [reflexivity|]. split; [reflexivity|]. intros x i Hi.
    assert (Hl : (i + f0 < N)%nat) by (unfold N; lia).
    rewrite (sum_single _ _ (i + f0)%nat Hl).
    + rewrite (sum_single _ _ (i + f0)%nat Hl).
      * unfold tmat, eye. rewrite !Nat.eqb_refl. replace (sT i ^ 2)%R with (sT i * sT i)%R by ring. rewrite VT. specialize (Vy (i + f0)%nat Hl).
        replace (a - f0 + (i + f0))%nat with (a + i)%nat in * by (unfold f0 in *; lia). rewrite <- Vy. cbn [sandwich ent]. rewrite Nat.eqb_refl. ring.
      * intros j Hj Ne. unfold tmat. destruct (Nat.eqb_spec j (i + f0)); [congruence | ring].
    + intros j Hj Ne. rewrite (sum_zero N); [ring|]. intros l Hlt. unfold tmat, eye. cbn [sandwich ent]. destruct (Nat.eqb_spec l (i + f0)) as [->|]; [|ring]. destruct (Nat.eqb_spec (i + f0) j); [congruence | ring].
Qed.
Print Assumptions C55_identity_value.
(** With dayenu weighting the filter is made for the channels of the extended window, and for no others: R depends on the filter matrix of these channels only *)
Theorem C55_dayenu_channels : forall (P : Type) wmax covdata minv gen_window (filt filt' : P -> list nat -> mat) pinv (st : pds P) a b f0 f1 k,
  spw st = (Z.of_nat a, Z.of_nat b) -> ext st = (Z.of_nat f0, Z.of_nat f1) -> (f0 <= a <= b)%nat -> (b + f1 <= NF st)%nat ->
  (forall p, filt p (seq (a - f0) (b - a + f0 + f1)) = filt' p (seq (a - f0) (b - a + f0 + f1))) ->
  callR wmax covdata minv gen_window filt pinv st k = callR wmax covdata minv gen_window filt' pinv st k.
Proof.
  intros P w cv iv g fl fl' pv st a b f0 f1 k Es Ee H1 H2 Hf.
  assert (D : forall s : pds P, spw s = spw st -> ext s = ext st -> NF s = NF st -> dayenu_chans s = seq (a - f0) (b - a + f0 + f1)).
  { intros s S1 S2 S3. rewrite <- (chans_in s a b f0 f1) by (rewrite ?S1, ?S2, ?S3; assumption). unfold chans, dayenu_chans, get_spw. rewrite S1, S2, S3, Es, Ee. cbn [fst snd].
    destruct (Z.gtb_spec (Z.of_nat f0 + Z.of_nat f1) 0); [reflexivity|]. do 3 f_equal; lia. }
  unfold callR. destruct (dget rkey_dec (cR st) (rkey_of st k)); [reflexivity|]. destruct (Z.ltb (nfreqs st) 0); [reflexivity|].
  destruct (callY w st k) as [s1 ry] eqn:EY. assert (S : spw s1 = spw st /\ ext s1 = ext st /\ NF s1 = NF st).
  { unfold callY in EY. destruct (dget key_dec (cY st) k); injection EY as <- _; auto. }
  destruct S as (S1 & S2 & S3). destruct ry as [y|]; [|reflexivity]. destruct (weight st); try reflexivity. destruct (dget wkey_dec (rpar s1) (Dayenu, k)) as [p|]; [|reflexivity]. rewrite (D s1 S1 S2 S3), Hf. reflexivity.
Qed.
Print Assumptions C55_dayenu_channels.
Example C55_applies : let s := run0 (window_prologue (1, 3) None (1, 5) ++ [SetTaper (s_ "ramp"); CallY key0; SetNdlys (Some 2)]) in
  weight s = Identity /\ sym s = false /\ ext s = (1, 1).
Proof. cbn. repeat split. Qed.

(** * C56: the extended window stays inside the data *)
Definition in_data {P} (st : pds P) : Prop := 0 <= fst (get_spw st) <= fst (spw st) /\ fst (spw st) <= snd (spw st) /\ snd (spw st) <= snd (get_spw st) <= Z.of_nat (NF st).
(** true right after set_filter_extension, in every state with a window inside the data *)
Theorem C56_set_extension : forall (P : Type) wmax covdata minv gen_window dayenu_inv pinv (st : pds P) e,
  0 <= fst (spw st) <= snd (spw st) -> snd (spw st) <= Z.of_nat (NF st) -> 0 <= fst e -> 0 <= snd e ->
  let s := run wmax covdata minv gen_window dayenu_inv pinv st [SetExt e] in
  in_data s /\ spw s = spw st /\ ext s = (Z.min (fst (spw st)) (fst e), Z.min (Z.of_nat (NF st) - snd (spw st)) (snd e)).
Proof.
  intros P w cv iv g d pv st e H1 H2 H3 H4 s. unfold s. cbn [run fold_left step]. unfold set_ext.
  rewrite (proj2 (Z.geb_le (fst e) 0)), (proj2 (Z.geb_le (snd e) 0)) by lia. cbn [andb fst].
  destruct (sym st && _ && _); cbn [up_sym up_ext spw ext NF]; (split; [|split; reflexivity]); unfold in_data, get_spw; cbn [up_ext up_sym ext spw NF fst snd];
    rewrite Z.gtb_ltb; destruct (Z.ltb_spec 0 (Z.min (fst (spw st)) (fst e) + Z.min (Z.of_nat (NF st) - snd (spw st)) (snd e))); cbn [fst snd]; lia.
Qed.
Print Assumptions C56_set_extension.
(** false when the window is changed afterwards, or a dataset is added: the extension is not clipped again.
    The start of the slice becomes negative, so that numpy takes channels from the other end of the band *)
Theorem C56_window_after_extension_refuted :
  (let s := run0 [SetSpw (2, 4) None; SetExt (2, 0); SetSpw (0, 2) None] in spw s = (0, 2) /\ get_spw s = (-2, 2) /\ chans s = []) /\
  (let s := run0 [SetSpw (1, 3) None; SetExt (1, 1); AddDataset] in get_spw s = (-1, 5) /\ chans s = [3%nat]).
Proof. vm_compute. repeat split. Qed.
Print Assumptions C56_window_after_extension_refuted.

(** * C57: a setter that fails changes nothing *)
(** true of set_symmetric_taper and set_Ndlys *)
Theorem C57_atomic : forall (P : Type) wmax covdata minv gen_window dayenu_inv pinv (st : pds P) o e,
  (match o with SetSym _ | SetNdlys _ => True | _ => False end) ->
  snd (step wmax covdata minv gen_window dayenu_inv pinv st o) = Err e -> fst (step wmax covdata minv gen_window dayenu_inv pinv st o) = st.
Proof.
  intros P w cv iv g d pv st o e O. destruct o; try contradiction; cbn [step].
  - unfold set_ndlys. destruct nd as [z|]; [destruct (Z.ltb _ _)|]; cbn; congruence.
  - unfold set_sym. destruct (_ && _); cbn; congruence.
Qed.
Print Assumptions C57_atomic.
(** false of set_spw with too many delays (the window is changed) and of set_filter_extension with a negative
    number (the symmetric taper is switched off) *)
Theorem C57_set_spw_refuted : forall (P : Type) wmax covdata minv gen_window dayenu_inv pinv (st : pds P) win n,
  snd win - fst win < n -> let r := step wmax covdata minv gen_window dayenu_inv pinv st (SetSpw win (Some n)) in
  snd r = Err ValueError /\ spw (fst r) = win /\ nfreqs (fst r) = snd win - fst win /\ ndlys (fst r) = ndlys st.
Proof. intros P w cv iv g d pv st win n H r. unfold r. cbn [step]. unfold set_spw, set_ndlys. cbn [up_spw nfreqs]. rewrite (proj2 (Z.ltb_lt _ _) H). repeat split. Qed.
Print Assumptions C57_set_spw_refuted.
Theorem C57_set_extension_refuted : let r := step w0 cov0 inv0 win0 day0 inv0 (init 4) (SetExt (-1, 2)) in
  snd r = Err AssertionError /\ sym (init (P := R) 4) = true /\ sym (fst r) = false.
Proof. repeat split. Qed.
Print Assumptions C57_set_extension_refuted.
(** and weights other than 0 and 1 are rejected by the first call of Y only: the second call returns them *)
Theorem C57_weights_accepted_refuted : forall (P : Type) wmax (st : pds P) k, dget key_dec (cY st) k = None ->
  forallb binary (map (wmax k) (chans st)) = false ->
  let r := callY wmax st k in snd r = Err NotImplementedError /\ snd (callY wmax (fst r) k) = Ok (map (wmax k) (chans st)).
Proof.
  intros P w st k H B r. unfold r, callY. rewrite H, B. cbn [fst snd]. split; [reflexivity|]. cbn [up_cache cY]. rewrite dget_dset. destruct (key_dec k k); [reflexivity | congruence].
Qed.
Print Assumptions C57_weights_accepted_refuted.

(** * C58: the windows of a [pspec] call do not influence each other *)
(** proved for identity weighting: whatever happened before (previous windows, previous calls), the
    weights that a window's data get are the same, provided the two states have the same taper and the call is accepted *)
Theorem C58_identity_windows : forall (P : Type) wmax covdata minv gen_window dayenu_inv pinv (st st' : pds P) a b nd e0 e1 k,
  (forall k c, wmax k c = 0%R \/ wmax k c = 1%R) -> (forall t n i, 0 <= gen_window t n i)%R ->
  NF st = NF st' -> taper st = taper st' -> weight st = Identity -> weight st' = Identity -> (a <= b <= NF st)%nat ->
  let win := window_prologue (Z.of_nat a, Z.of_nat b) nd (Z.of_nat e0, Z.of_nat e1) in
  let s := run wmax covdata minv gen_window dayenu_inv pinv st win in let s' := run wmax covdata minv gen_window dayenu_inv pinv st' win in
  (sym s = false \/ (e0 = 0 /\ e1 = 0)%nat) -> (sym s' = false \/ (e0 = 0 /\ e1 = 0)%nat) ->
  exists m m', R_now wmax covdata minv gen_window dayenu_inv pinv s k = Ok m /\ R_now wmax covdata minv gen_window dayenu_inv pinv s' k = Ok m' /\
  rows m = rows m' /\ cols m = cols m' /\ forall (x : nat -> R) i, (i < rows m)%nat ->
   sum (cols m) (fun j => ent m i j * x (a - Nat.min a e0 + j)%nat)%R = sum (cols m') (fun j => ent m' i j * x (a - Nat.min a e0 + j)%nat)%R.
Proof.
  intros P w cv iv g d pv st st' a b nd e0 e1 k B G N T W W' H win s s' Sy Sy'.
  assert (K : forall st : pds P, let s := run w cv iv g d pv st win in weight s = weight st /\ taper s = taper st).
  { intro u. unfold win. cbn [run window_prologue fold_left step]. unfold set_spw, set_ndlys, set_ext. cbn [fst snd].
    destruct nd as [z|]; [destruct (Z.ltb _ _)|]; cbn [fst]; destruct (sym _ && _ && _); destruct (_ && _); split; reflexivity. }
  destruct (K st) as [K1 K2], (K st') as [K1' K2'].
  destruct (C55_identity_value P w cv iv g d pv st a b nd e0 e1 [] k B G (Forall_nil _) H) as (m & M1 & M2 & M3 & M4).
  { rewrite app_nil_r. fold win. rewrite K1. exact W. } { rewrite app_nil_r. fold win. destruct Sy as [Sy|[-> ->]]; [left; exact Sy | right; split; lia]. }
  destruct (C55_identity_value P w cv iv g d pv st' a b nd e0 e1 [] k B G (Forall_nil _)) as (m' & M1' & M2' & M3' & M4').
  { rewrite <- N. exact H. } { rewrite app_nil_r. fold win. rewrite K1'. exact W'. } { rewrite app_nil_r. fold win. destruct Sy' as [Sy'|[-> ->]]; [left; exact Sy' | right; split; lia]. }
  rewrite app_nil_r in *. fold win in M1, M1', M4, M4'. exists m, m'. split; [exact M1|]. split; [exact M1'|]. split; [congruence|]. split; [congruence|].
  intros x i Hi. rewrite M2 in Hi. rewrite (M4 x i Hi), (M4' x i Hi). rewrite K2, K2', T. reflexivity.
Qed.
Print Assumptions C58_identity_windows.
(** false with inverse covariance weighting: an extension on both sides of the first window switches the symmetric
    taper off for all later windows, whose R then differs *)
Definition pro_invcov := @pspec_prologue R (s_ "ramp") true InvCov.
Definition second_window := @window_prologue R (0, 2) None (0, 0).
Definition first_window := @window_prologue R (1, 3) None (1, 1) ++ [SetExt (0, 0)].
Lemma alone_value : let s := run0 (pro_invcov ++ second_window) in exists m, fresh_ s = Ok m /\ ent m 0 1 = sqrt 2.
Proof. intro s. assert (E : s = plain (0, 2) true (s_ "ramp") InvCov) by reflexivity. rewrite E. eexists. split; [cbn; reflexivity|]. unfold sandwich, sqY, sqrtT, eye, w0, win0, tmat. values. replace (1 + 1)%R with 2%R by lra. rewrite ?sqrt_1. lra. Qed.
Lemma after_value : let s := run0 (pro_invcov ++ first_window ++ second_window) in exists m, fresh_ s = Ok m /\ ent m 0 1 = 1%R.
Proof. intro s. assert (E : s = plain (0, 2) false (s_ "ramp") InvCov) by reflexivity. rewrite E. eexists. split; [cbn; reflexivity|]. unfold sandwich, sqY, sqrtT, eye, w0, win0, tmat. values. rewrite ?sqrt_1. lra. Qed.
Theorem C58_later_windows_refuted :
  exists m m', R0 (run0 (pro_invcov ++ second_window)) = Ok m /\ R0 (run0 (pro_invcov ++ first_window ++ second_window)) = Ok m' /\
  ent m 0 1 = sqrt 2 /\ ent m' 0 1 = 1%R.
Proof.
  destruct alone_value as (m & E1 & V1). destruct after_value as (m' & E2 & V2). exists m, m'. split; [|split; [|auto]].
  - rewrite (cleared_value w0 cov0 inv0 win0 day0 inv0 (run0 (pro_invcov ++ second_window)) key0 bw eq_refl eq_refl eq_refl eq_refl eq_refl). exact E1.
  - rewrite (cleared_value w0 cov0 inv0 win0 day0 inv0 (run0 (pro_invcov ++ first_window ++ second_window)) key0 bw eq_refl eq_refl eq_refl eq_refl eq_refl). exact E2.
Qed.
Print Assumptions C58_later_windows_refuted.
(** an extension on one side only leaves the symmetric taper on, and R cannot be formed *)
Theorem C58_one_sided_refuted : let s := run0 (pspec_prologue (s_ "none") true Identity ++ window_prologue (0, 2) None (0, 1)) in
  sym s = true /\ R0 s = Err ValueError.
Proof.
  intro s. split; [reflexivity|]. rewrite (cleared_value w0 cov0 inv0 win0 day0 inv0 s key0 bw eq_refl eq_refl eq_refl eq_refl eq_refl). cbn. reflexivity.
Qed.
Print Assumptions C58_one_sided_refuted.
(** and a call that fails inside the loop leaves the extension set, so that the next call raises at once *)
Theorem C58_next_call_refuted : forall (P : Type) wmax covdata minv gen_window dayenu_inv pinv (st : pds P) win nd e0 e1,
  0 < fst win -> snd win < Z.of_nat (NF st) -> 0 < e0 -> 0 < e1 ->
  let s := run wmax covdata minv gen_window dayenu_inv pinv st (window_prologue win nd (e0, e1)) in
  snd (step wmax covdata minv gen_window dayenu_inv pinv s (SetSym true)) = Err ValueError.
Proof.
  intros P w cv iv g d pv st win nd e0 e1 H1 H2 H3 H4 s. unfold s. cbn [run window_prologue fold_left step].
  assert (G : forall st' : pds P, spw st' = win -> NF st' = NF st -> snd (set_sym (up_cache (fst (set_ext st' (e0, e1))) [] [] [] [] []) true) = Err ValueError).
  { intros st' E1 E2. unfold set_ext. cbn [fst snd]. rewrite (proj2 (Z.geb_le e0 0)), (proj2 (Z.geb_le e1 0)) by lia. cbn [andb fst]. rewrite E1, E2.
    unfold set_sym. destruct (sym st' && _ && _); cbn [up_cache up_ext up_sym ext fst snd andb]; rewrite Z.gtb_ltb, (proj2 (Z.ltb_lt _ _)) by lia; reflexivity. }
  unfold set_spw, set_ndlys. destruct nd as [z|]; [destruct (Z.ltb _ _)|]; apply G; reflexivity.
Qed.
Print Assumptions C58_next_call_refuted.
(** [set_filter_extension]: a negative entry is refused, and even then symmetric_taper has been turned off if both entries are non-zero; otherwise the entries are clipped to the
    channels that exist below and above the window. One-sided extensions leave symmetric_taper alone. *)
Theorem set_filter_extension_spec : forall P (st : pds P) e0 e1,
  let r := set_ext st (e0, e1) in
  (snd r = Err AssertionError <-> (e0 < 0 \/ e1 < 0)%Z) /\ (snd r = Ok tt <-> (0 <= e0 /\ 0 <= e1)%Z) /\
  (sym (fst r) = true <-> sym st = true /\ (e0 = 0 \/ e1 = 0)%Z) /\
  (snd r = Ok tt -> ext (fst r) = (Z.min (fst (spw st)) e0, Z.min (Z.of_nat (NF st) - snd (spw st)) e1)) /\
  (snd r <> Ok tt -> ext (fst r) = ext st).
Proof.
  intros P st e0 e1 r. subst r. unfold set_ext. cbn [fst snd]. rewrite !Z.geb_leb.
  set (c := (sym st && negb (Z.eqb e0 0) && negb (Z.eqb e1 0))%bool).
  assert (S : sym (if c then up_sym st false else st) = true <-> sym st = true /\ (e0 = 0 \/ e1 = 0)%Z).
  { subst c. destruct (sym st) eqn:Y, (Z.eqb_spec e0 0), (Z.eqb_spec e1 0); cbn; rewrite ?Y; split; try tauto; try discriminate; intros [? [? | ?]]; try discriminate; contradiction. }
  assert (X : ext (if c then up_sym st false else st) = ext st) by (destruct c; reflexivity).
  destruct (Z.leb_spec 0 e0), (Z.leb_spec 0 e1); cbn [andb fst snd].
  - split; [split; [discriminate | lia] |]. split; [split; [lia | reflexivity] |]. split; [exact S |]. split; [reflexivity | congruence].
  - split; [split; [lia | reflexivity] |]. split; [split; [discriminate | lia] |]. split; [exact S |]. split; [discriminate | intros _; exact X].
  - split; [split; [lia | reflexivity] |]. split; [split; [discriminate | lia] |]. split; [exact S |]. split; [discriminate | intros _; exact X].
  - split; [split; [lia | reflexivity] |]. split; [split; [discriminate | lia] |]. split; [exact S |]. split; [discriminate | intros _; exact X].
Qed.
Print Assumptions set_filter_extension_spec.

(** weights count as binary when they are within rounding of 0 or of 1 *)
Theorem binary_weights : forall x, binary x = true <-> (Rabs x <= / 10 ^ 8 \/ Rabs (x - 1) <= / 10 ^ 8 + / 10 ^ 5)%R.
Proof.
  intros x. unfold binary, close. rewrite Rabs_R0, Rabs_R1, Rminus_0_r.
  replace (IZR 1 / IZR (10 ^ 8) + IZR 1 / IZR (10 ^ 5) * 0)%R with (/ 10 ^ 8)%R by (cbn; lra).
  replace (IZR 1 / IZR (10 ^ 8) + IZR 1 / IZR (10 ^ 5) * 1)%R with (/ 10 ^ 8 + / 10 ^ 5)%R by (cbn; lra).
  destruct (Rle_dec (Rabs x) (/ 10 ^ 8)), (Rle_dec (Rabs (x - 1)) (/ 10 ^ 8 + / 10 ^ 5)); cbn; split; intros H; try discriminate; auto; destruct H; contradiction.
Qed.
(** the symmetric taper is refused with an extension on either side, and otherwise set *)
Theorem set_symmetric_taper_spec : forall P (st : pds P) b,
  (snd (set_sym st b) = Err ValueError <-> b = true /\ (0 < fst (ext st) \/ 0 < snd (ext st))%Z) /\
  (snd (set_sym st b) <> Err ValueError -> snd (set_sym st b) = Ok tt /\ sym (fst (set_sym st b)) = b) /\
  (snd (set_sym st b) = Err ValueError -> fst (set_sym st b) = st).
Proof.
  intros P st b. unfold set_sym. rewrite !Z.gtb_ltb. destruct (Z.ltb_spec 0 (fst (ext st))), (Z.ltb_spec 0 (snd (ext st))), b; cbn;
    (split; [split; intros Q; try discriminate; auto; destruct Q as [? [Q|Q]]; try discriminate; lia|split; intros Q; try discriminate; try reflexivity; try (contradiction Q; reflexivity); auto]).
Qed.
