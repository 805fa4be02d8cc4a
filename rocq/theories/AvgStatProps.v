(** C340-C343: the statistics of averaged spectra. *)
From Coq Require Import String.
From Coq Require Import Reals Lra Permutation.
From Verif Require Import Prelude ListLemmas UvpModel UvpProofs AvgModel AvgProofs AvgTotal AvgCovModel AvgStatModel.
Open Scope R_scope.

(** ** which statistics (C340) *)
(** the names asked for: those of error_field, then error_weights if it is not among them *)
Definition asked (ef : efield) (ew : ewgts) (s : string) : Prop :=
  ef = EFStr s \/ (exists l, ef = EFSeq l /\ In (Some s) l) \/ ew = EWStr s.
(** arguments of the documented types *)
Definition typed (ef : efield) (ew : ewgts) : Prop := ef <> EFOther /\ ew <> EWOther /\ forall l, ef = EFSeq l -> ~ In None l.

Lemma names_of_seq l : (~ In None l -> exists r, map_res (fun x : option string => match x with Some s => Ok s | None => Err TypeError end) l = Ok r /\ l = map Some r) /\
  (In None l -> map_res (fun x : option string => match x with Some s => Ok s | None => Err TypeError end) l = Err TypeError).
Proof.
  induction l as [|[s|] l [IH1 IH2]]; cbn [map_res].
  - split; [intros _; exists []; split; reflexivity | intros []].
  - split.
    + intros N. destruct IH1 as (r & E & ->); [intro I; apply N; right; exact I|]. rewrite E. exists (s :: r). split; reflexivity.
    + intros [C|I]; [discriminate|]. rewrite (IH2 I). reflexivity.
  - split; [intros N; destruct N; left; reflexivity | reflexivity].
Qed.
Lemma normalize_spec ef : (ef <> EFOther /\ (forall l, ef = EFSeq l -> ~ In None l) -> exists l, normalize_stat_names ef = Ok l /\ forall s, In s l <-> asked ef EWNone s) /\
  (~ (ef <> EFOther /\ (forall l, ef = EFSeq l -> ~ In None l)) -> normalize_stat_names ef = Err TypeError).
Proof.
  destruct ef as [|s|l|]; cbn [normalize_stat_names].
  - split; [intros _; exists []; split; [reflexivity|] | intros N; destruct N; split; [discriminate | intros l E; discriminate]].
    intro s. split; [intros [] | intros [H|[(l & H & _)|H]]; discriminate].
  - split; [intros _; exists [s]; split; [reflexivity|] | intros N; destruct N; split; [discriminate | intros l E; discriminate]].
    intro t. split; [intros [->|[]]; left; reflexivity | intros [H|[(l & H & _)|H]]; try discriminate; injection H as ->; left; reflexivity].
  - destruct (names_of_seq l) as [A B]. split.
    + intros [_ N]. destruct (A (N l eq_refl)) as (r & E & ->). exists r. split; [exact E|]. intro s. split.
      * intros I. right. left. exists (map Some r). split; [reflexivity|]. apply in_map, I.
      * intros [H|[(l & H & I)|H]]; try discriminate. injection H as <-. apply in_map_iff in I. destruct I as (x & X & I). injection X as ->. exact I.
    + intros N. destruct (in_dec (fun a b : option string => ltac:(decide equality; apply string_dec)) None l) as [I|I]; [exact (B I)|]. exfalso. apply N. split; [discriminate|].
      intros l' E. injection E as <-. exact I.
  - split; [intros [C _]; congruence | reflexivity].
Qed.
Lemma mem_name_spec s l : mem_name s l = true <-> In s l.
Proof. unfold mem_name. destruct (in_dec string_dec s l); split; auto; discriminate. Qed.
Lemma mem_name_false s l : mem_name s l = false <-> ~ In s l.
Proof. unfold mem_name. destruct (in_dec string_dec s l); split; auto; try discriminate. intros N. contradiction. Qed.

Lemma stat_list_spec stats ef ew :
  (~ typed ef ew -> stat_list stats ef ew = Err TypeError) /\
  (typed ef ew -> (forall ks, stats = Some ks -> forall s, asked ef ew s -> In s ks) -> exists l, stat_list stats ef ew = Ok l /\ forall s, In s l <-> asked ef ew s) /\
  (typed ef ew -> (exists ks s, stats = Some ks /\ asked ef ew s /\ ~ In s ks) -> stat_list stats ef ew = Err KeyError).
Proof.
  destruct (normalize_spec ef) as [N1 N2]. set (known := fun s => match stats with Some ks => mem_name s ks | None => true end).
  assert (KT : (forall ks, stats = Some ks -> forall s, asked ef ew s -> In s ks) -> forall s, asked ef ew s -> known s = true).
  { intros H s A. unfold known. destruct stats as [ks|]; [|reflexivity]. apply mem_name_spec, (H ks eq_refl s A). }
  split; [|split].
  - intros T. destruct ew as [|w|]; [| |reflexivity]; cbn [stat_list]; rewrite N2; try reflexivity; intros [A B]; apply T; (split; [exact A|]; split; [discriminate | exact B]).
  - intros (T1 & T2 & T3) H. specialize (KT H). destruct (N1 (conj T1 T3)) as (l & E & L). destruct ew as [|w|]; [| |congruence]; cbn [stat_list]; rewrite E; cbn [bind].
    + exists l. split; [|exact L]. assert (F : forallb known l = true) by (apply forallb_forall; intros s I; apply KT, L, I). unfold known in F. rewrite F. reflexivity.
    + assert (Kw : known w = true) by (apply KT; right; right; reflexivity). unfold known in Kw. rewrite Kw. cbn [require bind].
      set (l' := if mem_name w l then l else l ++ [w]). assert (L' : forall s, In s l' <-> asked ef (EWStr w) s).
      { intro s. assert (A : asked ef (EWStr w) s <-> asked ef EWNone s \/ w = s). { unfold asked. split; [intros [A|[A|A]]; auto; injection A as ->; auto | intros [[A|[A|A]]|A]; auto; [discriminate | subst; auto]]. }
        rewrite A. unfold l'. destruct (mem_name w l) eqn:M.
        - apply mem_name_spec in M. rewrite <- L. split; [auto | intros [I|<-]; assumption].
        - rewrite in_app_iff, L. cbn. tauto. }
      exists l'. split; [|exact L']. assert (F : forallb known l' = true) by (apply forallb_forall; intros s I; apply KT, L', I). unfold known in F. rewrite F. reflexivity.
  - intros (T1 & T2 & T3) (ks & s & -> & A & NI). destruct (N1 (conj T1 T3)) as (l & E & L). destruct ew as [|w|]; [| |congruence]; cbn [stat_list]; rewrite E; cbn [bind].
    + assert (F : forallb (fun s => mem_name s ks) l = false). { destruct (forallb _ l) eqn:F; [|reflexivity]. rewrite forallb_forall in F. specialize (F s (proj2 (L s) A)). apply mem_name_spec in F. contradiction. }
      rewrite F. reflexivity.
    + destruct (mem_name w ks) eqn:Kw; [|reflexivity]. cbn [require bind].
      set (l' := if mem_name w l then l else l ++ [w]). assert (I : In s l').
      { unfold l'. destruct A as [A|[A|A]].
        - assert (In s l) by (apply L; left; exact A). destruct (mem_name w l); [|apply in_or_app; left]; assumption.
        - assert (In s l) by (apply L; right; left; exact A). destruct (mem_name w l); [|apply in_or_app; left]; assumption.
        - injection A as ->. exfalso. apply NI, mem_name_spec, Kw. }
      assert (F : forallb (fun s => mem_name s ks) l' = false). { destruct (forallb _ l') eqn:F; [|reflexivity]. rewrite forallb_forall in F. specialize (F s I). apply mem_name_spec in F. contradiction. }
      rewrite F. reflexivity.
Qed.

Lemma order_keys (l : list string) : NoDup (rev (nodup string_dec (rev l))) /\ forall s, In s (rev (nodup string_dec (rev l))) <-> In s l.
Proof. split; [apply NoDup_rev, NoDup_nodup|]. intro s. rewrite <- in_rev, nodup_In, <- in_rev. reflexivity. Qed.

(** Averaging keeps exactly the statistics that were asked for, each once (error_weights included); without any the averaged object has none *)
Theorem averaged_statistics : forall ks ef ew nd ta pols, typed ef ew -> (forall s, asked ef ew s -> In s ks) ->
  exists r, averaged_stats (Some ks) ef ew nd ta pols = Ok r /\
    match r with
    | None => forall s, ~ asked ef ew s
    | Some d => d <> [] /\ NoDup (map fst d) /\ forall s, In s (map fst d) <-> asked ef ew s
    end.
Proof.
  intros ks ef ew nd ta pols T H. destruct (stat_list_spec (Some ks) ef ew) as (_ & A & _).
  destruct (A T) as (l & E & L); [intros ks' K s As; injection K as <-; apply H, As|]. unfold averaged_stats. rewrite E. cbn [bind]. destruct l as [|s0 l].
  - exists None. split; [reflexivity|]. intros s As. apply L in As. exact As.
  - eexists. split; [reflexivity|]. cbn beta iota. set (l0 := s0 :: l) in *. destruct (order_keys l0) as [N I]. rewrite map_map. cbn [fst]. rewrite map_id. split; [|split].
    + intros C. assert (X : In s0 (rev (nodup string_dec (rev l0)))) by (apply I; left; reflexivity). destruct (rev (nodup string_dec (rev l0))); [destruct X | discriminate].
    + exact N.
    + intro s. rewrite I. apply L.
Qed.
(** refusals: arguments that are not names, names that are not in the object, an object without statistics *)
Theorem averaged_statistics_refused : forall stats ef ew nd ta pols,
  (~ typed ef ew -> averaged_stats stats ef ew nd ta pols = Err TypeError) /\
  (typed ef ew -> forall ks s, stats = Some ks -> asked ef ew s -> ~ In s ks -> averaged_stats stats ef ew nd ta pols = Err KeyError) /\
  (typed ef ew -> forall s, stats = None -> asked ef ew s -> averaged_stats stats ef ew nd ta pols = Err AttributeError) /\
  (typed ef ew -> (forall s, ~ asked ef ew s) -> averaged_stats stats ef ew nd ta pols = Ok None).
Proof.
  intros stats ef ew nd ta pols. destruct (stat_list_spec stats ef ew) as (A & B & C). unfold averaged_stats. split; [|split; [|split]].
  - intros T. rewrite (A T). reflexivity.
  - intros T ks s -> As N. rewrite C; [reflexivity | exact T | exists ks, s; auto].
  - intros T s -> As. destruct (B T) as (l & E & L); [discriminate|]. rewrite E. cbn [bind]. destruct l as [|x l]; [|reflexivity]. apply L in As. destruct As.
  - intros T N. destruct (B T) as (l & E & L); [intros ks _ s As; destruct (N s As)|]. rewrite E. cbn [bind]. destruct l as [|x l]; [reflexivity|]. exfalso. apply (N x), L. left. reflexivity.
Qed.
Example averaged_statistics_applies : typed (EFSeq [Some "P_N"; Some "P_SN"]%string) (EWStr "P_N"%string) /\ asked (EFSeq [Some "P_N"; Some "P_SN"]%string) (EWStr "P_N"%string) "P_SN"%string /\
  stat_list (Some ["P_N"; "P_SN"; "bs_std"]%string) (EFStr "P_SN"%string) (EWStr "P_N"%string) = Ok ["P_SN"; "P_N"]%string.
Proof. split; [|split]; [|right; left; eexists; split; [reflexivity|cbn; auto]|reflexivity]. split; [discriminate|]. split; [discriminate|]. intros l E. injection E as <-. cbn. intuition discriminate. Qed.

(** ** one name at a time (C341) *)
Lemma iter_S {A} (f : A -> A) n x : Nat.iter (S n) f x = f (Nat.iter n f x).
Proof. reflexivity. Qed.
Lemma iter_1 {A} (f : A -> A) x : Nat.iter 1 f x = f x.
Proof. reflexivity. Qed.
Lemma iter_succ_r {A} (f : A -> A) n : forall x, Nat.iter (S n) f x = Nat.iter n f (f x).
Proof. induction n as [|n IH]; intros x; [reflexivity|]. change (f (Nat.iter (S n) f x) = f (Nat.iter n f (f x))). rewrite IH. reflexivity. Qed.
Lemma fold_upd {A} (f : string -> A -> A) l : forall (E : string -> A) t,
  fold_left (fun E s => upd E s (f s (E s))) l E t = Nat.iter (count_occ string_dec l t) (f t) (E t).
Proof.
  induction l as [|s l IH]; intros E t; [reflexivity|]. cbn [fold_left count_occ]. rewrite IH. unfold upd at 1. destruct (string_dec t s) as [->|N].
  - destruct (string_dec s s) as [_|N]; [|congruence]. rewrite iter_succ_r. reflexivity.
  - destruct (string_dec s t) as [C|_]; [congruence|]. reflexivity.
Qed.
Lemma iter_app_const {A} (x : A) n : forall B, Nat.iter n (fun B => B ++ [x]) B = B ++ repeat x n.
Proof. induction n as [|n IH]; intros B; [cbn; rewrite app_nil_r; reflexivity|]. rewrite iter_S, IH, <- app_assoc. f_equal. clear. induction n; cbn; [reflexivity|]. f_equal. exact IHn. Qed.
Lemma repeat_comm {A} (x : A) n : repeat x n ++ [x] = x :: repeat x n.
Proof. induction n as [|n IH]; cbn; [reflexivity|]. rewrite IH. reflexivity. Qed.

(** what is stored for a name given [n] times *)
Definition read_n (n : nat) (m : member) (s : string) : grid := match n with O => [] | _ => map (map square) (m_stat m s) end.
Definition errws_n (nd : nat) (ta : bool) (n : nat) (m : member) (s : string) : grid :=
  if ta then Nat.iter n (tstep nd (m_w m)) (read_n n m s) else read_n n m s.
Definition copies_n nd ta n m s := concat (repeat (repeat (weighted_errs nd (mem_w ta m) (errws_n nd ta n m s)) n) (m_copies m)).
Definition group_n nd ta n members s : nda :=
  Nat.iter n (fstep (nrows ta members) nd (wlist ta members)) (Lst (flat_map (fun m => copies_n nd ta n m s) members)).
Definition pol_n nd ta n groups s : grid := flat_map (fun g => concat (repeat (rows_of (group_n nd ta n g s)) n)) groups.
Definition spw_n nd ta n pols s : list grid := flat_map (fun p => repeat (pol_n nd ta n p s) n) pols.

Lemma iter_const {A} (x y : A) n : Nat.iter n (fun _ => x) y = match n with O => y | _ => x end.
Proof. destruct n; reflexivity. Qed.
Lemma read_at l m s : read_stats l m s = read_n (count_occ string_dec l s) m s.
Proof. unfold read_stats. rewrite (fold_upd (fun s _ => map (map square) (m_stat m s))). rewrite iter_const. reflexivity. Qed.
Lemma errws_at nd ta l m s : errws nd ta l m s = errws_n nd ta (count_occ string_dec l s) m s.
Proof. unfold errws, errws_n. destruct ta; [|apply read_at]. rewrite (fold_upd (fun _ e => tstep nd (m_w m) e)), read_at. reflexivity. Qed.
Lemma append_copy_at nd l E w B s : append_copy nd l E w B s = B s ++ repeat (weighted_errs nd w (E s)) (count_occ string_dec l s).
Proof. unfold append_copy. rewrite (fold_upd (fun s b => b ++ [weighted_errs nd w (E s)])). apply iter_app_const. Qed.
Lemma append_member_at nd ta l B m s : append_member nd ta l B m s = B s ++ copies_n nd ta (count_occ string_dec l s) m s.
Proof.
  unfold append_member, copies_n. induction (m_copies m) as [|k IH]; [cbn; rewrite app_nil_r; reflexivity|]. rewrite iter_S, append_copy_at, IH, errws_at, <- app_assoc. f_equal.
  set (x := repeat _ _). clear. induction k as [|k IH]; cbn; [rewrite app_nil_r; reflexivity|]. rewrite <- app_assoc, IH. reflexivity.
Qed.
Lemma group_at nd ta l members s : group_stats nd ta l members s = group_n nd ta (count_occ string_dec l s) members s.
Proof.
  unfold group_stats, group_n. rewrite (fold_upd (fun _ x => fstep (nrows ta members) nd (wlist ta members) x)). f_equal. f_equal.
  assert (G : forall B, fold_left (append_member nd ta l) members B s = B s ++ flat_map (fun m => copies_n nd ta (count_occ string_dec l s) m s) members); [|apply G].
  induction members as [|m ms IH]; intros B; cbn [fold_left flat_map]; [rewrite app_nil_r; reflexivity|]. rewrite IH, append_member_at, app_assoc. reflexivity.
Qed.
Lemma iter_ext_concat {A} (x : list A) n : forall B, Nat.iter n (fun B => B ++ x) B = B ++ concat (repeat x n).
Proof. induction n as [|n IH]; intros B; [cbn; rewrite app_nil_r; reflexivity|]. rewrite iter_S, IH, <- app_assoc. f_equal. clear. induction n as [|n IH]; cbn; [rewrite app_nil_r; reflexivity|]. rewrite <- app_assoc, IH. reflexivity. Qed.
Lemma pol_at nd ta l groups s : pol_stats nd ta l groups s = pol_n nd ta (count_occ string_dec l s) groups s.
Proof.
  unfold pol_stats, pol_n.
  assert (G : forall P, fold_left (fun P g => fold_left (fun P s => upd P s (P s ++ rows_of (group_stats nd ta l g s))) l P) groups P s
                        = P s ++ flat_map (fun g => concat (repeat (rows_of (group_n nd ta (count_occ string_dec l s) g s)) (count_occ string_dec l s))) groups); [|apply G].
  induction groups as [|g gs IH]; intros P; cbn [fold_left flat_map]; [rewrite app_nil_r; reflexivity|].
  rewrite IH, (fold_upd (fun s p => p ++ rows_of (group_stats nd ta l g s))), iter_ext_concat, group_at, <- app_assoc. reflexivity.
Qed.
Lemma spw_at nd ta l pols s : spw_stats nd ta l pols s = spw_n nd ta (count_occ string_dec l s) pols s.
Proof.
  unfold spw_stats, spw_n.
  assert (G : forall P, fold_left (fun S p => fold_left (fun S s => upd S s (S s ++ [pol_stats nd ta l p s])) l S) pols P s
                        = P s ++ flat_map (fun p => repeat (pol_n nd ta (count_occ string_dec l s) p s) (count_occ string_dec l s)) pols); [|apply G].
  induction pols as [|p ps IH]; intros P; cbn [fold_left flat_map]; [rewrite app_nil_r; reflexivity|].
  rewrite IH, (fold_upd (fun s q => q ++ [pol_stats nd ta l p s])), iter_app_const, pol_at, <- app_assoc. reflexivity.
Qed.

(** A statistic named once is averaged as if it had been asked for alone, whatever other names are in the list and wherever it stands *)
Theorem statistics_independent : forall nd ta l pols s, In s l -> NoDup l -> spw_stats nd ta l pols s = spw_stats nd ta [s] pols s.
Proof.
  intros nd ta l pols s I N. rewrite !spw_at. assert (C : count_occ string_dec l s = 1%nat). { apply NoDup_count_occ' ; assumption. }
  rewrite C. cbn [count_occ]. destruct (string_dec s s); [reflexivity|congruence].
Qed.

(** the rows of a group for one statistic: one row per integration (one in all when averaging in time); every copy of a member counts *)
Definition group_spec (nd : nat) (ta : bool) (s : string) (members : list member) : grid :=
  if ta then [map (fun d => err_time_averaged (flat_map (fun m => repeat (map (fun t => (nth d (nth t (m_stat m s) []) None, bc (nth t (m_w m) []) d)) (seq 0 (length (m_w m)))) (m_copies m)) members)) (seq 0 nd)]
  else map (fun r => map (fun d => option_map sqrt (err_mean (flat_map (fun m => repeat (square (nth d (nth r (m_stat m s) []) None), bc (nth r (m_w m) []) d) (m_copies m)) members))) (seq 0 nd)) (seq 0 (length (m_w (hd (mkmem [] (fun _ => []) 0) members)))).
(** arrays of matching shapes: the weights have one column or one per delay *)
Definition shaped (nd : nat) (s : string) (nt : nat) (m : member) : Prop :=
  length (m_w m) = nt /\ (forall r, In r (m_w m) -> length r = 1%nat \/ length r = nd) /\ length (m_stat m s) = nt /\ (forall r, In r (m_stat m s) -> length r = nd) /\
  (forall r r', In r (m_w m) -> In r' (m_w m) -> length r = length r').

Lemma nth_map_seq {A} (f : nat -> A) n k d : (k < n)%nat -> nth k (map f (seq 0 n)) d = f k.
Proof. intros H. rewrite (nth_indep _ d (f 0%nat)) by (rewrite map_length, seq_length; exact H). rewrite map_nth, seq_nth by exact H. reflexivity. Qed.
Lemma all_rows {A} (l : list (list A)) : map (fun x => nth x l []) (seq 0 (length l)) = l.
Proof. apply nth_ext with (d := []) (d' := []); [rewrite map_length, seq_length; reflexivity|]. intros k Hk. rewrite map_length, seq_length in Hk. rewrite nth_map_seq by exact Hk. reflexivity. Qed.
Lemma weighted_nth nd w e r d : (r < length w)%nat -> (d < nd)%nat -> nth d (nth r (weighted_errs nd w e) []) 0 = clip40 (nth d (nth r e []) None) * bc (nth r w []) d ^ 2.
Proof. intros Hr Hd. unfold weighted_errs. rewrite nth_map_seq by exact Hr. rewrite nth_map_seq by exact Hd. reflexivity. Qed.
Lemma square_nth (g : grid) r d : (forall r, In r g -> True) -> nth d (nth r (map (map square) g) []) None = square (nth d (nth r g []) None).
Proof.
  intros _. destruct (Nat.lt_ge_cases r (length g)) as [L|L].
  - rewrite (nth_indep _ [] (map square [])) by (rewrite map_length; exact L). rewrite map_nth. change None with (square None) at 1. rewrite map_nth. reflexivity.
  - rewrite (nth_overflow (map (map square) g)) by (rewrite map_length; exact L). rewrite (nth_overflow g) by exact L. destruct d; reflexivity.
Qed.
Lemma bc_colsum w nd d : w <> [] -> (forall r, In r w -> length r = 1%nat \/ length r = nd) -> (forall r r', In r w -> In r' w -> length r = length r') -> (d < nd)%nat ->
  bc (colsum w) d = Rsum (map (fun r => bc r d) w).
Proof.
  intros N L U Hd. destruct w as [|r0 w]; [congruence|]. destruct (L r0 (or_introl eq_refl)) as [L0|L0].
  - assert (A : forall r, In r (r0 :: w) -> exists x, r = [x]). { intros r I. assert (E : length r = 1%nat) by (rewrite <- L0; apply U; [exact I|left; reflexivity]). destruct r as [|x [|y r]]; try discriminate. exists x. reflexivity. }
    unfold colsum. cbn [hd]. rewrite L0. cbn [seq map]. unfold bc at 1. apply (f_equal Rsum). change (map (fun r => nth 0 r 0) (r0 :: w) = map (fun r => bc r d) (r0 :: w)). apply map_ext_in. intros r I. destruct (A r I) as [x ->]. reflexivity.
  - destruct (Nat.eq_dec nd 1) as [E1|N1].
    + assert (A : forall r, In r (r0 :: w) -> exists x, r = [x]). { intros r I. assert (E : length r = 1%nat) by (rewrite <- E1, <- L0; apply U; [exact I|left; reflexivity]). destruct r as [|x [|y r]]; try discriminate. exists x. reflexivity. }
      unfold colsum. cbn [hd]. rewrite L0, E1. cbn [seq map]. unfold bc at 1. apply (f_equal Rsum). change (map (fun r => nth 0 r 0) (r0 :: w) = map (fun r => bc r d) (r0 :: w)). apply map_ext_in. intros r I. destruct (A r I) as [x ->]. reflexivity.
    + assert (B : forall r, length r = nd -> forall d, bc r d = nth d r 0). { intros r E k. destruct r as [|x [|y r]]; try reflexivity. cbn in E. congruence. }
      rewrite B by (unfold colsum; rewrite map_length, seq_length; exact L0). unfold colsum. cbn [hd]. rewrite L0, nth_map_seq by exact Hd. f_equal. apply map_ext_in. intros r I. symmetry. apply B.
      rewrite <- L0. apply U; [exact I | left; reflexivity].
Qed.
Lemma concat_repeat1 {A} (x : A) n : concat (repeat [x] n) = repeat x n.
Proof. induction n; cbn; [reflexivity|]. rewrite IHn. reflexivity. Qed.
Lemma map_repeat' {A B} (g : A -> B) x n : map g (repeat x n) = repeat (g x) n.
Proof. induction n; cbn; [reflexivity|]. rewrite IHn. reflexivity. Qed.
Lemma flat_map_repeat_map {A B C} (g : B -> C) (f : A -> B) (n : A -> nat) l : map g (flat_map (fun a => repeat (f a) (n a)) l) = flat_map (fun a => repeat (g (f a)) (n a)) l.
Proof. induction l as [|a l IH]; [reflexivity|]. cbn [flat_map]. rewrite map_app, IH, map_repeat'. reflexivity. Qed.
Lemma flat_map_repeat_ext {A B} (f g : A -> B) (n : A -> nat) l : (forall a, In a l -> f a = g a) -> flat_map (fun a => repeat (f a) (n a)) l = flat_map (fun a => repeat (g a) (n a)) l.
Proof. intros H. induction l as [|a l IH]; [reflexivity|]. cbn [flat_map]. rewrite H by (left; reflexivity). rewrite IH; [reflexivity|]. intros b I. apply H. right. exact I. Qed.

Lemma group_one nd ta s members nt : members <> [] -> (0 < nt)%nat -> Forall (shaped nd s nt) members -> rows_of (group_n nd ta 1 members s) = group_spec nd ta s members.
Proof.
  intros NE Hnt F. rewrite Forall_forall in F. unfold group_n. rewrite iter_1. unfold fstep. cbn [rows_of axis0]. unfold copies_n. cbn [repeat].
  assert (CR : flat_map (fun m => concat (repeat [weighted_errs nd (mem_w ta m) (errws_n nd ta 1 m s)] (m_copies m))) members = flat_map (fun m => repeat (weighted_errs nd (mem_w ta m) (errws_n nd ta 1 m s)) (m_copies m)) members).
  { apply flat_map_ext. intro m. apply concat_repeat1. }
  rewrite CR. destruct members as [|m0 ms]; [congruence|]. destruct ta; unfold group_spec, nrows, wlist, mem_w, errws_n, read_n.
  - cbn [length seq map]. f_equal. apply map_ext_in. intros d Hd. apply in_seq in Hd. unfold err_time_averaged. f_equal. unfold err_mean at 1. f_equal. f_equal.
    + f_equal. rewrite flat_map_repeat_map, flat_map_repeat_map, flat_map_repeat_map. apply flat_map_repeat_ext. intros m Im. specialize (F m Im). destruct F as (F1 & F2 & F3 & F4 & F5).
      assert (Hw : m_w m <> []) by (intro C; rewrite C in F1; cbn in F1; lia). rewrite weighted_nth by (cbn [length]; lia). cbn [nth]. rewrite (bc_colsum (m_w m) nd) by (auto; lia). unfold err_of_pair. cbn [fst snd]. rewrite !map_map. cbn [fst snd]. f_equal.
      * f_equal. rewrite iter_1. unfold tstep. cbn [nth]. rewrite nth_map_seq by lia. f_equal. apply map_ext_in. intros t Ht. apply in_seq in Ht. f_equal.
        rewrite <- square_nth by auto. f_equal. unfold brow. destruct (m_stat m s) as [|x [|y g]] eqn:Eg; [reflexivity| |reflexivity]. cbn in F3. replace t with 0%nat by lia. reflexivity.
      * f_equal. assert (E : map (fun x => bc (nth x (m_w m) []) d) (seq 0 (length (m_w m))) = map (fun r => bc r d) (m_w m)).
        { rewrite <- (map_map (fun x => nth x (m_w m) []) (fun r => bc r d)). f_equal. apply all_rows. }
        rewrite E. reflexivity.
    + f_equal. f_equal. cbn [nth]. rewrite flat_map_repeat_map, flat_map_repeat_map. apply (f_equal Rsum). apply flat_map_repeat_ext. intros m Im. specialize (F m Im). destruct F as (F1 & F2 & F3 & F4 & F5).
      assert (Hw : m_w m <> []) by (intro C; rewrite C in F1; cbn in F1; lia). rewrite (bc_colsum (m_w m) nd) by (auto; lia). unfold err_of_pair. cbn [snd]. rewrite map_map. cbn [snd]. f_equal.
      rewrite <- (map_map (fun x => nth x (m_w m) []) (fun r => bc r d)). f_equal. symmetry. apply all_rows.
  - cbn [hd]. apply map_ext_in. intros r Hr. apply in_seq in Hr. apply map_ext_in. intros d Hd. apply in_seq in Hd. f_equal. unfold err_mean. f_equal. f_equal.
    + f_equal. rewrite flat_map_repeat_map, flat_map_repeat_map. apply flat_map_repeat_ext. intros m Im. destruct (F m Im) as (F1 & _ & F3 & _). destruct (F m0 (or_introl eq_refl)) as (G1 & _).
      rewrite weighted_nth by lia. cbn [fst snd]. rewrite square_nth by auto. reflexivity.
    + f_equal. f_equal. rewrite flat_map_repeat_map. cbn [snd]. reflexivity.
Qed.

(** ... namely: every bin is the error bar of the weighted mean over all copies of the members of its group, the groups one after the other, one array per polarization *)
Theorem statistics_averaged : forall nd ta l pols s, In s l -> NoDup l ->
  Forall (Forall (fun g => g <> [] /\ exists nt, (0 < nt)%nat /\ Forall (shaped nd s nt) g)) pols ->
  spw_stats nd ta l pols s = map (fun groups => flat_map (group_spec nd ta s) groups) pols.
Proof.
  intros nd ta l pols s I N F. rewrite spw_at. assert (C : count_occ string_dec l s = 1%nat) by (apply NoDup_count_occ'; assumption). rewrite C. unfold spw_n.
  induction F as [|p pols Fp F IH]; [reflexivity|]. change (pol_n nd ta 1 p s :: flat_map (fun p => repeat (pol_n nd ta 1 p s) 1) pols = flat_map (group_spec nd ta s) p :: map (fun groups => flat_map (group_spec nd ta s) groups) pols).
  f_equal; [|exact IH]. unfold pol_n. clear -Fp. induction Fp as [|g p (NE & nt & Hnt & Fg) F IH]; [reflexivity|]. cbn [flat_map]. rewrite IH. f_equal.
  cbn [repeat concat]. rewrite (group_one nd ta s g nt NE Hnt Fg), app_nil_r. reflexivity.
Qed.

(** ** a name given twice (C342) *)
Definition group_rows (ta : bool) (g : list member) : nat := nrows ta g.
Lemma group_n_rows nd ta n g s : (0 < n)%nat -> length (rows_of (group_n nd ta n g s)) = nrows ta g.
Proof. intros H. unfold group_n. destruct n as [|n]; [lia|]. rewrite iter_S. unfold fstep at 1. cbn [rows_of]. rewrite map_length, seq_length. reflexivity. Qed.
(** a name that stands n times in error_field gives n times the polarizations and n times the rows of the data *)
Theorem repeated_statistic_shape : forall nd ta l pols s, In s l ->
  let n := count_occ string_dec l s in
  length (spw_stats nd ta l pols s) = (n * length pols)%nat /\
  forall p, In p (spw_stats nd ta l pols s) -> exists groups, In groups pols /\ length p = (n * list_sum (map (nrows ta) groups))%nat.
Proof.
  intros nd ta l pols s I n. assert (P : (0 < n)%nat) by (exact (proj1 (count_occ_In string_dec l s) I)). rewrite spw_at. fold n. unfold spw_n. split.
  - clear I. induction pols as [|p ps IH]; cbn [flat_map length]; [lia|]. rewrite app_length, IH, repeat_length. lia.
  - intros p Hp. apply in_flat_map in Hp. destruct Hp as (groups & Ig & Hp). apply repeat_spec in Hp. subst p. exists groups. split; [exact Ig|]. unfold pol_n. clear -P. induction groups as [|g gs IH]; cbn [flat_map map list_sum fold_right length]; [lia|].
    rewrite app_length, IH. assert (L : forall k, length (concat (repeat (rows_of (group_n nd ta n g s)) k)) = (k * nrows ta g)%nat).
    { induction k as [|k IHk]; [reflexivity|]. cbn [repeat concat]. rewrite app_length, IHk, group_n_rows by exact P. lia. }
    rewrite L. unfold list_sum. lia.
Qed.
(** so the averaged statistic does not have the shape of the averaged spectra, and its values are wrong: one spectrum with the error 2 *)
Theorem repeated_statistic_refuted :
  ~ (forall nd ta l pols s, In s l -> length (spw_stats nd ta l pols s) = length pols) /\
  (let m := mkmem [[1]] (fun _ => [[Some 2]]) 1 in
   spw_stats 1 false ["P_N"%string] [[[m]]] "P_N"%string = [[[Some 2]]] /\
   forall v, nth 0 (nth 0 (nth 0 (spw_stats 1 false ["P_N"; "P_N"]%string [[[m]]] "P_N"%string) []) []) None = Some v -> v <> 2).
Proof.
  assert (T : clip 1 = 1). { apply clip_id. unfold tiny. rewrite <- Rinv_1. apply Rinv_le_contravar; [lra|]. apply IZR_le. lia. }
  assert (B : 4 <= big) by (unfold big; apply IZR_le; lia).
  assert (Z : forall x, 1 <= x -> zero_is_inf x = Some x). { intros x H. unfold zero_is_inf. destruct (Rle_dec _ _) as [L|_]; [|reflexivity]. exfalso. rewrite Rabs_right in L by lra. assert (/ IZR (10 ^ 8) < 1); [|lra]. rewrite <- Rinv_1. apply Rinv_lt_contravar; [rewrite Rmult_1_l; apply IZR_lt; lia | apply IZR_lt; lia]. }
  split; [|split].
  - intros H. specialize (H 1%nat false ["a"; "a"]%string [[]] "a"%string (or_introl eq_refl)). cbn in H. discriminate.
  - rewrite (statistics_averaged 1 false); [| left; reflexivity | repeat constructor; cbn; tauto |].
    + cbn. unfold err_mean. cbn. rewrite !Rplus_0_r, T, Rmax_left, Rmin_left by (try lra; unfold big in B; lra). rewrite Z by lra. cbn. repeat f_equal. replace (2 * (2 * 1) * (1 * (1 * 1)) / (1 * (1 * 1))) with (2 * 2) by field. apply sqrt_square. lra.
    + constructor; [|constructor]. constructor; [|constructor]. split; [discriminate|]. exists 1%nat. split; [lia|]. constructor; [|constructor]. unfold shaped. cbn. intuition subst; auto.
  - intros v. cbn. rewrite !Rplus_0_r, T, Rmax_left, Rmin_left by (try lra; unfold big in B; lra).
    replace (2 * (2 * 1) * (1 * (1 * 1)) + 2 * (2 * 1) * (1 * (1 * 1))) with 8 by ring. replace (8 / (1 * (1 * 1))) with 8 by field. rewrite Z by lra. cbn. rewrite Rplus_0_r.
    assert (S2 : 2 <= sqrt 8). { rewrite <- (sqrt_square 2) by lra. apply sqrt_le_1_alt. lra. }
    replace (sqrt 8 / (1 * (1 * 1))) with (sqrt 8) by field. rewrite Z by lra. cbn. intros E. injection E as <-. intros C.
    assert (Q : sqrt 8 = 4). { rewrite <- (sqrt_sqrt (sqrt 8)) by lra. rewrite C. ring. } assert (8 = 16); [|lra]. rewrite <- (sqrt_sqrt 8) by lra. rewrite Q. ring.
Qed.
Print Assumptions averaged_statistics. Print Assumptions averaged_statistics_refused. Print Assumptions statistics_independent. Print Assumptions statistics_averaged. Print Assumptions repeated_statistic_shape. Print Assumptions repeated_statistic_refuted.

(** ** averaging with error_weights (C343) *)
Definition usable (e : R) : Prop := 0 < e /\ / IZR (10 ^ 40) <= e ^ 2 <= IZR (10 ^ 40).
Definition information (es : list R) : R := Rsum (map (fun e => / e ^ 2) es).
Lemma usable_weight e : usable e -> / IZR (10 ^ 40) <= / e ^ 2 /\ 0 < / e ^ 2 /\ / clip (e ^ 2) = / e ^ 2.
Proof.
  intros (P & L & U). assert (P2 : 0 < e ^ 2) by (apply pow_lt, P). split; [apply Rinv_le_contravar; assumption|]. split; [apply Rinv_0_lt_compat, P2|]. rewrite clip_id; [reflexivity | exact L].
Qed.
Lemma information_ge es : Forall usable es -> forall e, In e es -> / e ^ 2 <= information es.
Proof.
  intros F. unfold information. induction F as [|x es U F IH]; intros e I; [destruct I|]. cbn [map Rsum]. destruct (usable_weight x U) as (_ & P & _).
  assert (0 <= Rsum (map (fun e => / e ^ 2) es)). { apply Rsum_nonneg, Forall_forall. intros y Hy. apply in_map_iff in Hy. destruct Hy as (z & <- & Hz). rewrite Forall_forall in F. destruct (usable_weight z (F z Hz)) as (_ & Pz & _). lra. }
  destruct I as [->|I]; [lra|]. specialize (IH e I). lra.
Qed.
(** Averaging with error_weights gives the error bar of inverse-variance weighting, never above that of any member *)
Theorem inverse_variance_error : forall es, es <> [] -> Forall usable es -> / IZR (10 ^ 8) < / information es ->
  avg_stat (combine es (err_weight es)) = Some (sqrt (/ information es)) /\ forall e, In e es -> sqrt (/ information es) <= e.
Proof.
  intros es NE F B. assert (IP : 0 < information es). { apply Rnot_le_lt. intro C. assert (/ information es <= 0). { destruct (Req_dec (information es) 0) as [->|N]; [rewrite Rinv_0; lra|]. left. apply Rinv_lt_0_compat. lra. } assert (0 < / IZR (10 ^ 8)) by (apply Rinv_0_lt_compat, IZR_lt; lia). lra. }
  split.
  - assert (W : map snd (combine es (err_weight es)) = map (fun e => / e ^ 2) es).
    { clear NE B IP. induction F as [|x es U F IH]; [reflexivity|]. cbn [err_weight map combine snd]. f_equal; [apply usable_weight, U | exact IH]. }
    assert (V : Rsum (map (fun ew : R * R => (fst ew * snd ew) ^ 2) (combine es (err_weight es))) = information es).
    { unfold information. clear NE B IP W. induction F as [|x es U F IH]; [reflexivity|]. cbn [err_weight map combine fst snd Rsum]. f_equal; [|exact IH]. destruct (usable_weight x U) as (_ & _ & ->). destruct U as [P _]. field. lra. }
    assert (T : tiny <= information es). { destruct es as [|e0 es]; [congruence|]. apply Rle_trans with (/ e0 ^ 2); [|apply information_ge; [exact F | left; reflexivity]]. rewrite Forall_forall in F. apply usable_weight, F. left. reflexivity. }
    rewrite avg_stat_spec.
    + rewrite V, W. fold (information es). f_equal. rewrite <- (sqrt_sqrt (information es)) at 2 by lra. rewrite sqrt_inv. pose proof (sqrt_lt_R0 _ IP). field. lra.
    + apply Forall_forall. intros [e w] I. apply in_combine_l in I. rewrite Forall_forall in F. apply F, I.
    + rewrite W. exact T.
    + rewrite V, W. fold (information es). replace (information es / information es ^ 2) with (/ information es) by (field; lra). exact B.
  - intros e I. rewrite Forall_forall in F. pose proof (F e I) as U. destruct U as [P _]. rewrite <- (sqrt_pow2 e) by lra. apply sqrt_le_1_alt.
    rewrite <- (Rinv_inv (e ^ 2)). apply Rinv_le_contravar; [apply Rinv_0_lt_compat, pow_lt, P|]. apply information_ge; [apply Forall_forall, F | exact I].
Qed.
Lemma weighted_square lam es : Forall usable es -> forall ws, length ws = length es ->
  Rsum (map (fun ew : R * R => (fst ew * snd ew - lam / fst ew) ^ 2) (combine es ws)) =
  Rsum (map (fun ew : R * R => (fst ew * snd ew) ^ 2) (combine es ws)) - 2 * lam * Rsum ws + lam ^ 2 * information es.
Proof.
  unfold information. induction 1 as [|x es U F IH]; intros [|w ws] L; try discriminate; [cbn; ring|]. cbn [combine map fst snd Rsum]. rewrite IH by (cbn in L; lia). destruct U as [P _]. field. lra.
Qed.
(** no other weights give a smaller one *)
Theorem inverse_variance_optimal : forall es ws s, es <> [] -> Forall usable es -> length ws = length es -> / IZR (10 ^ 40) <= Rsum ws ->
  avg_stat (combine es ws) = Some s -> sqrt (/ information es) <= s.
Proof.
  intros es ws s NE F L T H. unfold avg_stat in H.
  assert (W : map snd (combine es ws) = ws). { clear -L. revert ws L. induction es as [|e es IH]; intros [|w ws] L; try discriminate; [reflexivity|]. cbn. f_equal. apply IH. cbn in L. lia. }
  assert (V : map (fun ew : R * R => Rmin (fst ew ^ 2) (IZR (10 ^ 40)) * snd ew ^ 2) (combine es ws) = map (fun ew : R * R => (fst ew * snd ew) ^ 2) (combine es ws)).
  { apply map_ext_in. intros [e w] I. apply in_combine_l in I. rewrite Forall_forall in F. destruct (F e I) as (_ & _ & U). cbn [fst snd]. rewrite Rmin_left by exact U. ring. }
  rewrite V, W, clip_id in H by exact T. destruct (Rle_dec _ _) as [_|_]; [discriminate|]. match type of H with Some ?x = Some _ => assert (Es : x = s) by congruence end. rewrite <- Es. apply sqrt_le_1_alt.
  assert (IP : 0 < information es). { destruct es as [|e0 es]; [congruence|]. apply Rlt_le_trans with (/ e0 ^ 2); [|apply information_ge; [exact F | left; reflexivity]]. rewrite Forall_forall in F. apply usable_weight, F. left. reflexivity. }
  assert (WP : 0 < Rsum ws). { apply Rlt_le_trans with (/ IZR (10 ^ 40)); [apply Rinv_0_lt_compat, IZR_lt; lia | exact T]. }
  pose proof (weighted_square (Rsum ws / information es) es F ws L) as Q.
  assert (N : 0 <= Rsum (map (fun ew : R * R => (fst ew * snd ew - Rsum ws / information es / fst ew) ^ 2) (combine es ws))).
  { apply Rsum_nonneg, Forall_forall. intros x Hx. apply in_map_iff in Hx. destruct Hx as (y & <- & _). apply pow2_ge_0. }
  rewrite Q in N. set (A := Rsum (map (fun ew : R * R => (fst ew * snd ew) ^ 2) (combine es ws))) in *. set (I := information es) in *. set (S := Rsum ws) in *.
  assert (E : A - 2 * (S / I) * S + (S / I) ^ 2 * I = A - S ^ 2 / I) by (field; lra). assert (N2 : 0 <= A - S ^ 2 / I) by (rewrite <- E; lra). clear N. rename N2 into N.
  apply (Rmult_le_reg_r (S ^ 2)); [apply pow_lt, WP|]. replace (A / S ^ 2 * S ^ 2) with A by (field; lra). apply Rle_trans with (S ^ 2 / I); [right; field; lra | lra].
Qed.
Example inverse_variance_applies : Forall usable [3; 4] /\ information [3; 4] = 25 / 144 /\ / IZR (10 ^ 8) < / information [3; 4].
Proof.
  assert (B : 1000 <= IZR (10 ^ 40)) by (apply IZR_le; lia). assert (C : / IZR (10 ^ 40) <= 1) by (rewrite <- Rinv_1; apply Rinv_le_contravar; lra).
  assert (E : information [3; 4] = 25 / 144) by (unfold information; cbn; field).
  split; [repeat constructor; lra|]. split; [exact E|]. rewrite E. apply Rinv_lt_contravar; [apply Rmult_lt_0_compat; [lra | apply IZR_lt; lia]|]. apply Rlt_trans with 1; [lra | apply IZR_lt; lia].
Qed.
Print Assumptions inverse_variance_error. Print Assumptions inverse_variance_optimal.

(** ** weights of the baseline-pairs that are in no group (C344) *)
(** With one list of weights per group, the groups are averaged with their weights and every other baseline-pair, once, alone with weight one *)
Theorem left_over_weights : forall (u : uvp R) order groups ws, (forall l, Permutation (order l) l) -> groups <> [] ->
  Forall (fun g => g <> [] /\ In (hd 0%Z g) (u_blpair_array u)) groups -> Forall2 (fun g w => length g = length (w : list R)) groups ws ->
  exists extra, effective_groups u false order groups (Some ws) = Ok (combine groups ws ++ map (fun b => ([b], [1])) extra) /\
    NoDup extra /\ forall b, In b extra <-> In b (u_blpair_array u) /\ forall g, In g groups -> ~ In b g.
Proof.
  intros u order groups ws P Ng F L. set (extra := order (filter (fun b => negb (memZ b (concat groups))) (ordered_unique [] (u_blpair_array u)))). exists extra. split; [|split].
  - unfold effective_groups. assert (A1 : forallb (fun g : list Z => negb (Nat.eqb (length g) 0)) groups = true).
    { apply forallb_forall. rewrite Forall_forall in F. intros g I. destruct (F g I) as [N _]. destruct g; [congruence|reflexivity]. }
    assert (A2 : forallb (fun g => memZ (hd 0%Z g) (u_blpair_array u)) groups = true).
    { apply forallb_forall. rewrite Forall_forall in F. intros g I. destruct (F g I) as [_ X]. apply memZ_In, X. }
    assert (A3 : forallb (fun w : list R => negb (Nat.eqb (length w) 0)) ws = true).
    { apply forallb_forall. intros w I. clear -F L I. induction L as [|g w' groups ws E L IH]; [destruct I|]. inversion F as [|? ? [N _] F']; subst. destruct I as [->|I]; [|apply IH; assumption]. destruct g; [congruence|]. rewrite <- E. reflexivity. }
    assert (A4 : (Nat.leb (length groups) (length ws) && forallb (fun gw : list Z * list R => Nat.eqb (length (fst gw)) (length (snd gw))) (combine groups ws))%bool = true).
    { apply andb_true_iff. split; [apply Nat.leb_le; clear -L; induction L; cbn; lia|]. clear -L. induction L as [|g w groups ws E L IH]; [reflexivity|]. cbn. apply andb_true_iff. split; [apply Nat.eqb_eq, E | exact IH]. }
    rewrite A1. cbn [require]. rewrite A2. cbn [require]. assert (A0 : negb (Nat.eqb (length groups) 0) = true) by (destruct groups; [congruence | reflexivity]). rewrite A0. cbn [require]. rewrite A3. cbn [require]. rewrite A4. cbn [require bind]. fold extra. f_equal.
    clear -L. generalize extra. intro ex. clear extra. induction L as [|g w groups ws E L IH]; cbn [app combine].
    + induction ex as [|b ex IH]; [reflexivity|]. cbn [map combine]. f_equal. exact IH.
    + f_equal. exact IH.
  - apply (Permutation_NoDup (Permutation_sym (P _))). apply leftover_spec.
  - intro b. assert (X : In b extra <-> In b (leftover u groups)) by (split; intro I; [apply (Permutation_in _ (P _)), I | apply (Permutation_in _ (Permutation_sym (P _))), I]).
    rewrite X. destruct (leftover_spec u groups) as [_ ->]. rewrite in_concat. split; intros [I N]; (split; [exact I|]).
    + intros g Ig Ib. apply N. exists g. auto.
    + intros (g & Ig & Ib). exact (N g Ig Ib).
Qed.
(** surplus lists of weights are accepted and shift the weights of the others: two baseline-pairs, one of them in a group, and a second list of weights *)
Theorem left_over_weights_refuted : forall (u : uvp R) order a b, (forall l, Permutation (order l) l) -> u_blpair_array u = [a; b] -> a <> b ->
  effective_groups u false order [[a]] (Some [[1]; [5]]) = Ok [([a], [1]); ([b], [5])] /\ norm_weights false [5] = Ok [5] /\ copies_of 5 = 5%nat /\
  effective_groups u false order [[a]] (Some [[1]; [0]]) = Ok [([a], [1]); ([b], [0])] /\ norm_weights true [0] = Err ValueError.
Proof.
  intros u order a b P E N. unfold effective_groups. rewrite E. cbn [forallb hd length Nat.eqb negb andb Nat.leb concat app combine fst snd].
  assert (Ma : memZ a [a; b] = true) by (apply memZ_In; left; reflexivity). rewrite Ma. cbn [require bind andb].
  assert (U : ordered_unique [] [a; b] = [a; b]). { cbn. unfold memZ. cbn. destruct (Z.eqb_spec b a); [congruence|]. reflexivity. }
  rewrite U. cbn [filter]. assert (M1 : memZ a [a] = true) by (apply memZ_In; left; reflexivity). assert (M2 : memZ b [a] = false). { destruct (memZ b [a]) eqn:M; [|reflexivity]. apply memZ_In in M. destruct M as [M|[]]. congruence. }
  rewrite M1, M2. cbn [negb]. assert (O : order [b] = [b]) by (apply Permutation_length_1_inv, Permutation_sym, P). rewrite O. cbn [map app combine].
  split; [reflexivity|]. split; [|split; [|split; [reflexivity|]]].
  - unfold norm_weights. destruct (Rle_dec 1 0); [lra|]. cbn. do 2 f_equal. field.
  - replace 5 with (INR 5) by (cbn; lra). apply copies_of_INR.
  - unfold norm_weights. cbn. rewrite Rplus_0_r. destruct (Rle_dec 0 0); [reflexivity|lra].
Qed.
Print Assumptions left_over_weights. Print Assumptions left_over_weights_refuted.

(** a statistic with a single row is broadcast along the time axis: each integration of the weights is averaged with that row *)
Theorem single_row_statistic : forall nd w x, tstep nd w [x] = tstep nd w (repeat x (length w)).
Proof.
  intros nd w x. unfold tstep. f_equal. apply map_ext. intro d. f_equal. apply map_ext_in. intros t I. apply in_seq in I.
  f_equal. f_equal. destruct w as [|w0 [|w1 w]]; [cbn in I; lia|reflexivity|].
  cbn [length] in *. set (n := S (S (length w))) in *. assert (E : nth t (repeat x n) [] = x).
  { assert (L : (t < n)%nat) by lia. clear -L. revert t L. induction n as [|n IH]; intros [|t] L; cbn; try lia; [reflexivity|]. apply IH. lia. }
  transitivity (nth t (repeat x n) []); [symmetry; exact E|]. reflexivity.
Qed.
Print Assumptions single_row_statistic.
