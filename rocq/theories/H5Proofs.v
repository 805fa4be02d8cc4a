(** Lemmas about H5Model. *)
From Coq Require Import String Ascii Sorted.
From Verif Require Import PyDict PyStr H5Model.
From Verif Require Import Prelude ListLemmas.
Open Scope nat_scope.

(** ** names *)
Lemma str_nat_chars n c : In c (str_Z (Z.of_nat n)) -> exists d, (0 <= d <= 9)%Z /\ c = digit_char d.
Proof.
  unfold str_Z. destruct (Z.ltb_spec (Z.of_nat n) 0); [lia|]. intros H1. apply in_map_iff in H1 as (d & <- & H2).
  destruct (digits_spec (Z.of_nat n)) as (_ & F & _); [lia|]. rewrite Forall_forall in F. exists d. auto.
Qed.
Lemma str_nat_ne n : str_Z (Z.of_nat n) <> [].
Proof.
  unfold str_Z. destruct (Z.ltb_spec (Z.of_nat n) 0); [lia|]. intros E. apply map_eq_nil in E.
  destruct (digits_spec (Z.of_nat n)) as (_ & _ & N); [lia|]. contradiction.
Qed.
Lemma str_nat_inj n m : str_Z (Z.of_nat n) = str_Z (Z.of_nat m) -> n = m.
Proof. intros E. apply (f_equal int_strict) in E. rewrite !int_str in E. injection E. lia. Qed.
Lemma digit_char_cases d : (0 <= d <= 9)%Z -> In (digit_char d) (list_ascii_of_string "0123456789").
Proof.
  intros H. assert (d = 0 \/ d = 1 \/ d = 2 \/ d = 3 \/ d = 4 \/ d = 5 \/ d = 6 \/ d = 7 \/ d = 8 \/ d = 9)%Z as D by lia.
  repeat (destruct D as [->|D]; [vm_compute; tauto|]). subst d. vm_compute. tauto.
Qed.
Lemma str_nat_no c n : ~ In c (list_ascii_of_string "0123456789") -> ~ In c (str_Z (Z.of_nat n)).
Proof. intros H H1. apply str_nat_chars in H1 as (d & Hd & ->). apply H, digit_char_cases, Hd. Qed.
Lemma sep_inj {A} (c : A) u v d1 d2 : ~ In c d1 -> ~ In c d2 -> u ++ c :: d1 = v ++ c :: d2 -> u = v /\ d1 = d2.
Proof.
  intros N1 N2. revert v. induction u as [|x u IH]; intros [|y v] E; simpl in E.
  - injection E as E1. auto.
  - injection E as E1 E2. exfalso. apply N1. rewrite E2. apply in_or_app. right. left. reflexivity.
  - injection E as E1 E2. exfalso. apply N2. rewrite <- E2. apply in_or_app. right. left. reflexivity.
  - injection E as E1 E2. subst. destruct (IH v E2). subst. auto.
Qed.
Definition w_char : ascii := "w"%char.
Notation u_char := "_"%char.
Lemma ds_name_split a i : ds_name a i = (base a ++ s_ "_sp") ++ w_char :: str_Z (Z.of_nat i).
Proof. unfold ds_name. rewrite <- !app_assoc. reflexivity. Qed.
Lemma stat_name_split s i : stat_name s i = (s_ "stats_" ++ s) ++ u_char :: str_Z (Z.of_nat i).
Proof. unfold stat_name. rewrite <- !app_assoc. reflexivity. Qed.
Ltac nochar := apply str_nat_no; vm_compute; intuition discriminate.

Lemma ds_name_inj a b i j : In a dicts -> In b dicts -> ds_name a i = ds_name b j -> a = b /\ i = j.
Proof.
  intros Ha Hb E. rewrite !ds_name_split in E. apply sep_inj in E as [E1 E2]; try nochar.
  apply str_nat_inj in E2. split; [|exact E2].
  revert Ha Hb E1. unfold dicts, names. intros Ha Hb E1. apply app_inv_tail in E1.
  repeat (destruct Ha as [<-|Ha]); try (destruct Ha; fail);
  repeat (destruct Hb as [<-|Hb]); try (destruct Hb; fail); try reflexivity; vm_compute in E1; discriminate.
Qed.
Lemma stat_name_inj s t i j : stat_name s i = stat_name t j -> s = t /\ i = j.
Proof.
  intros E. rewrite !stat_name_split in E. apply sep_inj in E as [E1 E2]; try nochar.
  apply str_nat_inj in E2. apply app_inv_head in E1. auto.
Qed.
Lemma ds_name_prefix a i : In a dicts -> prefixb stats_s (ds_name a i) = false.
Proof.
  intros Ha. unfold dicts, names in Ha. rewrite ds_name_split.
  repeat (destruct Ha as [<-|Ha]); try (destruct Ha; fail); reflexivity.
Qed.
Lemma stat_name_prefix s i : prefixb stats_s (stat_name s i) = true.
Proof. reflexivity. Qed.
Lemma meta_dsets_prefix : forallb (fun m => negb (prefixb stats_s m)) meta_dsets = true.
Proof. vm_compute. reflexivity. Qed.
Definition is_digit (c : ascii) : bool := existsb (Ascii.eqb c) (list_ascii_of_string "0123456789").
Lemma last_app_ne {A} (u v : list A) d : v <> [] -> last (u ++ v) d = last v d.
Proof.
  intros N. induction u as [|x u IH]; [reflexivity|]. simpl. destruct (u ++ v) eqn:E; [|exact IH].
  apply app_eq_nil in E as [_ E]. contradiction.
Qed.
Lemma In_last {A} (v : list A) d : v <> [] -> In (last v d) v.
Proof.
  induction v as [|x v IH]; [contradiction|]. intros _. destruct v as [|y v]; [left; reflexivity|].
  right. apply IH. discriminate.
Qed.
Lemma ds_name_last a i : is_digit (last (ds_name a i) u_char) = true.
Proof.
  unfold ds_name. rewrite app_assoc, last_app_ne by apply str_nat_ne.
  pose proof (In_last (str_Z (Z.of_nat i)) u_char (str_nat_ne i)) as I. apply str_nat_chars in I as (d & Hd & ->).
  apply existsb_exists. exists (digit_char d). split; [apply digit_char_cases, Hd|apply Ascii.eqb_refl].
Qed.
Lemma meta_dsets_last : forallb (fun m => negb (is_digit (last m u_char))) meta_dsets = true.
Proof. vm_compute. reflexivity. Qed.
Lemma ds_name_not_meta a i : ~ In (ds_name a i) meta_dsets.
Proof.
  intros H. pose proof meta_dsets_last as F. rewrite forallb_forall in F. apply F in H. rewrite ds_name_last in H. discriminate.
Qed.
Lemma stat_name_not_meta s i : ~ In (stat_name s i) meta_dsets.
Proof.
  intros H. pose proof meta_dsets_prefix as F. rewrite forallb_forall in F. apply F in H. rewrite stat_name_prefix in H. discriminate.
Qed.

Lemma find_from_hit k c u v : ~ In c u -> find_from k c (u ++ c :: v) = Some (k + Z.of_nat (length u))%Z.
Proof.
  revert k. induction u as [|x u IH]; intros k N; simpl.
  - rewrite Ascii.eqb_refl. f_equal. lia.
  - destruct (Ascii.eqb_spec x c) as [->|_]; [exfalso; apply N; left; reflexivity|].
    rewrite IH by (intros H; apply N; right; exact H). f_equal. lia.
Qed.
Lemma rfind_from_none k c v : ~ In c v -> rfind_from k c v = None.
Proof.
  revert k. induction v as [|x v IH]; intros k N; simpl; [reflexivity|].
  rewrite IH by (intros H; apply N; right; exact H).
  destruct (Ascii.eqb_spec x c) as [->|_]; [exfalso; apply N; left; reflexivity|reflexivity].
Qed.
Lemma rfind_from_hit k c u v : ~ In c v -> rfind_from k c (u ++ c :: v) = Some (k + Z.of_nat (length u))%Z.
Proof.
  intros N. revert k. induction u as [|x u IH]; intros k; simpl.
  - rewrite rfind_from_none by exact N. rewrite Ascii.eqb_refl. f_equal. lia.
  - rewrite IH. f_equal. lia.
Qed.
Lemma stat_of_stat_name s i : stat_of (stat_name s i) = s.
Proof.
  unfold stat_of. rewrite stat_name_split. unfold rfind_. rewrite rfind_from_hit by nochar.
  unfold find_, or_minus1.
  replace ((s_ "stats_" ++ s) ++ u_char :: str_Z (Z.of_nat i)) with (s_ "stats" ++ u_char :: (s ++ u_char :: str_Z (Z.of_nat i)))
    by reflexivity.
  rewrite find_from_hit by (vm_compute; intuition discriminate).
  set (d := str_Z (Z.of_nat i)). unfold py_slice.
  replace (length (s_ "stats" ++ u_char :: s ++ u_char :: d)) with (6 + length s + 1 + length d)
    by (rewrite app_length; simpl; rewrite app_length; simpl; lia).
  rewrite app_length. change (length (s_ "stats_")) with 6. change (length (s_ "stats")) with 5.
  destruct (Z.ltb_spec (0 + Z.of_nat 5 + 1) 0); [lia|]. destruct (Z.ltb_spec (0 + Z.of_nat (6 + length s)) 0); [lia|].
  replace (Z.to_nat (Z.max 0 (Z.min (Z.of_nat (6 + length s + 1 + length d)) (0 + Z.of_nat 5 + 1)))) with 6 by lia.
  replace (Z.to_nat (Z.max 0 (Z.min (Z.of_nat (6 + length s + 1 + length d)) (0 + Z.of_nat (6 + length s))))) with (6 + length s) by lia.
  unfold slice. change (s_ "stats" ++ u_char :: s ++ u_char :: d) with (s_ "stats_" ++ (s ++ u_char :: d)).
  rewrite app_assoc. rewrite firstn_app. rewrite firstn_all2 by (rewrite app_length; simpl; lia).
  replace (6 + length s - length (s_ "stats_" ++ s)) with 0 by (rewrite app_length; simpl; lia).
  rewrite firstn_O, app_nil_r. reflexivity.
Qed.

Lemma NoDup_app_3 {A} (l1 l2 : list A) : NoDup l1 -> NoDup l2 -> (forall x, In x l1 -> In x l2 -> False) -> NoDup (l1 ++ l2).
Proof.
  intros N1 N2 D. induction N1 as [|x l1 Hx N1 IH]; simpl; [exact N2|]. constructor.
  - rewrite in_app_iff. intros [C|C]; [contradiction|]. apply (D x); [left; reflexivity | exact C].
  - apply IH. intros y H1 H2. apply (D y); [right; exact H1 | exact H2].
Qed.

(** ** membership *)
Lemma memn_In n l : memn n l = true <-> In n l.
Proof.
  unfold memn. rewrite existsb_exists. split.
  - intros (x & H & E). apply str_eqb_eq in E. subst. exact H.
  - intros H. exists n. split; [exact H|]. apply str_eqb_eq. reflexivity.
Qed.
Lemma memn_false n l : memn n l = false <-> ~ In n l.
Proof. rewrite <- memn_In. destruct (memn n l); intuition congruence. Qed.

Lemma insert_nat_In x y l : In y (insert_nat x l) <-> y = x \/ In y l.
Proof.
  induction l as [|z l IH]; simpl; [intuition|].
  destruct (Nat.ltb_spec x z); simpl; [intuition|]. destruct (Nat.eqb_spec x z); simpl; [subst; intuition|].
  rewrite IH. intuition.
Qed.
Lemma unique_In_acc y l a : In y (fold_left (fun a x => insert_nat x a) l a) <-> In y l \/ In y a.
Proof.
  revert a. induction l as [|x l IH]; intros a; simpl; [intuition|]. rewrite IH, insert_nat_In. intuition.
Qed.
Lemma unique_In y l : In y (unique l) <-> In y l.
Proof. unfold unique. rewrite unique_In_acc. simpl. intuition. Qed.
Lemma insert_nat_NoDup x l : StronglySorted lt l -> StronglySorted lt (insert_nat x l).
Proof.
  induction l as [|z l IH]; intros S; simpl; [repeat constructor|].
  inversion S as [|? ? S' F]; subst. destruct (Nat.ltb_spec x z).
  - constructor; [exact S|]. constructor; [exact H|]. eapply Forall_impl; [|exact F]. simpl. intros; lia.
  - destruct (Nat.eqb_spec x z); [exact S|]. constructor; [apply IH; exact S'|].
    apply Forall_forall. intros y Hy. apply insert_nat_In in Hy as [->|Hy]; [lia|]. rewrite Forall_forall in F. apply F, Hy.
Qed.
Lemma unique_sorted l : StronglySorted lt (unique l).
Proof.
  unfold unique. assert (G : forall a, StronglySorted lt a -> StronglySorted lt (fold_left (fun a x => insert_nat x a) l a)).
  { induction l as [|x l IH]; intros a S; simpl; [exact S|]. apply IH, insert_nat_NoDup, S. }
  apply G. constructor.
Qed.
Lemma unique_NoDup l : NoDup (unique l).
Proof. apply sorted_NoDup, unique_sorted. Qed.

Lemma insert_str_In x y l : In y (insert_str x l) <-> y = x \/ In y l.
Proof.
  induction l as [|z l IH]; simpl; [intuition|].
  destruct (str_ltb x z); simpl; [intuition|]. destruct (str_eqb x z) eqn:E; simpl.
  - apply str_eqb_eq in E. subst. intuition.
  - rewrite IH. intuition.
Qed.
Lemma unique_str_In y l : In y (unique_str l) <-> In y l.
Proof.
  unfold unique_str. assert (G : forall a, In y (fold_left (fun a x => insert_str x a) l a) <-> In y l \/ In y a).
  { induction l as [|x l IH]; intros a; simpl; [intuition|]. rewrite IH, insert_str_In. intuition. }
  rewrite G. simpl. intuition.
Qed.

(** order of names: character codes, a proper prefix first *)
Definition name_lt (a b : pystr) : Prop :=
  (exists c b', b = a ++ c :: b') \/
  exists p x y a' b', a = p ++ x :: a' /\ b = p ++ y :: b' /\ (nat_of_ascii x < nat_of_ascii y)%nat.
Lemma str_ltb_lt a : forall b, str_ltb a b = true <-> name_lt a b.
Proof.
  induction a as [|x a IH]; intros [|y b]; cbn [str_ltb].
  - split; [discriminate|]. intros [(c & b' & E)|(p & x & y & a' & b' & E & _)]; [discriminate|]. destruct p; discriminate.
  - split; [|reflexivity]. intros _. left. exists y, b. reflexivity.
  - split; [discriminate|]. intros [(c & b' & E)|(p & x' & y & a' & b' & _ & E & _)]; [discriminate|]. destruct p; discriminate.
  - destruct (Nat.ltb_spec (nat_of_ascii x) (nat_of_ascii y)) as [L|L].
    + split; [|reflexivity]. intros _. right. exists [], x, y, a, b. auto.
    + destruct (Ascii.eqb_spec x y) as [<-|N].
      * rewrite IH. split.
        -- intros [(c & b' & ->)|(p & x' & y' & a' & b' & -> & -> & Q)]; [left; exists c, b'; reflexivity|]. right. exists (x :: p), x', y', a', b'. auto.
        -- intros [(c & b' & E)|(p & x' & y' & a' & b' & E1 & E2 & Q)]; [cbn in E; injection E as ->; left; exists c, b'; reflexivity|].
           destruct p as [|z p]; cbn in E1, E2; injection E1 as -> ->; injection E2; [intros _ ->; lia|]. intros -> . right. exists p, x', y', a', b'. auto.
      * split; [discriminate|]. intros [(c & b' & E)|(p & x' & y' & a' & b' & E1 & E2 & Q)]; [cbn in E; injection E as -> _; congruence|].
        destruct p as [|z p]; cbn in E1, E2; injection E1 as -> ->; injection E2; intros; subst; [lia|congruence].
Qed.
Lemma str_lt_trans a : forall b c, str_ltb a b = true -> str_ltb b c = true -> str_ltb a c = true.
Proof.
  induction a as [|x a IH]; intros [|y b] [|z c]; cbn [str_ltb]; try discriminate; try reflexivity.
  destruct (Nat.ltb_spec (nat_of_ascii x) (nat_of_ascii y)) as [L1|L1].
  - intros _. destruct (Nat.ltb_spec (nat_of_ascii y) (nat_of_ascii z)) as [L2|L2].
    + intros _. rewrite (proj2 (Nat.ltb_lt _ _)) by lia. reflexivity.
    + destruct (Ascii.eqb_spec y z) as [<-|N2]; [|discriminate]. intros _. rewrite (proj2 (Nat.ltb_lt _ _)) by exact L1. reflexivity.
  - destruct (Ascii.eqb_spec x y) as [<-|N1]; [|discriminate]. intros H1. destruct (Nat.ltb_spec (nat_of_ascii x) (nat_of_ascii z)) as [L2|L2]; [reflexivity|].
    destruct (Ascii.eqb_spec x z) as [<-|N2]; [|discriminate]. intros H2. exact (IH _ _ H1 H2).
Qed.
Lemma str_total a : forall b, str_ltb a b = false -> str_eqb a b = false -> str_ltb b a = true.
Proof.
  induction a as [|x a IH]; intros [|y b]; cbn [str_ltb]; try discriminate; try reflexivity; intros H E.
  - destruct (Nat.ltb_spec (nat_of_ascii x) (nat_of_ascii y)); [discriminate|]. destruct (Ascii.eqb_spec x y) as [<-|N].
    + rewrite Nat.ltb_irrefl, Ascii.eqb_refl. apply IH; [exact H|]. destruct (str_eqb a b) eqn:Q; [|reflexivity]. apply str_eqb_eq in Q. subst b. assert (T : str_eqb (x :: a) (x :: a) = true) by (apply str_eqb_eq; reflexivity). congruence.
    + destruct (Nat.ltb_spec (nat_of_ascii y) (nat_of_ascii x)); [reflexivity|]. exfalso. apply N. rewrite <- (ascii_nat_embedding x), <- (ascii_nat_embedding y). f_equal. lia.
Qed.
Lemma insert_str_sorted x l : StronglySorted name_lt l -> StronglySorted name_lt (insert_str x l).
Proof.
  induction 1 as [|y l S IH F]; cbn [insert_str]; [constructor; constructor|].
  destruct (str_ltb x y) eqn:L.
  - constructor; [constructor; assumption|]. constructor; [apply str_ltb_lt, L|]. rewrite Forall_forall in F |- *. intros z Z. apply str_ltb_lt. apply str_lt_trans with y; [exact L|]. apply str_ltb_lt, F, Z.
  - destruct (str_eqb x y) eqn:E; [constructor; assumption|]. constructor; [exact IH|]. rewrite Forall_forall in F |- *. intros z Z. apply insert_str_In in Z as [->|Z]; [apply str_ltb_lt, str_total; assumption|apply F, Z].
Qed.
Lemma unique_str_sorted l : StronglySorted name_lt (unique_str l).
Proof.
  unfold unique_str. assert (G : forall a, StronglySorted name_lt a -> StronglySorted name_lt (fold_left (fun a x => insert_str x a) l a)).
  { induction l as [|x l IH]; intros a S; cbn; [exact S|]. apply IH, insert_str_sorted, S. }
  apply G. constructor.
Qed.

(** ** dictionaries *)
Section Dicts.
Context {V : Type}.
Lemma create_ok (l d d' : dict V) : create_all l d = Ok d' -> d' = d ++ l /\ (NoDup (map fst d) -> NoDup (map fst d')).
Proof.
  revert d. induction l as [|[n v] l IH]; intros d E; simpl in E.
  - injection E as <-. rewrite app_nil_r. auto.
  - destruct (aget d n) eqn:A; [discriminate|]. apply IH in E as [-> N]. rewrite <- app_assoc. split; [reflexivity|].
    intros D. rewrite <- app_assoc in N. apply N. rewrite map_app. simpl. apply dget_None in A.
    apply NoDup_rev in D. rewrite <- (rev_involutive (map fst d ++ [n])). apply NoDup_rev. rewrite rev_app_distr. simpl.
    constructor; [rewrite <- in_rev; exact A|exact D].
Qed.
Lemma create_total (l d : dict V) : NoDup (map fst l) -> (forall n, In n (map fst l) -> ~ In n (map fst d)) -> create_all l d = Ok (d ++ l).
Proof.
  revert d. induction l as [|[n v] l IH]; intros d N H; simpl; [rewrite app_nil_r; reflexivity|].
  inversion N as [|? ? N1 N2]; subst. destruct (aget d n) eqn:A.
  - exfalso. apply (H n); [left; reflexivity|]. apply dget_In in A. apply (in_map fst) in A. exact A.
  - rewrite IH; [rewrite <- app_assoc; reflexivity|exact N2|].
    intros m Hm. rewrite map_app. simpl. rewrite in_app_iff. intros [C|[C|[]]]; [apply (H m); [right; exact Hm|exact C]|].
    subst. contradiction.
Qed.
Lemma fold_dset_get {W} (P : pystr -> bool) (F : pystr * W -> V) (l : list (pystr * W)) (d0 : dict V) k : NoDup (map fst l) ->
  dget name_dec (fold_left (fun d kv => if P (fst kv) then dset name_dec d (fst kv) (F kv) else d) l d0) k =
  if P k then match dget name_dec l k with Some v => Some (F (k, v)) | None => dget name_dec d0 k end else dget name_dec d0 k.
Proof.
  revert d0. induction l as [|[n v] l IH]; intros d0 N; simpl; [destruct (P k); reflexivity|].
  inversion N as [|? ? N1 N2]; subst. rewrite IH by exact N2.
  destruct (name_dec k n) as [->|NE].
  - replace (dget name_dec l n) with (@None W) by (symmetry; apply dget_None; exact N1).
    destruct (P n); [|reflexivity]. rewrite dget_dset. destruct (name_dec n n); congruence.
  - destruct (P k); destruct (P n); try rewrite dget_dset; destruct (name_dec k n); try congruence; reflexivity.
Qed.
Lemma fold_set_get (src : dict V) (f : pystr -> V -> V) ks (d0 : dict V) k :
  dget name_dec (fold_left (fun d k => match aget src k with Some v => dset name_dec d k (f k v) | None => d end) ks d0) k =
  if memn k ks then match aget src k with Some v => Some (f k v) | None => dget name_dec d0 k end else dget name_dec d0 k.
Proof.
  revert d0. induction ks as [|n ks IH]; intros d0; simpl; [reflexivity|]. rewrite IH.
  destruct (str_eqb k n) eqn:E; simpl.
  - apply str_eqb_eq in E. subst n. destruct (aget src k) eqn:A.
    + rewrite dget_dset. destruct (name_dec k k); [|congruence]. destruct (memn k ks); reflexivity.
    + destruct (memn k ks); reflexivity.
  - assert (k <> n) by (intros ->; rewrite (proj2 (str_eqb_eq n n) eq_refl) in E; discriminate).
    destruct (aget src n); [|reflexivity]. rewrite dget_dset. destruct (name_dec k n); [contradiction|]. reflexivity.
Qed.
Lemma fold_set_NoDup (src : dict V) (f : pystr -> V -> V) ks (d0 : dict V) : NoDup (map fst d0) ->
  NoDup (map fst (fold_left (fun d k => match aget src k with Some v => dset name_dec d k (f k v) | None => d end) ks d0)).
Proof.
  revert d0. induction ks as [|n ks IH]; intros d0 N; simpl; [exact N|]. apply IH. destruct (aget src n); [|exact N].
  apply dset_NoDup, N.
Qed.
Lemma clear_get (d : dict V) k : dget name_dec (clear d) k = if memn k all_params then None else dget name_dec d k.
Proof.
  unfold clear. generalize all_params as ps. intros ps. induction d as [|[n v] d IH]; [simpl; destruct (memn k ps); reflexivity|].
  cbn [filter fst]. destruct (memn n ps) eqn:M; cbn [negb].
  - rewrite IH. simpl. destruct (name_dec k n) as [->|_]; [rewrite M; reflexivity|reflexivity].
  - simpl. destruct (name_dec k n) as [->|_]; [rewrite M; reflexivity|exact IH].
Qed.

Lemma fold_dset_nat_get {W} (l d0 : list (nat * W)) n :
  (forall v v', In (n, v) l -> In (n, v') l -> v = v') ->
  dget Nat.eq_dec (fold_left (fun e kv => dset Nat.eq_dec e (fst kv) (snd kv)) l d0) n =
  match dget Nat.eq_dec l n with Some v => Some v | None => dget Nat.eq_dec d0 n end.
Proof.
  revert d0. induction l as [|[k v] l IH]; intros d0 F; simpl; [reflexivity|].
  rewrite IH by (intros; apply F; right; assumption). destruct (Nat.eq_dec n k) as [->|NE].
  - destruct (dget Nat.eq_dec l k) eqn:E.
    + apply dget_In in E. f_equal. apply F; [right; exact E|left; reflexivity].
    + rewrite dget_dset. destruct (Nat.eq_dec k k); congruence.
  - destruct (dget Nat.eq_dec l n); [reflexivity|]. rewrite dget_dset. destruct (Nat.eq_dec n k); congruence.
Qed.

Lemma fetch_get (get : nat -> result V) pick m (d : list (nat * V)) : fetch get pick m = Ok d ->
  (forall n o o', In (n, o) m -> In (n, o') m -> o = o') ->
  (forall n o, In (n, o) m -> exists v, get o = Ok v /\ dget Nat.eq_dec d n = Some (pick v)) /\
  (forall n, ~ In n (map fst m) -> dget Nat.eq_dec d n = None).
Proof.
  unfold fetch. intros E F. apply bind_ok in E as (l & E & E'). injection E' as <-. apply map_res_spec in E.
  assert (IN : forall n v, In (n, v) l -> exists o w, In (n, o) m /\ get o = Ok w /\ v = pick w).
  { intros n v H. clear F. induction E as [|[n0 o0] [n1 v1] m' l' X E IH]; [destruct H|]. simpl in X.
    apply bind_ok in X as (w & G & X). injection X as <- <-.
    destruct H as [H|H]; [injection H as <- <-; exists o0, w; simpl; auto|].
    destruct (IH H) as (o & w' & A & B & C). exists o, w'. simpl. auto. }
  assert (FU : forall n v v', In (n, v) l -> In (n, v') l -> v = v').
  { intros n v v' H H'. apply IN in H as (o & w & A & B & ->). apply IN in H' as (o' & w' & A' & B' & ->).
    rewrite (F n o o' A A') in B. congruence. }
  split.
  - intros n o H. assert (exists v, In (n, v) l /\ exists w, get o = Ok w /\ v = pick w) as (v & H1 & w & H2 & ->).
    { clear FU IN F. induction E as [|[n0 o0] [n1 v1] m' l' X E IH]; [destruct H|]. simpl in X.
      apply bind_ok in X as (w & G & X). injection X as <- <-.
      destruct H as [H|H]; [injection H as -> ->; exists (pick w); split; [left; reflexivity|exists w; auto]|].
      destruct (IH H) as (v & A & B). exists v. split; [right; exact A|exact B]. }
    exists w. split; [exact H2|]. rewrite fold_dset_nat_get by (intros; eapply FU; eassumption).
    destruct (dget Nat.eq_dec l n) eqn:D.
    + apply dget_In in D. f_equal. eapply FU; eassumption.
    + exfalso. apply dget_None in D. apply D. apply (in_map fst) in H1. exact H1.
  - intros n N. rewrite fold_dset_nat_get by (intros; eapply FU; eassumption).
    destruct (dget Nat.eq_dec l n) eqn:D; [|reflexivity]. apply dget_In in D. apply IN in D as (o & w & A & _).
    exfalso. apply N. apply (in_map fst) in A. exact A.
Qed.
Lemma fetch_total (get : nat -> result V) pick m : (forall n o, In (n, o) m -> exists v, get o = Ok v) -> exists e, fetch get pick m = Ok e.
Proof.
  intros H. unfold fetch. destruct (map_res_total (fun no => bind (get (snd no)) (fun v => Ok (fst no, pick v))) m) as [l E].
  - apply Forall_forall. intros [n o] HI. destruct (H n o HI) as [v G]. exists (n, pick v). simpl. rewrite G. reflexivity.
  - rewrite E. simpl. eauto.
Qed.
Lemma map_res_ext {A B} (f g : A -> result B) l : (forall x, In x l -> f x = g x) -> map_res f l = map_res g l.
Proof.
  induction l as [|x l IH]; intros H; [reflexivity|]. simpl. rewrite (H x (or_introl eq_refl)), IH; [reflexivity|].
  intros; apply H; right; assumption.
Qed.
Lemma fetch_ext (get get' : nat -> result V) pick m : (forall n o, In (n, o) m -> get o = get' o) -> fetch get pick m = fetch get' pick m.
Proof.
  intros H. unfold fetch. rewrite (map_res_ext _ (fun no => bind (get' (snd no)) (fun v => Ok (fst no, pick v)))); [reflexivity|].
  intros [n o] HI. simpl. rewrite (H n o HI). reflexivity.
Qed.
End Dicts.
