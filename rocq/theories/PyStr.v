(** Python strings, as far as the modelled code uses them: [str(int)], [int(str)],
    slicing from the end, [str.split(sep)], [sep.join], [str.strip()], substring test.
    A Python string is a list of ASCII characters (non-ASCII text is not modelled). *)
From Coq Require Import Ascii String.
From Verif Require Import Prelude.
Open Scope Z_scope.

Definition pystr := list ascii.
Definition s_ (s : string) : pystr := list_ascii_of_string s.

Definition ch_minus : ascii := "-"%char.
Definition digit_char (d : Z) : ascii := ascii_of_nat (48 + Z.to_nat d).
Definition char_digit (c : ascii) : option Z :=
  let n := nat_of_ascii c in
  if (48 <=? n)%nat && (n <=? 57)%nat then Some (Z.of_nat n - 48) else None.

(** decimal digits, most significant first *)
Fixpoint digits_fuel (fuel : nat) (n : Z) : list Z :=
  match fuel with
  | O => [n]
  | S f => if n <? 10 then [n] else digits_fuel f (n / 10) ++ [n mod 10]
  end.
Definition digits (n : Z) : list Z := digits_fuel (Z.to_nat (Z.log2 n)) n.

(** Python [str(n)] / ["%d" % n] *)
Definition str_Z (z : Z) : pystr :=
  if z <? 0 then ch_minus :: map digit_char (digits (- z)) else map digit_char (digits z).

(** Python [int(s)] on an optional '-' followed by decimal digits. Python also accepts
    '+', surrounding blanks and '_' between digits: blanks are handled by [py_int] below,
    '+' and '_' are not modelled. *)
Fixpoint parse_digits (acc : Z) (s : pystr) : option Z :=
  match s with
  | [] => Some acc
  | c :: s' => match char_digit c with
               | Some d => parse_digits (acc * 10 + d) s'
               | None => None
               end
  end.
Definition int_nat (s : pystr) : option Z :=
  match s with [] => None | _ => parse_digits 0 s end.
Definition int_strict (s : pystr) : option Z :=
  match s with
  | c :: s' => if Ascii.eqb c ch_minus then option_map Z.opp (int_nat s') else int_nat s
  | [] => None
  end.

(** blanks stripped by [str.strip()] and ignored by [int()] (space, tab, newline, CR, VT, FF) *)
Definition is_space (c : ascii) : bool :=
  let n := nat_of_ascii c in ((n =? 32) || ((9 <=? n) && (n <=? 13)))%nat.
Fixpoint lstrip (s : pystr) : pystr :=
  match s with c :: s' => if is_space c then lstrip s' else s | [] => [] end.
Definition strip (s : pystr) : pystr := rev (lstrip (rev (lstrip s))).

Definition py_int (s : pystr) : result Z :=
  match int_strict (strip s) with Some z => Ok z | None => Err ValueError end.

(** [s.split(c)] for a one-character separator: always at least one field *)
Fixpoint split (c : ascii) (s : pystr) : list pystr :=
  match s with
  | [] => [[]]
  | x :: s' =>
      if Ascii.eqb x c then [] :: split c s'
      else match split c s' with
           | f :: fs => (x :: f) :: fs
           | [] => [[x]]
           end
  end.

(** [sep.join(fields)] *)
Fixpoint join (sep : pystr) (l : list pystr) : pystr :=
  match l with
  | [] => []
  | [x] => x
  | x :: l' => x ++ sep ++ join sep l'
  end.

(** [sub in s] *)
Fixpoint prefixb (p s : pystr) : bool :=
  match p, s with
  | [], _ => true
  | a :: p', b :: s' => Ascii.eqb a b && prefixb p' s'
  | _, _ => false
  end.
Fixpoint substr (p s : pystr) : bool :=
  prefixb p s || match s with [] => false | _ :: s' => substr p s' end.

Fixpoint str_eqb (a b : pystr) : bool :=
  match a, b with
  | [], [] => true
  | x :: a', y :: b' => Ascii.eqb x y && str_eqb a' b'
  | _, _ => false
  end.

(** Python [s[:-n]] and [s[-n:]] for n >= 1 *)
Definition drop_end {A} (n : nat) (s : list A) : list A := firstn (length s - n) s.
Definition take_end {A} (n : nat) (s : list A) : list A := skipn (length s - n) s.

(** * Lemmas *)
Lemma str_eqb_eq a b : str_eqb a b = true <-> a = b.
Proof.
  revert b; induction a as [|x a IH]; destruct b as [|y b]; simpl; split; intros H; try easy.
  - apply andb_true_iff in H. destruct H as [H1 H2].
    apply Ascii.eqb_eq in H1. apply IH in H2. congruence.
  - injection H as -> ->. rewrite (proj2 (Ascii.eqb_eq y y) eq_refl). simpl. apply IH. reflexivity.
Qed.

Lemma char_digit_digit d : 0 <= d <= 9 -> char_digit (digit_char d) = Some d.
Proof.
  intros H. assert (D : d = 0 \/ d = 1 \/ d = 2 \/ d = 3 \/ d = 4 \/ d = 5 \/ d = 6 \/ d = 7
    \/ d = 8 \/ d = 9) by lia.
  repeat (destruct D as [-> | D]; [reflexivity|]). subst d; reflexivity.
Qed.

Lemma char_digit_range c d : char_digit c = Some d -> 0 <= d <= 9.
Proof.
  unfold char_digit. destruct (_ && _) eqn:E; [|discriminate].
  intros H; injection H as <-. apply andb_true_iff in E. destruct E as [E1 E2].
  apply Nat.leb_le in E1, E2. lia.
Qed.

Definition value (l : list Z) : Z := fold_left (fun a d => a * 10 + d) l 0.

Lemma value_acc l a : fold_left (fun a d => a * 10 + d) l a = a * 10 ^ Z.of_nat (length l) + value l.
Proof.
  unfold value. revert a; induction l as [|d l IH]; intros a.
  - simpl. lia.
  - cbn [fold_left length]. rewrite IH, (IH (0 * 10 + d)).
    rewrite Nat2Z.inj_succ, Z.pow_succ_r by lia. ring.
Qed.

Lemma value_app l m : value (l ++ m) = value l * 10 ^ Z.of_nat (length m) + value m.
Proof. unfold value at 1. rewrite fold_left_app. apply value_acc. Qed.

Lemma digits_fuel_spec f n : 0 <= n < 2 ^ (Z.of_nat f + 1) ->
  value (digits_fuel f n) = n /\ Forall (fun d => 0 <= d <= 9) (digits_fuel f n)
  /\ digits_fuel f n <> [].
Proof.
  revert n; induction f as [|f IH]; intros n H.
  - cbn. change (2 ^ (0 + 1)) with 2 in H. repeat split; [|discriminate].
    repeat constructor; lia.
  - cbn [digits_fuel]. destruct (n <? 10) eqn:E.
    + apply Z.ltb_lt in E. cbn. repeat split; [|discriminate]. repeat constructor; lia.
    + apply Z.ltb_ge in E.
      assert (Hn : 0 <= n / 10 < 2 ^ (Z.of_nat f + 1)).
      { split; [apply Z.div_pos; lia|]. apply Z.div_lt_upper_bound; [lia|].
        replace (Z.of_nat (S f) + 1) with (Z.succ (Z.of_nat f + 1)) in H by lia.
        rewrite Z.pow_succ_r in H by lia. lia. }
      destruct (IH _ Hn) as [V [F N]]. repeat split.
      * rewrite value_app, V. cbn [length value fold_left].
        change (10 ^ Z.of_nat 1) with 10. pose proof (Z.div_mod n 10). lia.
      * apply Forall_app. split; [exact F|]. repeat constructor; pose proof (Z.mod_pos_bound n 10); lia.
      * intros C. apply app_eq_nil in C. destruct C; discriminate.
Qed.

Lemma digits_spec n : 0 <= n ->
  value (digits n) = n /\ Forall (fun d => 0 <= d <= 9) (digits n) /\ digits n <> [].
Proof.
  intros H. unfold digits. apply digits_fuel_spec.
  destruct (Z.eq_dec n 0) as [-> | Hn]; [cbn; lia|].
  pose proof (Z.log2_spec n ltac:(lia)) as [L1 L2].
  rewrite Z2Nat.id by apply Z.log2_nonneg.
  replace (Z.log2 n + 1) with (Z.succ (Z.log2 n)) by lia. lia.
Qed.

Lemma parse_digits_map l a : Forall (fun d => 0 <= d <= 9) l ->
  parse_digits a (map digit_char l) = Some (fold_left (fun a d => a * 10 + d) l a).
Proof.
  intros F; revert a; induction F as [|d l Hd F IH]; intros a; [reflexivity|].
  cbn [map parse_digits fold_left]. rewrite char_digit_digit by exact Hd. apply IH.
Qed.

Lemma int_nat_digits n : 0 <= n -> int_nat (map digit_char (digits n)) = Some n.
Proof.
  intros H. destruct (digits_spec n H) as [V [F N]]. unfold int_nat.
  destruct (map digit_char (digits n)) eqn:E.
  - destruct (digits n); [contradiction | discriminate].
  - rewrite <- E, parse_digits_map by exact F. f_equal. exact V.
Qed.

Lemma digit_char_not_minus d : 0 <= d <= 9 -> Ascii.eqb (digit_char d) ch_minus = false.
Proof.
  intros H. assert (D : d = 0 \/ d = 1 \/ d = 2 \/ d = 3 \/ d = 4 \/ d = 5 \/ d = 6 \/ d = 7
    \/ d = 8 \/ d = 9) by lia.
  repeat (destruct D as [-> | D]; [reflexivity|]). subst d; reflexivity.
Qed.

Lemma int_str z : int_strict (str_Z z) = Some z.
Proof.
  unfold str_Z. destruct (z <? 0) eqn:E.
  - apply Z.ltb_lt in E. cbn [int_strict]. rewrite (proj2 (Ascii.eqb_eq ch_minus ch_minus) eq_refl).
    rewrite int_nat_digits by lia. cbn. f_equal; lia.
  - apply Z.ltb_ge in E. pose proof (int_nat_digits z E) as I.
    destruct (digits_spec z E) as [V [F N]].
    destruct (digits z) as [|d l]; [contradiction|]. inversion F; subst.
    cbn [map int_strict] in *. rewrite digit_char_not_minus by assumption. exact I.
Qed.

Lemma parse_digits_app a u v : parse_digits a (u ++ v) =
  match parse_digits a u with Some b => parse_digits b v | None => None end.
Proof.
  revert a; induction u as [|c u IH]; intros a; [reflexivity|].
  cbn. destruct (char_digit c); [apply IH | reflexivity].
Qed.

Lemma parse_digits_acc a s b : parse_digits a s = Some b ->
  parse_digits 0 s = Some (b - a * 10 ^ Z.of_nat (length s)).
Proof.
  revert a b; induction s as [|c s IH]; intros a b H.
  - cbn in *. injection H as ->. f_equal. lia.
  - cbn [parse_digits length] in *. destruct (char_digit c) as [d|]; [|discriminate].
    rewrite Nat2Z.inj_succ, Z.pow_succ_r by lia.
    assert (H2 := IH _ _ H).
    (* parse with accumulator d *)
    assert (G : forall s x y, parse_digits x s = Some y -> forall x', parse_digits x' s =
              Some (y + (x' - x) * 10 ^ Z.of_nat (length s))).
    { clear. induction s as [|c s IH]; intros x y H x'.
      - cbn in *. injection H as ->. f_equal. lia.
      - cbn [parse_digits length] in *. destruct (char_digit c); [|discriminate].
        rewrite (IH _ _ H). f_equal. rewrite Nat2Z.inj_succ, Z.pow_succ_r by lia. ring. }
    rewrite (G _ _ _ H). f_equal. ring.
Qed.

Lemma drop_take_end {A} n (s : list A) : drop_end n s ++ take_end n s = s.
Proof. apply firstn_skipn. Qed.
