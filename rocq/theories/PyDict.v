(** Python dictionaries as association lists in insertion order. *)
From Verif Require Import Prelude.

Section Dict.
Context {K V : Type} (eqk : forall x y : K, {x = y} + {x <> y}).

(** [d.get(k)] *)
Fixpoint dget (d : list (K * V)) (k : K) : option V :=
  match d with
  | [] => None
  | (k', v) :: d' => if eqk k k' then Some v else dget d' k
  end.

(** [d[k] = v]: replace in place, or append *)
Fixpoint dset (d : list (K * V)) (k : K) (v : V) : list (K * V) :=
  match d with
  | [] => [(k, v)]
  | (k', v') :: d' => if eqk k k' then (k', v) :: d' else (k', v') :: dset d' k v
  end.

(** [del d[k]] / [d.pop(k)] on the entries *)
Fixpoint ddel (d : list (K * V)) (k : K) : list (K * V) :=
  match d with
  | [] => []
  | (k', v') :: d' => if eqk k k' then d' else (k', v') :: ddel d' k
  end.

Lemma dget_dset d k v k' : dget (dset d k v) k' = if eqk k' k then Some v else dget d k'.
Proof.
  induction d as [|[k0 v0] d IH]; cbn; [reflexivity|].
  destruct (eqk k k0) as [->|N]; cbn.
  - destruct (eqk k' k0); reflexivity.
  - destruct (eqk k' k0) as [->|N']; [destruct (eqk k0 k); congruence | exact IH].
Qed.

Lemma dget_In d k v : dget d k = Some v -> In (k, v) d.
Proof.
  induction d as [|[k0 v0] d IH]; cbn; [discriminate|].
  destruct (eqk k k0) as [->|N]; [intros H; injection H as ->; auto | auto].
Qed.

Lemma In_dget d k v : NoDup (map fst d) -> In (k, v) d -> dget d k = Some v.
Proof.
  induction d as [|[k0 v0] d IH]; cbn; [tauto|]. intros N H. inversion N as [|? ? N1 N2]; subst.
  destruct (eqk k k0) as [->|Ne].
  - destruct H as [H|H]; [congruence|]. exfalso. apply N1. apply (in_map fst) in H. exact H.
  - destruct H as [H|H]; [congruence|]. auto.
Qed.

Lemma dget_None d k : dget d k = None <-> ~ In k (map fst d).
Proof.
  induction d as [|[k0 v0] d IH]; cbn; [tauto|].
  destruct (eqk k k0) as [->|N].
  - split; [discriminate | tauto].
  - rewrite IH. split; [intros H [E|E]; [congruence | tauto] | tauto].
Qed.

Lemma dget_app d1 d2 k : dget (d1 ++ d2) k = match dget d1 k with Some v => Some v | None => dget d2 k end.
Proof.
  induction d1 as [|[k0 v0] d IH]; cbn; [reflexivity|]. destruct (eqk k k0); [reflexivity | exact IH].
Qed.

Lemma dset_keys d k v : map fst (dset d k v) = map fst d \/
  (~ In k (map fst d) /\ map fst (dset d k v) = map fst d ++ [k]).
Proof.
  induction d as [|[k0 v0] d IH]; cbn; [right; auto|].
  destruct (eqk k k0) as [->|N]; cbn; [left; reflexivity|].
  destruct IH as [-> | [H ->]]; [left; reflexivity | right]. split; [intros [E|E]; congruence|reflexivity].
Qed.

Lemma dset_NoDup d k v : NoDup (map fst d) -> NoDup (map fst (dset d k v)).
Proof.
  intros N. destruct (dset_keys d k v) as [-> | [H ->]]; [exact N|].
  clear -N H. induction (map fst d) as [|x l IH]; cbn; [repeat constructor; tauto|].
  inversion N; subst. constructor.
  - rewrite in_app_iff. cbn. intros [E|[E|[]]]; [tauto|]. subst. apply H; left; reflexivity.
  - apply IH; [assumption|]. intros E. apply H. right; exact E.
Qed.

Lemma dset_fresh d k v : ~ In k (map fst d) -> dset d k v = d ++ [(k, v)].
Proof.
  induction d as [|[k0 v0] d IH]; cbn; [reflexivity|]. intros H.
  destruct (eqk k k0) as [->|N]; [tauto|]. rewrite IH by tauto. reflexivity.
Qed.

Lemma dget_ddel d k k' : NoDup (map fst d) ->
  dget (ddel d k) k' = if eqk k' k then None else dget d k'.
Proof.
  induction d as [|[k0 v0] d IH]; cbn; intros N; [destruct (eqk k' k); reflexivity|].
  inversion N as [|? ? N1 N2]; subst.
  destruct (eqk k k0) as [->|Ne]; cbn.
  - destruct (eqk k' k0) as [->|]; [|reflexivity]. apply dget_None. exact N1.
  - destruct (eqk k' k0) as [->|Ne'].
    + destruct (eqk k0 k); [congruence | reflexivity].
    + apply IH; exact N2.
Qed.

Lemma ddel_In d k x : In x (ddel d k) -> In x d.
Proof.
  induction d as [|[k0 v0] d IH]; cbn; [tauto|]. destruct (eqk k k0); cbn; tauto.
Qed.

Lemma ddel_NoDup d k : NoDup (map fst d) -> NoDup (map fst (ddel d k)).
Proof.
  induction d as [|[k0 v0] d IH]; cbn; intros N; [constructor|].
  inversion N as [|? ? N1 N2]; subst.
  destruct (eqk k k0); [exact N2|]. cbn. constructor; [|apply IH; exact N2].
  intros H. apply N1. apply in_map_iff in H. destruct H as [[k1 v1] [<- H]].
  apply ddel_In in H. apply (in_map fst) in H. exact H.
Qed.
End Dict.
