(** Model of baseline grouping and bootstrap sampling:
    [group_baselines] (grouping.py:64-123), [sample_baselines] (grouping.py:126-153) and the
    sampling part of [bootstrap_average_blpairs] (grouping.py:1696-1772).
    The random number generator is an oracle: a shuffle is a function returning a permutation,
    a draw is a list of numbers. *)
From Verif Require Import Prelude UvpModel.

Section Group.
Context {A : Type}.

(** Python slice [l[a:b]] for 0 <= a, given as integers; grouping.py:64-123 [group_baselines] *)
Definition sliceZ (a b : Z) (l : list A) : list A := slice (Z.to_nat a) (Z.to_nat b) l.

(** Python [l[-r:]] with 0 < r; grouping.py:64-123 [group_baselines] *)
Definition last_r (r : Z) (l : list A) : list A := skipn (length l - Z.to_nat r) l.

(** [grouped[-1] += extra]; grouping.py:64-123 [group_baselines] *)
Definition append_last (extra : list A) (gs : list (list A)) : result (list (list A)) :=
  match gs with
  | [] => Err IndexError
  | _ => Ok (removelast gs ++ [last gs [] ++ extra])
  end.

(** grouping.py:100-123. [shuffle] is [None] when randomize=False, else the effect of
    random.shuffle. All elements are tuples (the assertion at 108-109 holds). *)
Definition group_baselines (bls : list A) (Ngroups : Z) (keep_remainder : bool)
    (shuffle : option (list A -> list A)) : result (list (list A)) :=
  let Nbls := Z.of_nat (length bls) in
  if (Ngroups =? 0)%Z then Err ZeroDivisionError else
  let n := (Nbls / Ngroups)%Z in
  let rem := (Nbls - n * Ngroups)%Z in
  if (Nbls <? Ngroups)%Z then Err ValueError else
  let bls := match shuffle with Some f => f bls | None => bls end in
  let grouped := map (fun i => sliceZ (Z.of_nat i * n) ((Z.of_nat i + 1) * n) bls)
                     (seq 0 (Z.to_nat Ngroups)) in
  if (keep_remainder && (0 <? rem)%Z)%bool then append_last (last_r rem bls) grouped
  else Ok grouped.

(** grouping.py:152-153: [random.choice] number [i] picks the element at [draw i] *)
Definition sample_baselines (bls : list A) (draw : nat -> nat) : result (list A) :=
  gather bls (map draw (seq 0 (length bls))).
End Group.

(** * bootstrap weights *)

(** grouping.py:1749-1751 [np.array(grp)[np.unique(intersect1d(grp, blp_list)[1])]]: the first
    occurrences in [grp] of the baseline-pairs present in the object, in group order *)
Definition avail_in (grp blps : list Z) : list Z :=
  filter (fun b => memZ b blps) (ordered_unique [] grp).

(** grouping.py:1759 [(draw == i).sum() for i in range(num_avail)] *)
Definition multiplicities (num : nat) (draw : list nat) : list nat :=
  map (fun i => length (filter (Nat.eqb i) draw)) (seq 0 num).

(** grouping.py:1761-1768: cut the flat weights back into one list per object *)
Fixpoint split_weights {W} (avail : list (list Z)) (wgt : list W) : list (list Z * list W) :=
  match avail with
  | [] => []
  | a :: avail' => (a, firstn (length a) wgt) :: split_weights avail' (skipn (length a) wgt)
  end.

(** grouping.py:1741-1772 for one group: [draw] is the output of
    [np.random.randint(0, num_avail, num_avail)] (empty when num_avail = 0) *)
Definition bootstrap_group (objs : list (list Z)) (grp : list Z) (draw : nat -> list nat)
  : list (list Z * list nat) :=
  let avail := map (avail_in grp) objs in
  let num := length (concat avail) in
  split_weights avail (multiplicities num (draw num)).

(** grouping.py:1696-1772: the groups and weights handed to [average_spectra] for every object.
    With more than one object, line 1713 calls [select_common] with a keyword [pols] that
    function does not have (uvpspec_utils.py:228-237): TypeError.  [draws g] is the draw made
    for group number [g]. *)
Definition bootstrap_weights (objs : list (list Z)) (groups : list (list Z))
    (draws : nat -> nat -> list nat) : result (list (list (list Z * list nat))) :=
  if Nat.ltb 1 (length objs) then Err TypeError else
  require (forallb (forallb (fun b => existsb (memZ b) objs)) groups) KeyError
  (let per_group := map (fun gi => bootstrap_group objs (snd gi) (draws (fst gi)))
                        (combine (seq 0 (length groups)) groups) in
   Ok (map (fun i => map (fun pg => nth i pg ([], [])) per_group) (seq 0 (length objs)))).
