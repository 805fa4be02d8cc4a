(** Model of [PSpecData.broadcast_dset_flags] (pspecdata.py:2851-2942).
    A dataset is its baseline_array (one entry per row), its number of channels and polarizations, and its
    flag_array indexed by row, channel and polarization. time_thresh is a rational number (num / den, den > 0); the
    quotients of counts that numpy computes in floating point are exact here. Windows are pairs of natural numbers.
    Not modelled: validate_datasets, the clearing of the cache, and the window left selected by set_spw. *)
From Verif Require Import Prelude CombineModel.
Open Scope Z_scope.

Definition flags3 := nat -> nat -> nat -> bool.
(** pspecdata.py:2851-2942 [broadcast_dset_flags] *)
Record fdset := mkfd { fbls : list Z; fnf : nat; fnp : nat; fla : flags3 }.

(** [np.where(np.isin(dset.baseline_array, bl))[0]] (2911) *)
Definition bl_inds (bls : list Z) (bl : Z) : list nat := where_ (map (Z.eqb bl) bls).
(** pspecdata.py:2851-2942 [broadcast_dset_flags] *)
Definition count (p : nat -> bool) (l : list nat) : Z := Z.of_nat (length (filter p l)).
(** pspecdata.py:2851-2942 [broadcast_dset_flags] *)
Definition memn (x : nat) (l : list nat) : bool := existsb (Nat.eqb x) l.

(** 2917: [np.sum(flags, axis=1) / Nfreqs > 0.999999]; with no channels 0/0 is nan, and the comparison false *)
Definition contig (nf : nat) (fl : nat -> nat -> bool) (r : nat) : bool :=
  Z.ltb (999999 * Z.of_nat nf) (1000000 * count (fl r) (seq 0 nf)).
(** 2918-2924: the fraction of flagged times among the integrations that are not flagged throughout, strictly
    above the threshold; with no such integration 0/0 is nan, and the comparison false *)
Definition exceeds (nf : nat) (num : Z) (den : positive) (rs : list nat) (fl : nat -> nat -> bool) (f : nat) : bool :=
  let nc := filter (fun r => negb (contig nf fl r)) rs in
  Z.ltb 0 (Z.of_nat (length nc)) &&
  Z.ltb (num * Z.of_nat (length nc)) (count (fun r => fl r f) nc * Z.pos den).

(** 2909-2942, one polarization and one baseline; [np.max] over an empty window is a ValueError *)
Definition bcast_bl (nf : nat) (spw : nat * nat) (num : Z) (den : positive) (rs : list nat) (i : nat) (fl : flags3) : result flags3 :=
  let flags := fun r f => fl r f i in
  let ex := exceeds nf num den rs flags in
  let fl1 : flags3 := fun r f j => if Nat.eqb j i && memn r rs && (Nat.ltb f nf && ex f) then true else fl r f j in
  let flags1 := fun r f => if ex f then false else flags r f in
  let win := filter (fun f => Nat.ltb f nf) (seq (fst spw) (snd spw - fst spw)) in
  require (match win with [] => false | _ => true end) ValueError (
  let flag_ints := fun r => existsb (flags1 r) win in
  Ok (fun r f j => if Nat.eqb j i && memn r rs && flag_ints r && memn f win then true else fl1 r f j)).

(** 2905-2909: [for i in range(dset.Npols): for bl in np.unique(dset.baseline_array)] *)
Definition ubl (bls : list Z) : list Z := sorted_set Z.eq_dec Z.leb bls.
(** pspecdata.py:2851-2942 [broadcast_dset_flags] *)
Definition pol_bls (d : fdset) : list (nat * Z) := list_prod (seq 0 (fnp d)) (ubl (fbls d)).
(** pspecdata.py:2851-2942 [broadcast_dset_flags] *)
Fixpoint bcast_all (d : fdset) (spw : nat * nat) (num : Z) (den : positive) (l : list (nat * Z)) (fl : flags3) : result flags3 :=
  match l with
  | [] => Ok fl
  | (i, bl) :: l' => bind (bcast_bl (fnf d) spw num den (bl_inds (fbls d) bl) i fl) (bcast_all d spw num den l')
  end.
(** 2896-2904: one window: [unflag], or the thresholds *)
Definition unflag_spw (d : fdset) (spw : nat * nat) : fdset :=
  mkfd (fbls d) (fnf d) (fnp d)
    (fun r f j => if Nat.ltb r (length (fbls d)) && Nat.leb (fst spw) f && Nat.ltb f (snd spw) && Nat.ltb f (fnf d) && Nat.ltb j (fnp d)
                  then false else fla d r f j).
(** pspecdata.py:2851-2942 [broadcast_dset_flags] *)
Definition do_spw (num : Z) (den : positive) (unflag : bool) (d : fdset) (spw : nat * nat) : result fdset :=
  if unflag then Ok (unflag_spw d spw)
  else bind (bcast_all d spw num den (pol_bls d) (fla d)) (fun fl => Ok (mkfd (fbls d) (fnf d) (fnp d) fl)).
(** pspecdata.py:2851-2942 [broadcast_dset_flags] *)
Fixpoint do_spws (num : Z) (den : positive) (unflag : bool) (spws : list (nat * nat)) (d : fdset) : result fdset :=
  match spws with
  | [] => Ok d
  | s :: l => bind (do_spw num den unflag d s) (do_spws num den unflag l)
  end.
(** 2886-2894: the whole method; [spw_ranges=None] is the whole band of the first dataset (all datasets have the
    same number of channels, by validate_datasets) *)
Definition broadcast_dset_flags (spws : option (list (nat * nat))) (num : Z) (den : positive) (unflag : bool)
    (ds : list fdset) : result (list fdset) :=
  let spws := match spws with Some l => l | None => [(0%nat, match ds with d :: _ => fnf d | [] => 0%nat end)] end in
  map_res (do_spws num den unflag spws) ds.
