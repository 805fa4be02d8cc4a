(** Model of queries of UVPSpec objects: [get_spw_ranges] (uvpspec.py:1030-1064) and look-up of windows by these tuples (1357-1364, 1396-1402, 1437-1442),
    [time_to_indices] (1502-1534), [get_blpair_groups_from_bl_groups] (2802-2834), [get_blpair_seps] (852-884), [get_blpair_blvecs] (886-914). *)
From Coq Require Import QArith.
From Coq Require Import Reals Lra.
From Verif Require Import Prelude UvpModel CovqModel StatModel GeomModel.
Open Scope R_scope.

(** ** get_spw_ranges: one window with frequencies fs and ndly delays; nan is None; uvpspec.py:1030-1064 *)
Fixpoint diffsR (l : list R) : list R := match l with a :: ((b :: _) as l') => (b - a) :: diffsR l' | _ => [] end.
(** uvpspec.py:1030-1064 *)
Definition srange := (R * option R * nat * nat)%type.
(** uvpspec.py:1030-1064 *)
Definition spw_range_of (fs : list R) (ndly : nat) : srange :=
  (minR fs, match diffsR fs with [] => None | ds => Some (minR fs + INR (length fs) * medianR ds) end, length fs, ndly).
(** uvpspec.py:1030-1064 *)
Definition get_ranges (ws : list (list R * nat)) : list srange := map (fun w => spw_range_of (fst w) (snd w)) ws.
(** np.linspace(start, stop, n, endpoint=False); np.linspace, as in the docstring of uvpspec.py:1030-1064 *)
Definition linspace (start stop : R) (n : nat) : list R := map (fun k => start + INR k * ((stop - start) / INR n)) (seq 0 n).
(** the frequencies that the documentation makes of a range; None: nan; the docstring of uvpspec.py:1030-1064 *)
Definition range_freqs (r : srange) : option (list R) := match r with (a, Some b, n, _) => Some (linspace a b n) | _ => None end.
(** spw_ranges.index(s): nan equals nothing; uvpspec.py:1357-1364, 1396-1402, 1437-1442 *)
Definition range_eqb (r s : srange) : bool :=
  match r, s with (a, Some b, n, d), (a', Some b', n', d') => (if Req_EM_T a a' then true else false) && (if Req_EM_T b b' then true else false) && Nat.eqb n n' && Nat.eqb d d' | _, _ => false end.
(** uvpspec.py:1357-1364, 1396-1402, 1437-1442 *)
Fixpoint find_range (s : srange) (rs : list srange) : result nat :=
  match rs with [] => Err ValueError | r :: rs' => if range_eqb r s then Ok 0%nat else bind (find_range s rs') (fun i => Ok (S i)) end.
(** the frequency at which spherical_wf_from_uvp evaluates a window (grouping.py:1360), and the one of get_kperps (uvpspec.py:945) *)
Definition range_centre (r : srange) : option R := match r with (a, Some b, _, _) => Some ((b + a) / 2) | _ => None end.

(** ** time_to_indices; uvpspec.py:1502-1534 *)
Definition rtol10 : Q := (1 # 10000000000)%Q.
(** uvpspec.py:1502-1534 *)
Definition time_to_indices (blpair_array : list Z) (times : list Q) (time : Q) (blpairs : option (list Z)) : result (list nat) :=
  let ts := map (fun t => isclose rtol10 t time) times in
  match blpairs with
  | None => Ok (where_ ts)
  | Some l => require (forallb (fun b => memZ b blpair_array) l) AssertionError (Ok (where_ (map2 andb ts (or_maskZ blpair_array l))))
  end.

(** ** get_blpair_groups_from_bl_groups; uvpspec.py:2802-2834 *)
Definition in_group (only : bool) (g : list Z) (b : Z) : bool := let '(x, y) := split_bls b in if only then memZ x g && memZ y g else memZ x g || memZ y g.
(** uvpspec.py:2802-2834 *)
Definition nonempty {A} (l : list A) : bool := match l with [] => false | _ => true end.
(** uvpspec.py:2802-2834 *)
Definition blpair_groups (blpair_array : list Z) (only : bool) (groups : list (list Z)) : result (list (list Z)) :=
  require (forallb nonempty groups) ValueError (Ok (filter nonempty (map (fun g => uniqueZ (filter (in_group only g) blpair_array)) groups))).

(** ** baseline-pair separations; [enu]: rotation to the local frame, [vecs]: bl_vecs *)
Section Seps.
Variable enu : vec -> vec.
(** uvpspec.py:852-884 *)
Definition bl_vector (bls : list Z) (vecs : list vec) (bl : Z) : result vec :=
  match index_of Z.eq_dec bl bls with Some i => match nth_error vecs i with Some v => Ok (enu v) | None => Err IndexError end | None => Err ValueError end.
(** uvpspec.py:852-884 *)
Definition bl_sep (bls : list Z) (vecs : list vec) (bl : Z) : result R := bind (bl_vector bls vecs bl) (fun v => Ok (norm v)).
(** uvpspec.py:852-884 *)
Fixpoint set_rows (blp : Z) (x : R) (ba : list Z) (out : list (option R)) : list (option R) :=
  match ba, out with b :: ba', o :: out' => (if Z.eqb b blp then Some x else o) :: set_rows blp x ba' out' | _, _ => out end.
(** uvpspec.py:852-884 *)
Fixpoint seps_loop (bls : list Z) (vecs : list vec) (ba : list Z) (l : list Z) (out : list (option R)) : result (list (option R)) :=
  match l with
  | [] => Ok out
  | blp :: l' => let '(x, y) := split_bls blp in
                 bind (bl_sep bls vecs x) (fun s1 => bind (bl_sep bls vecs y) (fun s2 => seps_loop bls vecs ba l' (set_rows blp (mean [s1; s2]) ba out)))
  end.
(** uvpspec.py:852-884 *)
Definition blpair_seps (bls : list Z) (vecs : list vec) (ba : list Z) : result (list (option R)) :=
  seps_loop bls vecs ba (ordered_unique [] ba) (map (fun _ => None) ba).
(** a loop that may raise (Coq helper), uvpspec.py:886-914 *)
Fixpoint mapM {A B} (f : A -> result B) (l : list A) : result (list B) := match l with [] => Ok [] | a :: l' => bind (f a) (fun b => bind (mapM f l') (fun bs => Ok (b :: bs))) end.
(** uvpspec.py:886-914 *)
Definition blpair_blvecs (second : bool) (bls : list Z) (vecs : list vec) (ba : list Z) : result (list vec) :=
  mapM (fun blp => bl_vector bls vecs (let '(x, y) := split_bls blp in if second then y else x)) (ordered_unique [] ba).
End Seps.
