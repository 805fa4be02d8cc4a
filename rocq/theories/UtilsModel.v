(** Model of the list-processing functions of utils.py: [construct_blpairs] (191-296),
    [calc_blpair_reds] (299-541), [spw_range_from_freqs] (574-651), [get_blvec_reds] (983-1087),
    [job_monitor] (1090-1186), [get_reds] (1227-1360) and [uvd_time_difference] (1389-1423); and of
    [_get_red_bls], [_get_red_blpairs] (uvpspec_utils.py:1221-1367). *)
From Verif Require Import Prelude UvpModel.

(** * construct_blpairs *)
Section Blpairs.
Context {A : Type}.
Variable eqb : A -> A -> bool.

(** [itertools.combinations(l, 2)]; itertools, utils.py:243-271 *)
Fixpoint combinations2 (l : list A) : list (A * A) :=
  match l with [] => [] | x :: l' => map (pair x) l' ++ combinations2 l' end.
(** [itertools.permutations(l, 2)]: all pairs of different positions, in position order; itertools, utils.py:243-271 *)
Definition without (i : nat) (l : list A) : list A := firstn i l ++ skipn (S i) l.
(** itertools, utils.py:243-271 *)
Definition permutations2 (l : list A) : list (A * A) :=
  concat (map (fun ix => map (pair (snd ix)) (without (fst ix) l)) (combine (seq 0 (length l)) l)).

(** [[l[n*i:n*(i+1)] for i in range(ceil(len(l)/n))]] (utils.py:279-287, 514-529). [n] is any
    integer: zero divides by zero, a negative one gives a negative range, that is none *)
Definition chunks {X} (n : Z) (l : list X) : result (list (list X)) :=
  if (n =? 0)%Z then Err ZeroDivisionError
  else if (n <? 0)%Z then Ok []
  else let k := Z.to_nat n in
       Ok (map (fun i => slice (i * k) ((i + 1) * k) l) (seq 0 ((length l + k - 1) / k))).

(** utils.py:243-271: the flat list of pairs *)
Definition blpairs_flat (bls : list A) (excl_auto excl_cross excl_perm : bool) : result (list (A * A)) :=
  require (match bls with [] => false | _ => true end) IndexError
  (require (negb excl_auto || negb excl_cross) AssertionError
   (let p0 := (if excl_perm then combinations2 bls else permutations2 bls) ++ combine bls bls in
    let p1 := if excl_auto then filter (fun p => negb (eqb (fst p) (snd p))) p0 else p0 in
    let p2 := if excl_cross then filter (fun p => eqb (fst p) (snd p)) p1 else p1 in
    Ok p2)).
(** utils.py:191-296, [group=False] and [group=True] *)
Definition construct_blpairs (bls : list A) (excl_auto excl_cross excl_perm : bool)
  : result (list A * list A * list (A * A)) :=
  bind (blpairs_flat bls excl_auto excl_cross excl_perm) (fun p => Ok (map fst p, map snd p, p)).
(** utils.py:191-296 *)
Definition construct_blpairs_grouped (bls : list A) (excl_auto excl_cross excl_perm : bool) (n : Z)
  : result (list (list A) * list (list A) * list (list (A * A))) :=
  bind (blpairs_flat bls excl_auto excl_cross excl_perm) (fun p =>
  bind (chunks n p) (fun bp => bind (chunks n (map fst p)) (fun b1 => bind (chunks n (map snd p)) (fun b2 =>
  Ok (b1, b2, bp))))).
End Blpairs.

(** * get_reds and calc_blpair_reds; antenna pairs as used in utils.py:299-541, 1227-1360 *)
Definition bl := (Z * Z)%type.
(** antenna pairs as used in utils.py:299-541, 1227-1360 *)
Definition bl_eqb (a b : bl) : bool := Z.eqb (fst a) (fst b) && Z.eqb (snd a) (snd b).
(** antenna pairs as used in utils.py:299-541, 1227-1360 *)
Definition flip (b : bl) : bl := (snd b, fst b).
(** antenna pairs as used in utils.py:299-541, 1227-1360 *)
Definition mem_bl (b : bl) (l : list bl) : bool := existsb (bl_eqb b) l.

(** utils.py:1348-1358: antennas to exclude; groups left empty disappear, with their tag (length and angle) *)
Definition drop_ants {T} (xants : list Z) (reds : list (list bl * T)) : list (list bl * T) :=
  filter (fun g => match fst g with [] => false | _ => true end)
    (map (fun g => (filter (fun b => negb (memZ (fst b) xants) && negb (memZ (snd b) xants)) (fst g), snd g)) reds).

(** utils.py:420-459: antennas without a baseline that has enough unflagged data. [bls] are the
    baselines of the data set, [good b] says that the flagged fraction of [b] is below the threshold *)
Definition xants_of (ants : list Z) (bls : list bl) (good : bl -> bool) (autos crosses : bool) : list Z :=
  fold_left (fun xs b =>
    if (negb autos && Z.eqb (fst b) (snd b)) || (negb crosses && negb (Z.eqb (fst b) (snd b))) then xs
    else if good b then filter (fun a => negb (Z.eqb a (fst b)) && negb (Z.eqb a (snd b))) xs else xs) bls ants.

(** utils.py:482-536 for one redundant group [(j, r)]; [filter_blpairs] with the baselines of both
    data sets. Returns pairs with the number of their group *)
Definition has_bl (data : list bl) (b : bl) : bool := mem_bl b data || mem_bl (flip b) data.
(** utils.py:482-536 *)
Definition group_pairs (data : option (list bl * list bl)) (ea ec ep : bool) (r : list bl) : result (list (bl * bl)) :=
  bind (blpairs_flat bl_eqb r ea ec ep) (fun ps =>
  Ok (match data with
      | None => ps
      | Some (d1, d2) => filter (fun p => has_bl d1 (fst p) && has_bl d2 (snd p)) ps
      end)).
(** utils.py:482-536 *)
Definition calc_pairs (data : option (list bl * list bl)) (ea ec ep : bool) (reds : list (list bl))
  : result (list (bl * bl) * list nat) :=
  bind (map_res (fun jr => bind (group_pairs data ea ec ep (snd jr)) (fun ps => Ok (ps, repeat (fst jr) (length ps))))
        (combine (seq 0 (length reds)) reds)) (fun gs =>
  Ok (concat (map fst gs), concat (map snd gs))).
(** utils.py:482-536 *)
Definition calc_pairs_grouped (data : option (list bl * list bl)) (ea ec ep : bool) (n : Z) (reds : list (list bl))
  : result (list (list (bl * bl)) * list (list nat)) :=
  bind (map_res (fun jr => bind (group_pairs data ea ec ep (snd jr)) (fun ps =>
                           bind (chunks n ps) (fun cs => bind (chunks n (repeat (fst jr) (length ps))) (fun is => Ok (cs, is)))))
        (combine (seq 0 (length reds)) reds)) (fun gs =>
  Ok (concat (map fst gs), concat (map snd gs))).

(** * spw_range_from_freqs, utils.py:574-651, for one range *)
Definition minZ (l : list Z) : Z := fold_right Z.min (hd 0%Z l) l.
(** np.max, utils.py:574-651 *)
Definition maxZ (l : list Z) : Z := fold_right Z.max (hd 0%Z l) l.
(** an empty frequency array makes [np.min] fail; utils.py:574-651 *)
Definition spw_range (freqs : list Z) (fmin fmax : Z) (bounds_error : bool) : result (option (nat * nat)) :=
  require (negb (fmax <? fmin)%Z) ValueError
  (require (match freqs with [] => false | _ => true end) ValueError
  (require (negb ((fmin <? minZ freqs)%Z && bounds_error)) ValueError
  (require (negb ((maxZ freqs <? fmax)%Z && bounds_error)) ValueError
   (let idxs := where_ (map (fun f => (fmin <=? f)%Z && (f <? fmax)%Z) freqs) in
    Ok (match idxs with [] => None | i :: _ => Some (i, last idxs i) end))))).

(** * get_blvec_reds, utils.py:1046-1087 *)
Section Reds.
Context {K V T : Type}.
Variable close : V -> V -> bool.       (* reference vector (or length) and baseline: within tolerance *)
Variable info : V -> T.                (* length, angle and tag *)

(** groups as (reference vector, members in order of arrival); utils.py:1046-1087 *)
Fixpoint put_group (k : K) (v : V) (gs : list (V * list K)) : option (list (V * list K)) :=
  match gs with
  | [] => None
  | (r, ks) :: gs' => if close r v then Some ((r, ks ++ [k]) :: gs')
                      else match put_group k v gs' with None => None | Some g => Some ((r, ks) :: g) end
  end.
(** utils.py:1046-1087 *)
Definition add_bl (gs : list (V * list K)) (kv : K * V) : list (V * list K) :=
  match put_group (fst kv) (snd kv) gs with
  | Some g => g
  | None => gs ++ [(snd kv, [fst kv])]
  end.
(** utils.py:1046-1087 *)
Definition greedy_reds (blvecs : list (K * V)) : list (V * list K) := fold_left add_bl blvecs [].
(** utils.py:1080-1085: [order] is the result of [np.argsort] of the tags *)
Definition blvec_reds (order : list nat) (blvecs : list (K * V)) : result (list (list K) * list T) :=
  let gs := greedy_reds blvecs in
  bind (gather (map snd gs) order) (fun grp => bind (gather (map (fun g => info (fst g)) gs) order) (fun inf => Ok (grp, inf))).

(** uvpspec_utils.py:1261-1288 [_get_red_bls]: repeatedly take everything that matches the first
    remaining baseline. [fuel] is [max_loops] *)
Fixpoint red_loop (fuel : nat) (l : list (K * V)) : list (list (K * V)) :=
  match fuel, l with
  | S fuel', kv0 :: _ =>
      let m := fun kv => close (snd kv0) (snd kv) in
      filter m l :: red_loop fuel' (filter (fun kv => negb (m kv)) l)
  | _, _ => []
  end.
(** uvpspec_utils.py:1221-1289 *)
Definition red_bls (l : list (K * V)) : list (list (K * V)) := red_loop (length l) l.
End Reds.
(** uvpspec_utils.py:1336-1366 [_get_red_blpairs]: group number of each baseline (the last one
    listed, as later assignments overwrite), pairs whose baselines share it *)
Definition group_of (groups : list (list Z)) (b : Z) : result nat :=
  match find (fun ig => memZ b (snd ig)) (rev (combine (seq 0 (length groups)) groups)) with
  | Some ig => Ok (fst ig) | None => Err KeyError end.
(** uvpspec_utils.py:1292-1367 *)
Definition red_blpairs (groups : list (list Z)) (blps : list (Z * Z)) : result (list (list (Z * Z))) :=
  bind (map_res (fun p => group_of groups (fst p)) blps) (fun g1 =>
  bind (map_res (fun p => group_of groups (snd p)) blps) (fun g2 =>
  Ok (map (fun i => mask (map2 (fun a b => Nat.eqb a i && Nat.eqb b i) g1 g2) blps) (seq 0 (length groups))))).

(** * job_monitor, utils.py:1090-1186 *)
(** Job elements and job indices are both integers, because a retry calls [run_func] on indices.
    [run r x]: the exit code when element [x] is run in round [r]; any outcome may change from
    round to round. [calls]: the calls made, with their round. *)
Section Jobs.
Variable run : nat -> Z -> Z.
Variable maxiter : nat.
(** utils.py:1090-1186 *)
Fixpoint job_loop (fuel counter : nat) (failures codes : list Z) (calls : list (nat * Z)) : list Z * list (nat * Z) :=
  match fuel with
  | O => (failures, calls)
  | S fuel' =>
      if forallb (Z.eqb 0) codes then (failures, calls)
      else if maxiter <=? counter then (failures, calls)
      else let codes' := map (run counter) failures in
           job_loop fuel' (S counter) (mask (map (fun c => negb (Z.eqb 0 c)) codes') failures) codes'
                    (calls ++ map (pair counter) failures)
  end.
(** utils.py:1090-1186 *)
Definition job_monitor (iterator : list Z) : result (list Z) * list (nat * Z) :=
  let codes := map (run 0) iterator in
  let calls := map (pair 0) iterator in
  match iterator with
  | [] => (Err ValueError, calls)
  | _ =>
      if forallb (fun c => negb (Z.eqb 0 c)) codes then (Err ValueError, calls)
      else let failures := map Z.of_nat (where_ (map (fun c => negb (Z.eqb 0 c)) codes)) in
           let '(f, tr) := job_loop (S maxiter) 1 failures codes calls in (Ok f, tr)
  end.
End Jobs.

(** * uvd_time_difference, utils.py:1405-1423 *)
(** [times]: the distinct times in increasing order; [ratio]: [int(time_diff / mean spacing)].
    Returns the pairs of times that are subtracted from each other. With fewer than three times
    the step of the slices is zero or negative: zero is an error (and two empty slices otherwise). utils.py:1389-1418 *)
Definition diff_times (times : list Z) (ratio : nat) : result (list (Z * Z)) :=
  let n := length times in
  let k := if (n - 2 <? ratio + 1)%nat then (n - 2)%nat else (ratio + 1)%nat in
  if (n <? 2)%nat then Err ValueError
  else if Nat.eqb k 0 then Err ValueError
  else Ok (combine (every k 0 (firstn (n - 1) times)) (every k 0 (skipn 1 times))).
