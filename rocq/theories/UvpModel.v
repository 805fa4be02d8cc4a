(** Model of the UVPSpec object's index bookkeeping: key lookups (uvpspec.py:571-1635),
    [_select] (uvpspec_utils.py:479-947) and [select_common] (uvpspec_utils.py:228-385).

    Simplifications, all about what is not inspected by this code:
    - numbers stored in the arrays have an arbitrary type [X]; delays, times and LSTs are
      rationals (exact values of the stored doubles);
    - an array of shape (Nblpairts, ..., Npols) is stored as [row][pol] -> list X (the middle
      axes flattened into one list, which [_select] takes whole);
    - baseline-pairs, baselines and polarization-pairs are integers (tuples are converted by
      the codecs of BlCodecModel / PolPairModel first);
    - [floor(blpair / 1e6)] is exact integer division, as [C01_float_split] proves for the
      double-precision operations on 12-digit integers;
    - the HDF5 branch of [_select] reads the same arrays from the file instead of from the
      object and is otherwise identical; it is not modelled separately;
    - the dictionary of statistics, and the exact-window arrays are treated like the
      covariance (an optional further array). *)
From Coq Require Import QArith Qabs.
From Verif Require Import PyDict.
From Verif Require Import Prelude.
Open Scope nat_scope.

(** * numpy indexing with the three kinds of selector used by [_select]; uvpspec_utils.py:670-679, 703, 729-738, 746 *)
Inductive sel :=
| SAll                                   (* slice(None) *)
| SSlice (start stop step : nat)         (* slice(start, stop, step), step >= 1 *)
| SIdx (idx : list nat).                 (* integer index array *)

(** [arr[start:stop:step]]; numpy slicing with a step, as in uvpspec_utils.py:672-676 *)
Fixpoint every {A} (step k : nat) (l : list A) : list A :=
  match l with
  | [] => []
  | x :: l' => match k with
               | O => x :: every step (step - 1) l'
               | S k' => every step k' l'
               end
  end.
(** numpy slicing with a step, as in uvpspec_utils.py:672-676 *)
Definition slice3 {A} (start stop step : nat) (l : list A) : list A :=
  every step 0 (slice start stop l).

(** numpy indexing of an axis by a selector, uvpspec_utils.py:681-699, 852-905 *)
Definition index {A} (s : sel) (l : list A) : result (list A) :=
  match s with
  | SAll => Ok l
  | SSlice a b st => Ok (slice3 a b st l)
  | SIdx idx => gather l idx
  end.

(** [np.diff(idx)] on increasing integers; uvpspec_utils.py:671, 730 *)
Fixpoint diffs (l : list nat) : list nat :=
  match l with
  | a :: ((b :: _) as l') => (b - a) :: diffs l'
  | _ => []
  end.

(** number of distinct values, [len(set(l))]; uvpspec_utils.py:671-679 *)
Definition ndistinct (l : list nat) : nat := length (nodup Nat.eq_dec l).

(** uvpspec_utils.py:670-679 and 729-738: turn an index array into a slice when possible.
    [idx[0]] on an empty array is an IndexError. *)
Definition to_sel (idx : list nat) : result sel :=
  match idx with
  | [] => Err IndexError
  | a :: _ =>
      let z := last idx a in
      match ndistinct (diffs idx) with
      | 0 => Ok (SSlice a (z + 1) 1)
      | 1 => Ok (SSlice a (z + 1) (hd 1 (diffs idx)))
      | _ => Ok (SIdx idx)
      end
  end.

(** membership tests; uvpspec_utils.py:520-528; uvpspec.py:1340-1455 *)
Definition memZ (x : Z) (l : list Z) : bool := existsb (Z.eqb x) l.
(** uvpspec_utils.py:520-528; uvpspec.py:1340-1455 *)
Definition memN (x : nat) (l : list nat) : bool := existsb (Nat.eqb x) l.

(** [np.logical_or.reduce([arr == v for v in vs])]; uvpspec.py:1340-1500; uvpspec_utils.py:640-645 *)
Definition or_maskZ (arr vs : list Z) : list bool := map (fun x => memZ x vs) arr.
(** uvpspec.py:1340-1500; uvpspec_utils.py:640-645 *)
Definition or_maskN (arr vs : list nat) : list bool := map (fun x => memN x vs) arr.

(** [np.isclose(a, b, rtol)] with the default atol=1e-8; uvpspec_utils.py:647-662 *)
Definition isclose (rtol a b : Q) : bool :=
  Qle_bool (Qabs (a - b)) ((1 # 100000000) + rtol * Qabs b).
(** uvpspec_utils.py:647-662 *)
Definition rtol16 : Q := 1 # 10000000000000000.
(** uvpspec_utils.py:647-662 *)
Definition or_close (arr vs : list Q) : list bool :=
  map (fun a => existsb (fun t => isclose rtol16 a t) vs) arr.

(** elementwise numpy operation of two arrays (Coq helper; uvpspec_utils.py:640-662) *)
Definition map2 {A B C} (f : A -> B -> C) : list A -> list B -> list C :=
  fix go l1 l2 := match l1, l2 with
                  | a :: l1', b :: l2' => f a b :: go l1' l2'
                  | _, _ => [] end.

(** Python [l[-n:]]: the whole list when n = 0; uvpspec.py:679-717 *)
Definition from_neg {A} (n : nat) (l : list A) : list A :=
  match n with O => l | _ => skipn (length l - n) l end.

Section Uvp.
Context {X : Type}.

(** an array over (row, polarization pair); uvpspec.py:58-540, shapes of data_array, wgt_array, ... *)
Definition arr := list (list (list X)).

(** the part of the UVPSpec state read or written by the modelled functions
    (uvpspec.py:58-540) *)
Record uvp := mkuvp {
  u_folded : bool;
  u_Nspws : nat;
  u_spw_array : list nat;
  u_spw_freq_array : list nat;   (* window number of every frequency *)
  u_spw_dly_array : list nat;    (* window number of every delay *)
  u_freq_array : list X;
  u_dly_array : list Q;
  u_scalar_array : list (list X);        (* [spw][pol] *)
  u_blpair_array : list Z;
  u_time_1_array : list Q;
  u_time_2_array : list Q;
  u_time_avg_array : list Q;
  u_lst_1_array : list Q;
  u_lst_2_array : list Q;
  u_lst_avg_array : list Q;
  u_bl_array : list Z;
  u_bl_vecs : list X;
  u_polpair_array : list Z;
  u_data : list (nat * arr);             (* dictionaries keyed by window number *)
  u_wgt : list (nat * arr);
  u_integration : list (nat * arr);
  u_nsample : list (nat * arr);
  u_cov : option (list (nat * arr));
  u_window : option (list (nat * arr));
  u_stats : option (list (nat * arr));
  u_label_1_array : list (list (list nat)); (* [spw][row][pol] *)
  u_label_2_array : list (list (list nat));
  u_OmegaP : list (list X)               (* [freq][pol] *)
}.

(** uvpspec.py, Nbltpairs = blpair_array.size (uvpspec_utils.py:664-703) *)
Definition Nbltpairs (u : uvp) : nat := length (u_blpair_array u).

(** a dictionary of arrays keyed by window, uvpspec.py:58-540 *)
Definition aget (d : list (nat * arr)) (k : nat) : option arr := dget Nat.eq_dec d k.

(** * index lookups *)

(** uvpspec.py:1340-1375 [spw_to_freq_indices] on a list of integers *)
Definition spw_to_freq_indices (u : uvp) (spws : list nat) : result (list nat) :=
  require (forallb (fun s => memN s (u_spw_freq_array u)) spws) AssertionError
  (Ok (where_ (or_maskN (u_spw_freq_array u) spws))).

(** uvpspec.py:1377-1416 [spw_to_dly_indices] *)
Definition dly_positive (d : Q) : bool := Qle_bool (1 # 10000000000) d.
(** uvpspec.py:1377-1416 *)
Definition spw_to_dly_indices (u : uvp) (spws : list nat) : result (list nat) :=
  require (forallb (fun s => memN s (u_spw_dly_array u)) spws) AssertionError
  (let select := or_maskN (u_spw_dly_array u) spws in
   let select := if u_folded u then map2 (fun b d => b && dly_positive d) select (u_dly_array u)
                 else select in
   Ok (where_ select)).

(** uvpspec.py:1418-1455 [spw_indices] *)
Definition spw_indices (u : uvp) (spws : list nat) : result (list nat) :=
  require (forallb (fun s => memN s (u_spw_array u)) spws) AssertionError
  (Ok (where_ (or_maskN (u_spw_array u) spws))).

(** uvpspec.py:836-850 [get_dlys] *)
Definition get_dlys (u : uvp) (spw : nat) : result (list Q) :=
  bind (spw_to_dly_indices u [spw]) (fun i => gather (u_dly_array u) i).

(** uvpspec.py:1312-1338 [blpair_to_indices], one integer *)
Definition blpair_to_indices (u : uvp) (blpair : Z) : result (list nat) :=
  require (memZ blpair (u_blpair_array u)) AssertionError
  (Ok (where_ (or_maskZ (u_blpair_array u) [blpair]))).

(** uvpspec.py:1457-1500 [polpair_to_indices], one integer *)
Definition polpair_to_indices (u : uvp) (polpair : Z) : result (list nat) :=
  require (memZ polpair (u_polpair_array u)) AssertionError
  (Ok (where_ (or_maskZ (u_polpair_array u) [polpair]))).

(** uvpspec.py:1536-1635 [key_to_indices], omit_flags=False *)
Definition key_to_indices (u : uvp) (spw : nat) (blpair polpair : Z)
  : result (nat * list nat * nat) :=
  require (memN spw (u_spw_freq_array u) && memN spw (u_spw_dly_array u)) AssertionError
  (require (memZ blpair (u_blpair_array u)) AssertionError
  (require (memZ polpair (u_polpair_array u)) AssertionError
  (bind (polpair_to_indices u polpair) (fun pinds =>
   match pinds with
   | [p] => bind (blpair_to_indices u blpair) (fun rows => Ok (spw, rows, p))
   | _ => Err AssertionError
   end)))).

(** [arr[rows, :, pol]]; uvpspec.py:679-835 *)
Definition take_rows_pol (a : arr) (rows : list nat) (pol : nat) : result (list (list X)) :=
  bind (gather a rows) (fun rs =>
  map_res (fun r => match nth_error r pol with Some x => Ok x | None => Err IndexError end) rs).

(** a dictionary lookup [self.data_array[spw]]; uvpspec.py:679-835 *)
Definition lookup_arr (d : list (nat * arr)) (spw : nat) : result arr :=
  match aget d spw with Some a => Ok a | None => Err KeyError end.

(** uvpspec.py:719-835 [get_wgts], [get_integrations], [get_nsamples] (omit_flags=False);
    none of them slices the delay axis of folded data *)
Definition get_array (d : uvp -> list (nat * arr)) (u : uvp) (spw : nat) (blpair polpair : Z)
  : result (list (list X)) :=
  bind (key_to_indices u spw blpair polpair) (fun k =>
  let '(s, rows, p) := k in
  bind (lookup_arr (d u) s) (fun a => take_rows_pol a rows p)).

(** uvpspec.py:679-717 [get_data] *)
Definition get_data (u : uvp) (spw : nat) (blpair polpair : Z) : result (list (list X)) :=
  bind (get_array u_data u spw blpair polpair) (fun rows =>
  if u_folded u then
    let Ndlys := length (filter (Nat.eqb spw) (u_spw_dly_array u)) in
    Ok (map (from_neg (Ndlys - Ndlys / 2 - 1)) rows)
  else Ok rows).

(** first occurrences, in order: uvpspec.py:3638-3645 [_ordered_unique] *)
Fixpoint ordered_unique (seen l : list Z) : list Z :=
  match l with
  | [] => []
  | x :: l' => if memZ x seen then ordered_unique seen l' else x :: ordered_unique (x :: seen) l'
  end.

(** uvpspec.py:1009-1028 [get_all_keys] *)
Definition get_all_keys (u : uvp) : list (nat * Z * Z) :=
  flat_map (fun spw => flat_map (fun p => map (fun b => (spw, b, p))
                                    (ordered_unique [] (u_blpair_array u)))
                         (u_polpair_array u))
           (seq 0 (u_Nspws u)).

(** * selection *)

(** uvpspec_utils.py:505-530 [_get_blpairs_from_bls] on a list of baseline integers;
    [bls[0]] on an empty list is an IndexError *)
Definition split_bls (b : Z) : Z * Z := (b / 1000000, b mod 1000000)%Z.
(** uvpspec_utils.py:479-530 *)
Definition blpairs_from_bls (u : uvp) (bls : list Z) (only_pairs : bool) : result (list bool) :=
  match bls with
  | [] => Err IndexError
  | _ => Ok (map (fun b => let '(x, y) := split_bls b in
                           if only_pairs then memZ x bls && memZ y bls
                           else memZ x bls || memZ y bls) (u_blpair_array u))
  end.

(** uvpspec_utils.py:610-620: renumber windows so that they become 0..Nspws-1. One step of
    the loop [for i in range(Nspws)] acting on a window-number array. *)
Definition min_above (i : nat) (l : list nat) : option nat :=
  fold_left (fun m x => if Nat.ltb i x then
                          match m with None => Some x | Some y => Some (Nat.min x y) end
                        else m) l None.
(** uvpspec_utils.py:616-620 *)
Definition renum (spw i : nat) (l : list nat) : list nat :=
  map (fun s => if Nat.eqb s spw then i else s) l.
(** uvpspec_utils.py:610-620 *)
Fixpoint down_convert (is : list nat) (sa fa da : list nat)
  : result (list nat * list nat * list nat) :=
  match is with
  | [] => Ok (sa, fa, da)
  | i :: is' =>
      if memN i sa then down_convert is' sa fa da
      else match min_above i sa with
           | None => Err ValueError            (* np.min of an empty array *)
           | Some spw => down_convert is' (renum spw i sa) (renum spw i fa) (renum spw i da)
           end
  end.

(** uvpspec_utils.py:588-620: the spws block; returns the object and the old window numbers.
    [hasattr(uvp, "scalar_array")] is taken to hold. *)
Definition select_spws (u : uvp) (spws : list nat) : result (uvp * list nat) :=
  bind (spw_to_freq_indices u spws) (fun fi =>
  bind (spw_to_dly_indices u spws) (fun di =>
  bind (spw_indices u spws) (fun si =>
  bind (gather (u_spw_freq_array u) fi) (fun sfa =>
  bind (gather (u_spw_dly_array u) di) (fun sda =>
  bind (gather (u_spw_array u) si) (fun mapping =>
  bind (gather (u_freq_array u) fi) (fun fa =>
  bind (gather (u_dly_array u) di) (fun da =>
  bind (gather (u_scalar_array u) si) (fun sca =>
  let N := length (nodup Nat.eq_dec mapping) in
  bind (down_convert (seq 0 N) mapping sfa sda) (fun conv =>
  let '(sa, sfa', sda') := conv in
  Ok (mkuvp (u_folded u) N sa sfa' sda' fa da sca
        (u_blpair_array u) (u_time_1_array u) (u_time_2_array u) (u_time_avg_array u)
        (u_lst_1_array u) (u_lst_2_array u) (u_lst_avg_array u) (u_bl_array u) (u_bl_vecs u)
        (u_polpair_array u) (u_data u) (u_wgt u) (u_integration u) (u_nsample u)
        (u_cov u) (u_window u) (u_stats u) (u_label_1_array u) (u_label_2_array u)
        (u_OmegaP u), mapping))))))))))).

(** the arguments of uvpspec_utils.py:533-585 [_select] *)
Record select_args := {
  a_spws : option (list nat);
  a_bls : option (list Z);
  a_only_pairs_in_bls : bool;
  a_blpairs : option (list Z);
  a_times : option (list Q);
  a_lsts : option (list Q);
  a_polpairs : option (list Z) }.

(** np.logical_or / [*=] on masks, uvpspec_utils.py:630-662 *)
Definition orb_list : list bool -> list bool -> list bool := map2 orb.
(** np.logical_or / [*=] on masks, uvpspec_utils.py:630-662 *)
Definition andb_list : list bool -> list bool -> list bool := map2 andb.

(** uvpspec_utils.py:622-662: the boolean row selection, [None] when no row argument is given *)
Definition row_mask (u : uvp) (a : select_args) : result (option (list bool)) :=
  let n := Nbltpairs u in
  bind (match a_bls a with
        | None => Ok None
        | Some bls => bind (blpairs_from_bls u bls (a_only_pairs_in_bls a)) (fun m => Ok (Some m))
        end) (fun m1 =>
  bind (match a_blpairs a with
        | None => Ok m1
        | Some [] => Err IndexError                       (* blpairs[0] *)
        | Some blps =>
            let base := match m1 with Some m => m | None => repeat false n end in
            Ok (Some (orb_list base (or_maskZ (u_blpair_array u) blps)))
        end) (fun m2 =>
  bind (match a_times a with
        | None => Ok m2
        | Some ts =>
            let base := match m2 with Some m => m | None => repeat true n end in
            Ok (Some (andb_list base (or_close (u_time_avg_array u) ts)))
        end) (fun m3 =>
  match a_lsts a with
  | None => Ok m3
  | Some ts =>
      match a_times a with
      | Some _ => Err AssertionError
      | None =>
          let base := match m3 with Some m => m | None => repeat true n end in
          Ok (Some (andb_list base (or_close (u_lst_avg_array u) ts)))
      end
  end))).

(** uvpspec_utils.py:664-703: apply the row selection to the metadata *)
Definition select_rows_meta (u : uvp) (m : option (list bool)) : result (uvp * sel) :=
  match m with
  | None => Ok (u, SAll)
  | Some m =>
      require (existsb (fun b => b) m) AssertionError
      (bind (to_sel (where_ m)) (fun s =>
       bind (index s (u_blpair_array u)) (fun ba =>
       bind (index s (u_time_1_array u)) (fun t1 =>
       bind (index s (u_time_2_array u)) (fun t2 =>
       bind (index s (u_time_avg_array u)) (fun ta =>
       bind (index s (u_lst_1_array u)) (fun l1 =>
       bind (index s (u_lst_2_array u)) (fun l2 =>
       bind (index s (u_lst_avg_array u)) (fun la =>
       let new_bls := flat_map (fun b => let '(x, y) := split_bls b in [x; y]) ba in
       let bl_select := map (fun bl => memZ bl new_bls) (u_bl_array u) in
       Ok (mkuvp (u_folded u) (u_Nspws u) (u_spw_array u) (u_spw_freq_array u)
             (u_spw_dly_array u) (u_freq_array u) (u_dly_array u) (u_scalar_array u)
             ba t1 t2 ta l1 l2 la
             (mask bl_select (u_bl_array u)) (mask bl_select (u_bl_vecs u))
             (u_polpair_array u) (u_data u) (u_wgt u) (u_integration u) (u_nsample u)
             (u_cov u) (u_window u) (u_stats u) (u_label_1_array u) (u_label_2_array u)
             (u_OmegaP u), s))))))))))
  end.

(** uvpspec_utils.py:705-746: polarization pairs *)
Definition select_pols_meta (u : uvp) (p : option (list Z)) : result (uvp * sel) :=
  match p with
  | None => Ok (u, SAll)
  | Some [] => Err IndexError                              (* polpairs[0] *)
  | Some pols =>
      bind (to_sel (where_ (or_maskZ (u_polpair_array u) pols))) (fun s =>
      bind (index s (u_polpair_array u)) (fun pa =>
      bind (map_res (index s) (u_scalar_array u)) (fun sca =>
      Ok (mkuvp (u_folded u) (u_Nspws u) (u_spw_array u) (u_spw_freq_array u)
            (u_spw_dly_array u) (u_freq_array u) (u_dly_array u) sca
            (u_blpair_array u) (u_time_1_array u) (u_time_2_array u) (u_time_avg_array u)
            (u_lst_1_array u) (u_lst_2_array u) (u_lst_avg_array u) (u_bl_array u)
            (u_bl_vecs u) pa (u_data u) (u_wgt u) (u_integration u) (u_nsample u)
            (u_cov u) (u_window u) (u_stats u) (u_label_1_array u) (u_label_2_array u)
            (u_OmegaP u), s))))
  end.

(** uvpspec_utils.py:852-905: [arr[blp_select, :, polpair_select]], in one or two steps *)
Definition index2 (rs ps : sel) (a : arr) : result arr :=
  bind (index rs a) (fun rows => map_res (index ps) rows).

(** uvpspec_utils.py:801-905: the loop over windows for one dictionary of arrays *)
Fixpoint select_loop (d : list (nat * arr)) (rs ps : sel) (ss : list (nat * nat))
  (out : list (nat * arr)) : result (list (nat * arr)) :=
  match ss with
  | [] => Ok out
  | (s, s_old) :: ss' =>
      bind (lookup_arr d s_old) (fun a =>
      bind (index2 rs ps a) (fun a' =>
      select_loop d rs ps ss' (dset Nat.eq_dec out s a')))
  end.
(** uvpspec_utils.py:755-905, one array *)
Definition select_dict (d : list (nat * arr)) (rs ps : sel) (ss : list (nat * nat)) :=
  select_loop d rs ps ss [].

(** uvpspec_utils.py:755-905, the arrays guarded by hasattr *)
Definition select_opt (d : option (list (nat * arr))) (rs ps : sel) (ss : list (nat * nat))
  : result (option (list (nat * arr))) :=
  match d with
  | None => Ok None
  | Some d => bind (select_dict d rs ps ss) (fun d' => Ok (Some d'))
  end.

(** uvpspec_utils.py:755-947: the data arrays *)
Definition select_data (u : uvp) (mapping : list nat) (rs ps : sel) : result uvp :=
  let ss := combine (u_spw_array u) mapping in
  bind (select_dict (u_data u) rs ps ss) (fun da =>
  bind (select_dict (u_wgt u) rs ps ss) (fun wg =>
  bind (select_dict (u_integration u) rs ps ss) (fun it =>
  bind (select_dict (u_nsample u) rs ps ss) (fun ns =>
  bind (select_opt (u_cov u) rs ps ss) (fun cv =>
  bind (select_opt (u_window u) rs ps ss) (fun wf =>
  bind (select_opt (u_stats u) rs ps ss) (fun st =>
  bind (map_res (index ps) (u_OmegaP u)) (fun om =>
  Ok (mkuvp (u_folded u) (u_Nspws u) (u_spw_array u) (u_spw_freq_array u)
        (u_spw_dly_array u) (u_freq_array u) (u_dly_array u) (u_scalar_array u)
        (u_blpair_array u) (u_time_1_array u) (u_time_2_array u) (u_time_avg_array u)
        (u_lst_1_array u) (u_lst_2_array u) (u_lst_avg_array u) (u_bl_array u)
        (u_bl_vecs u) (u_polpair_array u) da wg it ns cv wf st
        (u_label_1_array u) (u_label_2_array u) om))))))))).

(** uvpspec_utils.py:533-947 [_select] on an object with data; also returns the object as it
    is left in memory when an exception is raised (the metadata is edited before the data).
    The final uvp.check() (uvpspec.py:1717) only tests types and the window numbering. *)
Definition _select (u : uvp) (a : select_args) : uvp * option pyerr :=
  match (match a_spws a with
         | None => Ok (u, u_spw_array u)
         | Some spws => select_spws u spws
         end) with
  | Err e => (u, Some e)
  | Ok (u1, mapping) =>
      match bind (row_mask u1 a) (select_rows_meta u1) with
      | Err e => (u1, Some e)
      | Ok (u2, rs) =>
          match select_pols_meta u2 (a_polpairs a) with
          | Err e => (u2, Some e)
          | Ok (u3, ps) =>
              match select_data u3 mapping rs ps with
              | Err e => (u3, Some e)
              | Ok u4 => (u4, None)
              end
          end
      end
  end.

(** uvpspec.py:1637-1721 [select(inplace=False)]: the copy, or the exception *)
Definition select (u : uvp) (a : select_args) : result uvp :=
  match _select u a with
  | (u', None) => Ok u'
  | (_, Some e) => Err e
  end.

(** * select_common, uvpspec_utils.py:228-385 *)

(** [np.unique]: sorted distinct values; np.unique, uvpspec_utils.py:270-322 *)
Fixpoint insertZ (x : Z) (l : list Z) : list Z :=
  match l with
  | [] => [x]
  | y :: l' => if (x <? y)%Z then x :: l else if (x =? y)%Z then l else y :: insertZ x l'
  end.
(** np.unique, uvpspec_utils.py:270-322 *)
Definition uniqueZ (l : list Z) : list Z := fold_right insertZ [] l.
(** np.unique, uvpspec_utils.py:270-322 *)
Fixpoint insertQ (x : Q) (l : list Q) : list Q :=
  match l with
  | [] => [x]
  | y :: l' => if Qeq_bool x y then l else if Qle_bool x y then x :: l else y :: insertQ x l'
  end.
(** np.unique, uvpspec_utils.py:270-322 *)
Definition uniqueQ (l : list Q) : list Q := fold_right insertQ [] l.
(** uvpspec_utils.py:270-322, membership of a float *)
Definition memQ (x : Q) (l : list Q) : bool := existsb (Qeq_bool x) l.

(** uvpspec.py:1030-1064 [get_spw_ranges]; frequencies and their arithmetic are abstracted
    into a function [rng] of the window's frequencies, paired with the number of delays *)
Definition get_spw_ranges {T} (rng : list X -> T) (u : uvp) : result (list (T * nat)) :=
  map_res (fun spw =>
    bind (spw_to_freq_indices u [spw]) (fun fi =>
    bind (gather (u_freq_array u) fi) (fun fs =>
    bind (spw_to_dly_indices u [spw]) (fun di =>
    Ok (rng fs, length di))))) (seq 0 (u_Nspws u)).

(** [list.index], uvpspec_utils.py:355-362 *)
Fixpoint index_of {T} (eqT : forall x y : T, {x = y} + {x <> y}) (x : T) (l : list T) : option nat :=
  match l with
  | [] => None
  | y :: l' => if eqT x y then Some 0 else option_map S (index_of eqT x l')
  end.

(** the arguments of uvpspec_utils.py:228-240 *)
Record common_flags := {
  f_spws : bool; f_blpairs : bool; f_times : bool; f_polpairs : bool; f_lsts : bool }.

(** uvpspec_utils.py:228-385 (common values 270-334, checks 336-353, selections 355-381); frequencies abstracted by [rng] *)
Definition select_common {T} (rng : list X -> T) (eqT : forall x y : T * nat, {x = y} + {x <> y})
  (l : list uvp) (f : common_flags) : result (list uvp) :=
  match l with
  | u0 :: _ :: _ =>
      let common_times := filter (fun t => forallb (fun u => memQ t (u_time_avg_array u)) l)
                                 (uniqueQ (u_time_avg_array u0)) in
      let common_lsts := filter (fun t => forallb (fun u => memQ t (u_lst_avg_array u)) l)
                                (uniqueQ (u_lst_avg_array u0)) in
      let common_blpairs := filter (fun b => forallb (fun u => memZ b (u_blpair_array u)) l)
                                   (uniqueZ (u_blpair_array u0)) in
      let common_polpairs := filter (fun b => forallb (fun u => memZ b (u_polpair_array u)) l)
                                    (uniqueZ (u_polpair_array u0)) in
      bind (if f_spws f then
              bind (map_res (get_spw_ranges rng) l) (fun rs =>
              Ok (filter (fun r => forallb (fun ru => if in_dec eqT r ru then true else false) rs)
                         (hd [] rs)))
            else Ok []) (fun common_spws =>
      require (negb (f_spws f && Nat.eqb (length common_spws) 0)) ValueError (
      require (negb (f_blpairs f && Nat.eqb (length common_blpairs) 0)) ValueError (
      require (negb (f_times f && Nat.eqb (length common_times) 0)) ValueError (
      require (negb (f_lsts f && Nat.eqb (length common_lsts) 0)) ValueError (
      require (negb (f_polpairs f && Nat.eqb (length common_polpairs) 0)) ValueError (
      map_res (fun u =>
        bind (if f_spws f then
                bind (get_spw_ranges rng u) (fun ru =>
                bind (map_res (fun j => match index_of eqT j ru with
                                        | Some i => Ok i | None => Err ValueError end) common_spws)
                     (fun ix => Ok (Some ix)))
              else Ok None) (fun _spws =>
        select u {| a_spws := _spws;
                    a_bls := None;
                    a_only_pairs_in_bls := true;
                    a_blpairs := if f_blpairs f then Some common_blpairs else None;
                    a_times := if f_times f then Some common_times else None;
                    a_lsts := if f_lsts f then Some common_lsts else None;
                    (* the code stores the common list in [_pols] and passes [_polpairs],
                       which is still None: uvpspec_utils.py:367-376 *)
                    a_polpairs := None |})) l))))))
  | _ => Err IndexError
  end.
End Uvp.
Arguments uvp : clear implicits.
Arguments arr : clear implicits.
