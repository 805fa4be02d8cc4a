(** Model of how a UVPSpec object is stored in an HDF5 group: the parameter lists of the class (uvpspec.py:58-540),
    [write_to_group] (1972-2063), [write_hdf5] (2065-2089), [read_from_group] (1743-1902), the part of [_select] that
    fetches arrays from a file or from memory (uvpspec_utils.py:769-923), [_clear] (2431-2438) and [__eq__] (2461-2492).

    Simplifications:
    - values (numbers, strings, arrays) have an arbitrary type [V]; [enc k v] is what is stored for attribute [k]
      ([str(cosmo.get_params())], byte strings for labels, HDF5's own conversions), [dec k] what reading and the casts
      of [check()] make of it; datasets return the array that was written;
    - an HDF5 group is two dictionaries, attributes and datasets; names contain no '/';
    - what [_select] does to the metadata, and which rows and polarizations it picks, is the subject of UvpModel: here the
      selection is an arbitrary function of the metadata;
    - the filtering and re-compression of [r_params] at the end of [_select] (929-947) is modelled in RSelectModel; here
      [r_params] goes through as the selection says, like [OmegaP] (921-927);
    - of [check()] only its verdict is kept. *)
From Coq Require Import String Ascii.
From Verif Require Import PyDict PyStr.
From Verif Require Import Prelude.
Open Scope nat_scope.

(** helper: comparison of names, [k in list] as in uvpspec.py:1806-1814 *)
Definition name_dec : forall a b : pystr, {a = b} + {a <> b} := list_eq_dec ascii_dec.
(** helper: comparison of names, [k in list] as in uvpspec.py:1806-1814 *)
Definition memn (n : pystr) (l : list pystr) : bool := existsb (str_eqb n) l.
(** helper: comparison of names, [k in list] as in uvpspec.py:1806-1814 *)
Definition names (l : list string) : list pystr := map s_ l.

(** ** The class *)
(** the attributes made by [PSpecParam(...)] in [UVPSpec.__init__], in order (uvpspec.py:71-395); note
    [_time_1_array] twice (258 and 264) and [set_symmetric_taper] without underscore (323) *)
Definition declared : list string :=
  ["_Ntimes"; "_Ntpairs"; "_Nbltpairs"; "_Nblpairs"; "_Nspwdlys"; "_Nspwfreqs"; "_Nspws"; "_Ndlys"; "_Nfreqs"; "_Npols";
   "_history"; "_r_params"; "_cov_model"; "_exact_windows"; "_data_array"; "_cov_array_real"; "_cov_array_imag";
   "_window_function_array"; "_window_function_kperp"; "_window_function_kpara"; "_wgt_array"; "_integration_array";
   "_nsample_array"; "_stats_array"; "_spw_array"; "_spw_dly_array"; "_spw_freq_array"; "_freq_array"; "_dly_array";
   "_polpair_array"; "_lst_1_array"; "_lst_2_array"; "_lst_avg_array"; "_time_1_array"; "_time_1_array"; "_time_avg_array";
   "_blpair_array"; "_scalar_array"; "_Nbls"; "_bl_vecs"; "_bl_array"; "_channel_width"; "_telescope_location"; "_weighting";
   "set_symmetric_taper"; "_norm"; "_taper"; "_vis_units"; "_norm_units"; "_labels"; "_label_1_array"; "_label_2_array";
   "_folded"; "_beamfile"; "_OmegaP"; "_OmegaPP"; "_beam_freqs"; "_cosmo"]%string.

(** uvpspec.py:398-400: [sorted([p[1:] for p in fnmatch.filter(self.__dict__.keys(), "_*")])] (the order is not used) *)
Definition strip_underscore (n : pystr) : list pystr :=
  match n with c :: n' => if Ascii.eqb c "_"%char then [n'] else [] | [] => [] end.
(** uvpspec.py:398-400 *)
Definition all_params : list pystr := flat_map strip_underscore (nodup name_dec (names declared)).

(** uvpspec.py:404-450 *)
Definition req_params : list pystr := names
  ["Ntimes"; "Ntpairs"; "Nbltpairs"; "Nblpairs"; "Nspws"; "Ndlys"; "Npols"; "Nfreqs"; "history"; "Nspwdlys"; "Nspwfreqs";
   "r_params"; "data_array"; "wgt_array"; "integration_array"; "spw_array"; "freq_array"; "dly_array"; "polpair_array";
   "lst_1_array"; "lst_2_array"; "time_1_array"; "time_2_array"; "blpair_array"; "Nbls"; "bl_vecs"; "bl_array";
   "channel_width"; "telescope_location"; "weighting"; "vis_units"; "norm_units"; "taper"; "norm"; "nsample_array";
   "lst_avg_array"; "time_avg_array"; "folded"; "scalar_array"; "labels"; "label_1_array"; "label_2_array";
   "spw_dly_array"; "spw_freq_array"; "symmetric_taper"]%string.
(** uvpspec.py:454-477 *)
Definition immutables : list pystr := names
  ["Ntimes"; "Ntpairs"; "Nbltpairs"; "Nblpairs"; "Nspwdlys"; "Nspwfreqs"; "Nspws"; "Ndlys"; "Npols"; "Nfreqs"; "history";
   "r_params"; "cov_model"; "Nbls"; "weighting"; "vis_units"; "norm"; "norm_units"; "taper"; "cosmo"; "beamfile"; "folded";
   "exact_windows"]%string.
(** uvpspec.py:479-516 *)
Definition ndarrays : list pystr := names
  ["spw_array"; "freq_array"; "dly_array"; "polpair_array"; "lst_1_array"; "lst_avg_array"; "time_avg_array"; "channel_width";
   "lst_2_array"; "time_1_array"; "time_2_array"; "blpair_array"; "OmegaP"; "OmegaPP"; "beam_freqs"; "bl_vecs"; "bl_array";
   "telescope_location"; "scalar_array"; "labels"; "label_1_array"; "label_2_array"; "spw_freq_array"; "spw_dly_array"]%string.
(** uvpspec.py:479-516 *)
Definition dicts : list pystr := names
  ["data_array"; "wgt_array"; "integration_array"; "window_function_array"; "window_function_kperp"; "window_function_kpara";
   "nsample_array"; "cov_array_real"; "cov_array_imag"]%string.
(** uvpspec.py:479-516 *)
Definition dicts_of_dicts : list pystr := names ["stats_array"]%string.
(** uvpspec.py:520-536 *)
Definition meta_dsets : list pystr := names
  ["lst_1_array"; "lst_2_array"; "time_1_array"; "time_2_array"; "blpair_array"; "bl_vecs"; "bl_array"; "lst_avg_array";
   "time_avg_array"; "OmegaP"; "OmegaPP"; "label_1_array"; "label_2_array"; "spw_dly_array"; "spw_freq_array"]%string.
(** uvpspec.py:537-542 *)
Definition meta_attrs : list pystr :=
  filter (fun p => negb (memn p dicts || memn p meta_dsets || memn p dicts_of_dicts)) all_params.

(** names of attributes, uvpspec.py:1797, 1832, 2015, 2063 *)
Definition a_spw : pystr := s_ "spw_array".
(** names of attributes, uvpspec.py:1797, 1832, 2015, 2063 *)
Definition a_exact : pystr := s_ "exact_windows".
(** names of attributes, uvpspec.py:1797, 1832, 2015, 2063 *)
Definition t_pspec : pystr := s_ "pspec_type".
(** names of attributes, uvpspec.py:2016-2052 *)
Definition d_data : pystr := s_ "data_array".
(** names of attributes, uvpspec.py:2016-2052 *)
Definition d_wgt : pystr := s_ "wgt_array".
(** names of attributes, uvpspec.py:2016-2052 *)
Definition d_int : pystr := s_ "integration_array".
(** names of attributes, uvpspec.py:2016-2052 *)
Definition d_nsmp : pystr := s_ "nsample_array".
(** names of attributes, uvpspec.py:2016-2052 *)
Definition d_win : pystr := s_ "window_function_array".
(** names of attributes, uvpspec.py:2016-2052 *)
Definition d_kperp : pystr := s_ "window_function_kperp".
(** names of attributes, uvpspec.py:2016-2052 *)
Definition d_kpara : pystr := s_ "window_function_kpara".
(** names of attributes, uvpspec.py:2016-2052 *)
Definition d_covr : pystr := s_ "cov_array_real".
(** names of attributes, uvpspec.py:2016-2052 *)
Definition d_covi : pystr := s_ "cov_array_imag".

(** the name of the dataset of an array for a window: data_spw0, wgt_spw0, ..., cov_real_spw0; uvpspec.py:2016-2052 *)
Definition base (a : pystr) : pystr :=
  if name_dec a d_data then s_ "data" else if name_dec a d_wgt then s_ "wgt" else
  if name_dec a d_int then s_ "integration" else if name_dec a d_nsmp then s_ "nsample" else
  if name_dec a d_win then s_ "window_function" else if name_dec a d_covr then s_ "cov_real" else
  if name_dec a d_covi then s_ "cov_imag" else a.
(** uvpspec.py:2016-2052 *)
Definition ds_name (a : pystr) (i : nat) : pystr := base a ++ s_ "_spw" ++ str_Z (Z.of_nat i).
(** uvpspec.py:2054-2060 *)
Definition stat_name (s : pystr) (i : nat) : pystr := s_ "stats_" ++ s ++ s_ "_" ++ str_Z (Z.of_nat i).

(** [f.find("_")], [f.rfind("_")] (-1 when absent) and [f[a:b]] for 0 <= a; b may be negative only when absent; used in uvpspec_utils.py:785-791 *)
Fixpoint find_from (k : Z) (c : ascii) (s : pystr) : option Z :=
  match s with [] => None | x :: s' => if Ascii.eqb x c then Some k else find_from (k + 1) c s' end.
(** used in uvpspec_utils.py:785-791 *)
Fixpoint rfind_from (k : Z) (c : ascii) (s : pystr) : option Z :=
  match s with
  | [] => None
  | x :: s' => match rfind_from (k + 1) c s' with Some j => Some j | None => if Ascii.eqb x c then Some k else None end
  end.
(** used in uvpspec_utils.py:785-791 *)
Definition or_minus1 (o : option Z) : Z := match o with Some z => z | None => (-1)%Z end.
(** used in uvpspec_utils.py:785-791 *)
Definition find_ (c : ascii) (s : pystr) : Z := or_minus1 (find_from 0 c s).
(** used in uvpspec_utils.py:785-791 *)
Definition rfind_ (c : ascii) (s : pystr) : Z := or_minus1 (rfind_from 0 c s).
(** used in uvpspec_utils.py:785-791 *)
Definition py_slice (a b : Z) (s : pystr) : pystr :=
  let n := Z.of_nat (length s) in
  let clip z := Z.max 0 (Z.min n (if (z <? 0)%Z then (z + n)%Z else z)) in
  slice (Z.to_nat (clip a)) (Z.to_nat (clip b)) s.
(** uvpspec_utils.py:785-791 *)
Definition stat_of (f : pystr) : pystr := py_slice (find_ "_"%char f + 1) (rfind_ "_"%char f) f.

Section H5.
Context {V : Type}.
Variables (enc dec : pystr -> V -> V).
Variable spws_of : V -> list nat.          (* the window numbers in the value of spw_array *)
Variable truth : V -> bool.                (* bool(v) *)
Variables (v_type v_false : V).            (* "UVPSpec", False *)
Variable is_uvpspec : V -> bool.           (* pspec_type == "UVPSpec" *)

(** __dict__ of an object, attributes of an h5py group, arrays keyed by window (uvpspec.py:454-518) *)
Definition dict := list (pystr * V).
(** __dict__ of an object, attributes of an h5py group, arrays keyed by window (uvpspec.py:454-518) *)
Definition wdict := list (nat * V).
(** attributes (parameters and any other), the arrays keyed by window, and stats_array; uvpspec.py:58-540 *)
Record obj := mkobj { o_attr : dict; o_arr : list (pystr * wdict); o_stats : option (list (pystr * wdict)) }.
(** an h5py group as used in uvpspec.py:1806-1814, 1995-2063 *)
Record grp := mkgrp { g_attrs : dict; g_dsets : dict }.

(** hasattr and getattr, uvpspec.py:1995-2012 *)
Definition aget (d : dict) (k : pystr) : option V := dget name_dec d k.
(** uvpspec.py:2028, 2045 *)
Definition has_arr (o : obj) (a : pystr) : bool := match dget name_dec (o_arr o) a with Some _ => true | None => false end.
(** [self.data_array[i]]; uvpspec.py:2016-2052 *)
Definition arr_at (o : obj) (a : pystr) (i : nat) : result V :=
  match dget name_dec (o_arr o) a with
  | None => Err AttributeError
  | Some d => match dget Nat.eq_dec d i with None => Err KeyError | Some v => Ok v end
  end.
(** uvpspec.py:2015 *)
Definition spws (d : dict) : result (list nat) :=
  match aget d a_spw with None => Err AttributeError | Some v => Ok (spws_of v) end.

(** ** Writing *)
(** [create_dataset]: refuses an existing name; uvpspec.py:2012-2060 *)
Fixpoint create_all (l : dict) (d : dict) : result dict :=
  match l with
  | [] => Ok d
  | (n, v) :: l' => match aget d n with Some _ => Err ValueError | None => create_all l' (d ++ [(n, v)]) end
  end.
(** the arrays of a window, in the order written (uvpspec.py:2015-2052) *)
Definition stored_arrays (o : obj) : result (list pystr) :=
  bind (if has_arr o d_win
        then match aget (o_attr o) a_exact with
             | None => Err AttributeError
             | Some e => Ok ([d_win] ++ if truth e then [d_kperp; d_kpara] else [])
             end
        else Ok []) (fun w =>
  Ok ([d_data; d_wgt; d_int; d_nsmp] ++ w ++ (if has_arr o d_covr then [d_covr; d_covi] else []))).
(** uvpspec.py:2015-2052 *)
Definition window_items (o : obj) (as_ : list pystr) (i : nat) : result dict :=
  map_res (fun a => bind (arr_at o a i) (fun v => Ok (ds_name a i, v))) as_.
(** uvpspec.py:2054-2060 *)
Definition stat_items (sp : list nat) (st : pystr * wdict) : result dict :=
  map_res (fun i => match dget Nat.eq_dec (snd st) i with None => Err KeyError | Some v => Ok (stat_name (fst st) i, v) end) sp.
(** [np.unique] of the window numbers; uvpspec.py:2015 *)
Fixpoint insert_nat (x : nat) (l : list nat) : list nat :=
  match l with [] => [x] | y :: l' => if x <? y then x :: y :: l' else if x =? y then y :: l' else y :: insert_nat x l' end.
(** uvpspec.py:2015 *)
Definition unique (l : list nat) : list nat := fold_left (fun a x => insert_nat x a) l [].

(** uvpspec.py:1995-2063 [write_to_group], after the check; the group as it was before *)
Definition write_group (o : obj) (g : grp) : result grp :=
  let attrs := fold_left (fun d k => match aget (o_attr o) k with Some v => dset name_dec d k (enc k v) | None => d end)
                         meta_attrs (g_attrs g) in
  let meta := flat_map (fun k => match aget (o_attr o) k with Some v => [(k, v)] | None => [] end) meta_dsets in
  bind (create_all meta (g_dsets g)) (fun d1 =>
  bind (spws (o_attr o)) (fun sp => let sp := unique sp in
  bind (stored_arrays o) (fun as_ =>
  bind (map_res (window_items o as_) sp) (fun ws =>
  bind (create_all (concat ws) d1) (fun d2 =>
  bind (match o_stats o with
        | None => Ok d2
        | Some st => bind (map_res (stat_items sp) st) (fun ss => create_all (concat ss) d2)
        end) (fun d3 =>
  Ok (mkgrp (dset name_dec attrs t_pspec v_type) d3))))))).

(** uvpspec.py:2065-2089 [write_hdf5]: the file system holds at most one file of that name; an h5py file opened with "w"
    is empty. The pair: the file after the call, and the outcome. *)
Definition write_hdf5 (check : obj -> bool) (overwrite : bool) (o : obj) (file : option grp) : option grp * option pyerr :=
  match file, overwrite with
  | Some _, false => (file, Some OSError)
  | _, _ =>
      let empty := mkgrp [] [] in
      if check o
      then match write_group o empty with
           | Ok g => (Some g, None)
           | Err e => (Some empty, Some e)     (* whatever was written before the error: not looked at *)
           end
      else (Some empty, Some AssertionError)
  end.

(** ** Fetching the arrays, from a file or from memory (uvpspec_utils.py:769-923); uvpspec_utils.py:769-850 *)
Record source := mksrc {
  src_cov : bool; src_win : bool; src_exact : bool;      (* store_cov, store_window, exact_windows *)
  src_get : pystr -> nat -> result V;
  src_stats : list pystr;
  src_stat : pystr -> nat -> result V }.

(** uvpspec_utils.py:770-777, 785-791 *)
Definition file_has (g : grp) (n : pystr) : bool := match aget (g_dsets g) n with Some _ => true | None => false end.
(** uvpspec_utils.py:770-777, 785-791 *)
Definition file_get (g : grp) (n : pystr) : result V := match aget (g_dsets g) n with Some v => Ok v | None => Err KeyError end.
(** uvpspec_utils.py:770-777, 785-791 *)
Definition stats_s : pystr := s_ "stats".
(** [np.unique] of names; uvpspec_utils.py:785-791 *)
Fixpoint str_ltb (a b : pystr) : bool :=
  match a, b with
  | _, [] => false
  | [], _ :: _ => true
  | x :: a', y :: b' => if (nat_of_ascii x <? nat_of_ascii y) then true else if Ascii.eqb x y then str_ltb a' b' else false
  end.
(** uvpspec_utils.py:785-791 *)
Fixpoint insert_str (x : pystr) (l : list pystr) : list pystr :=
  match l with [] => [x] | y :: l' => if str_ltb x y then x :: y :: l' else if str_eqb x y then y :: l' else y :: insert_str x l' end.
(** uvpspec_utils.py:785-791 *)
Definition unique_str (l : list pystr) : list pystr := fold_left (fun a x => insert_str x a) l [].

(** uvpspec_utils.py:769-825 *)
Definition file_source (g : grp) : source :=
  mksrc (file_has g (ds_name d_covr 0) && negb (file_has g (s_ "cov_array_spw0")))
        (file_has g (ds_name d_win 0)) (file_has g (ds_name d_kperp 0))
        (fun a i => file_get g (ds_name a i))
        (unique_str (map stat_of (filter (prefixb stats_s) (map fst (g_dsets g)))))
        (fun s i => file_get g (stat_name s i)).
(** uvpspec_utils.py:778-849 *)
Definition mem_source (o : obj) : source :=
  mksrc (has_arr o d_covr) (has_arr o d_win) (has_arr o d_kperp) (arr_at o)
        (match o_stats o with Some st => map fst st | None => [] end)
        (fun s i => match o_stats o with
                    | None => Err KeyError
                    | Some st => match dget name_dec st s with
                                 | None => Err KeyError
                                 | Some d => match dget Nat.eq_dec d i with None => Err KeyError | Some v => Ok v end
                                 end
                    end).
(** what is picked of an array: rows and polarizations of the array of that name (statistics: [stats_s]); uvpspec_utils.py:801-923 *)
Definition picker := pystr -> V -> V.
(** uvpspec_utils.py:801-923 *)
Definition wanted (s : source) : list pystr :=
  [d_data; d_wgt; d_int; d_nsmp] ++ (if src_win s then [d_win] ++ (if src_exact s then [d_kperp; d_kpara] else []) else []) ++
  (if src_cov s then [d_covr; d_covi] else []).
(** one array: a dictionary from new window numbers to picked values; [m]: pairs (new, old); uvpspec_utils.py:801-923 *)
Definition fetch (get : nat -> result V) (pick : V -> V) (m : list (nat * nat)) : result wdict :=
  bind (map_res (fun no => bind (get (snd no)) (fun v => Ok (fst no, pick v))) m) (fun l =>
  Ok (fold_left (fun d kv => dset Nat.eq_dec d (fst kv) (snd kv)) l [])).
(** for at least one window ([m] not empty); [len(stats) > 0] iff there is a statistic; uvpspec_utils.py:801-923 *)
Definition fetch_all (s : source) (m : list (nat * nat)) (pick : picker) : result (list (pystr * wdict) * option (list (pystr * wdict))) :=
  bind (map_res (fun a => bind (fetch (src_get s a) (pick a) m) (fun d => Ok (a, d))) (wanted s)) (fun arrs =>
  bind (map_res (fun st => bind (fetch (src_stat s st) (pick stats_s) m) (fun d => Ok (st, d))) (src_stats s)) (fun sts =>
  Ok (arrs, match sts with [] => None | _ => Some sts end))).

(** ** Reading *)
(** a selection: from the metadata, the new metadata, the pairs (new, old) of window numbers, and the picks; the result of uvpspec_utils.py:533-755 *)
Definition selection := dict -> result (dict * list (nat * nat) * picker).
(** uvpspec_utils.py:533-755 with every argument None *)
Definition no_selection : selection := fun d => bind (spws d) (fun sp => Ok (d, map (fun s => (s, s)) sp, fun _ v => v)).

(** uvpspec.py:2431-2437 *)
Definition clear (d : dict) : dict := filter (fun kv => negb (memn (fst kv) all_params)) d.
(** uvpspec.py:1796-1832: the metadata of the group, in the object [old]; the older formats (pol_array,
    Nblpairts) are not modelled *)
Definition read_meta (g : grp) (old : obj) : result dict :=
  match aget (g_attrs g) t_pspec with
  | None => Err AssertionError
  | Some t =>
      require (is_uvpspec t) AssertionError (
      let d := fold_left (fun d kv => if memn (fst kv) meta_attrs then dset name_dec d (fst kv) (dec (fst kv) (snd kv)) else d)
                         (g_attrs g) (clear (o_attr old)) in
      let d := fold_left (fun d kv => if memn (fst kv) meta_dsets then dset name_dec d (fst kv) (snd kv) else d)
                         (g_dsets g) d in
      Ok (match aget (g_attrs g) a_exact with None => dset name_dec d a_exact v_false | Some _ => d end))
  end.
(** uvpspec_utils.py:921-947: only when the arrays are loaded *)
Definition with_arrays : list pystr := names ["OmegaP"; "OmegaPP"; "r_params"]%string.
(** uvpspec_utils.py:921-947 *)
Definition down (pick : picker) (d : dict) : dict :=
  map (fun kv => if memn (fst kv) with_arrays then (fst kv, pick (fst kv) (snd kv)) else kv) d.
(** uvpspec.py:1743-1902 [read_from_group] *)
Definition read_group (g : grp) (just_meta : bool) (sel : selection) (old : obj) : result obj :=
  bind (read_meta g old) (fun d =>
  bind (sel d) (fun r => let '(d', m, pick) := r in
  if just_meta then Ok (mkobj d' [] None)
  else bind (fetch_all (file_source g) m pick) (fun f => Ok (mkobj (down pick d') (fst f) (snd f))))).
(** uvpspec.py:1637-1721 [select] of an object in memory that holds its arrays *)
Definition select_mem (sel : selection) (o : obj) : result obj :=
  bind (sel (o_attr o)) (fun r => let '(d', m, pick) := r in
  bind (fetch_all (mem_source o) m pick) (fun f => Ok (mkobj (down pick d') (fst f) (snd f)))).

End H5.
Arguments obj : clear implicits.
Arguments grp : clear implicits.
Arguments dict : clear implicits.
Arguments source : clear implicits.
