(** Model of [combine_uvpspec] (uvpspec.py:2977-3399), [recursive_combine_uvpspec]
    (uvpspec.py:3402-3438), [get_uvp_overlap] (uvpspec.py:3441-3635) and of the merge loop of
    the command [fast_merge_baselines] (cli.py:97-158).

    Simplifications:
    - an entry of type [V] is everything stored for one (window, blpair-time, polpair): data,
      weights, integration, nsample, label names, and the optional covariance, window function
      and statistics when all inputs have them; entries are only copied;
    - frequencies, delays and times are integers (float64 values in units of a small power of
      two); [round8] is [np.around(t, 8)], [step] is the median channel spacing;
    - the 14 attributes that must agree (uvpspec.py:3506-3521) are one opaque value [c_static];
    - histories, counters and the final [check()] are not modelled; of several possible
      exceptions of one call the model may pick a different class, as it copies window by window. *)
From Verif Require Import Prelude UvpModel.

(** uvpspec.py:1030-1064, the tuples of get_spw_ranges *)
Definition key := list Z.
(** uvpspec.py:3441-3635, the tuples of blpair and times *)
Definition blpt := (Z * Z * Z)%type.
(** equality of tuples (Coq helper), uvpspec.py:3441-3635 *)
Definition key_dec : forall x y : key, {x = y} + {x <> y} := list_eq_dec Z.eq_dec.
(** equality of tuples (Coq helper), uvpspec.py:3441-3635 *)
Definition blpt_dec : forall x y : blpt, {x = y} + {x <> y}.
Proof. repeat decide equality. Defined.

(** [in] (Coq helper), uvpspec.py:2977-3635 *)
Definition mem {A} (dec : forall x y : A, {x = y} + {x <> y}) (x : A) (l : list A) : bool :=
  if in_dec dec x l then true else false.

(** comparison of tuples; the orders used by [sorted], uvpspec.py:3441-3635 *)
Fixpoint lex_leb (a b : list Z) : bool :=
  match a, b with
  | [], _ => true
  | _ :: _, [] => false
  | x :: a', y :: b' => Z.ltb x y || (Z.eqb x y && lex_leb a' b')
  end.
(** the orders used by [sorted], uvpspec.py:3441-3635 *)
Definition blpt_list (b : blpt) : list Z := let '(p, t1, t2) := b in [p; t1; t2].
(** the orders used by [sorted], uvpspec.py:3441-3635 *)
Definition blpt_leb (a b : blpt) : bool := lex_leb (blpt_list a) (blpt_list b).
(** the orders used by [sorted], uvpspec.py:3441-3635 *)
Definition abs_leb (a b : Z) : bool := Z.leb (Z.abs a) (Z.abs b).

(** [sorted]; Python's [sorted], uvpspec.py:3441-3635 *)
Fixpoint insert {A} (leb : A -> A -> bool) (x : A) (l : list A) : list A :=
  match l with [] => [x] | y :: l' => if leb x y then x :: l else y :: insert leb x l' end.
(** Python's [sorted], uvpspec.py:3441-3635 *)
Definition isort {A} (leb : A -> A -> bool) (l : list A) : list A := fold_right (insert leb) [] l.
(** [sorted(set(l))]; Python's [sorted], uvpspec.py:3441-3635 *)
Definition sorted_set {A} dec leb (l : list A) : list A := isort leb (nodup dec l).

(** [l.index(x)]; [l[i]]; Python list access (Coq helper), uvpspec.py:2977-3399 *)
Definition index_res {A} (dec : forall x y : A, {x = y} + {x <> y}) (x : A) (l : list A) : result nat :=
  match index_of dec x l with Some i => Ok i | None => Err ValueError end.
(** Python list access (Coq helper), uvpspec.py:2977-3399 *)
Definition nth_res {A} (l : list A) (i : nat) : result A :=
  match nth_error l i with Some x => Ok x | None => Err IndexError end.

(** the string concat_ax of uvpspec.py:3441-3635 *)
Inductive axis := AxSpw | AxBlpts | AxPols.
(** the string concat_ax of uvpspec.py:3441-3635 *)
Definition axis_eqb (a b : axis) : bool :=
  match a, b with AxSpw, AxSpw | AxBlpts, AxBlpts | AxPols, AxPols => true | _, _ => false end.

(** the frequencies and delays of one spectral window; uvpspec.py:58-569, freq_array and dly_array of a window *)
Record window := mkwin { w_freqs : list Z; w_dlys : list Z }.

Section Combine.
Context {V M Sc Vec : Type}.
Variable isclose : Sc -> Sc -> bool.
Variable round8 : Z -> Z.
Variable step : list Z -> Z.

(** the UVPSpec attributes used by uvpspec.py:2977-3399 *)
Record cobj := mkc {
  c_windows : list window;
  c_blpts : list blpt;                    (* blpair_array, time_1_array, time_2_array *)
  c_pols : list Z;
  c_cells : list (list (list V));         (* [window][row][pol] *)
  c_rows : list M;                        (* time_avg, lst_1, lst_2, lst_avg *)
  c_scalar : list (list Sc);              (* [window][pol] *)
  c_bls : list (Z * Vec);                 (* bl_array, bl_vecs *)
  c_rparams : list (Z * Z);               (* decompressed r_params: {} for "" *)
  c_static : Z }.

(** uvpspec.py:1030-1064 [get_spw_ranges]: (min, min + N * spacing, Nfreqs, Ndlys) *)
Definition wkey (w : window) : key :=
  let fmin := fold_right Z.min (hd 0%Z (w_freqs w)) (w_freqs w) in
  let n := Z.of_nat (length (w_freqs w)) in
  [fmin; (fmin + n * step (w_freqs w))%Z; n; Z.of_nat (length (w_dlys w))].
(** uvpspec.py:1030-1064 *)
Definition spws (u : cobj) : list key := map wkey (c_windows u).

(** * get_uvp_overlap; uvpspec.py:3441-3635, comparisons of sets *)
Definition same_set {A} dec (l1 l2 : list A) : bool :=
  forallb (fun x => mem dec x l2) l1 && forallb (fun x => mem dec x l1) l2.
(** uvpspec.py:3441-3635, comparisons of sets *)
Definition disjoint {A} dec (l1 l2 : list A) : bool :=
  forallb (fun x => negb (mem dec x l2)) l1.

(** uvpspec.py:3587-3615: the axis of one pair of objects *)
Definition pair_axis (u1 u2 : cobj) : result axis :=
  let sm := same_set key_dec (spws u1) (spws u2) in
  let bm := same_set blpt_dec (c_blpts u1) (c_blpts u2) in
  let pm := same_set Z.eq_dec (c_pols u1) (c_pols u2) in
  require (sm || disjoint key_dec (spws u1) (spws u2)) AssertionError
  (require (bm || disjoint blpt_dec (c_blpts u1) (c_blpts u2)) AssertionError
  (require (pm || disjoint Z.eq_dec (c_pols u1) (c_pols u2)) AssertionError
  (match sm, bm, pm with
   | true, true, true => Err AssertionError
   | false, true, true => Ok AxSpw
   | true, false, true => Ok AxBlpts
   | true, true, false => Ok AxPols
   | _, _, _ => Err AssertionError
   end))).

(** itertools.combinations(range(Nuvps), 2), uvpspec.py:3441-3635 *)
Fixpoint all_pairs {A} (l : list A) : list (A * A) :=
  match l with [] => [] | x :: l' => map (pair x) l' ++ all_pairs l' end.

(** uvpspec.py:3626-3633: [np.isclose] of whole arrays, entry by entry *)
Definition scalars_close (a b : list (list Sc)) : bool :=
  Nat.eqb (length a) (length b) &&
  forallb (fun xy => Nat.eqb (length (fst xy)) (length (snd xy)) &&
                     forallb (fun p => isclose (fst p) (snd p)) (combine (fst xy) (snd xy))) (combine a b).

(** uvpspec.py:3441-3635 *)
Definition overlap (us : list cobj) : result axis :=
  match us with
  | [] => Err IndexError
  | u0 :: rest =>
      require (forallb (fun u => Z.eqb (c_static u0) (c_static u)) rest) AssertionError
      (bind (map_res (fun p => pair_axis (fst p) (snd p)) (all_pairs us)) (fun axes =>
       match axes with
       | [] => Err AssertionError
       | a :: _ =>
           require (forallb (axis_eqb a) axes) AssertionError
           (if axis_eqb a AxBlpts
            then require (forallb (fun u => scalars_close (c_scalar u0) (c_scalar u)) rest) AssertionError (Ok a)
            else Ok a)
       end))
  end.

(** * combine_uvpspec *)
(** uvpspec_utils.py:1179-1218 [_fast_lookup_blpairts]: all matching row numbers of all queries,
    one after the other; only the pair number and the rounded first time are compared *)
Definition lookup_match (a b : blpt) : bool :=
  let '(p, t, _) := a in let '(p', t', _) := b in Z.eqb p p' && Z.eqb (round8 t) (round8 t').
(** uvpspec_utils.py:1179-1218 *)
Definition fast_lookup (src query : list blpt) : list nat :=
  flat_map (fun q => where_ (map (lookup_match q) src)) query.

(** [[test(u) for u in uvps].index(True)]; uvpspec.py:3180, 3260, 3313 *)
Definition owner_of (test : cobj -> bool) (us : list cobj) : result cobj :=
  match find test us with Some u => Ok u | None => Err ValueError end.
(** uvpspec.py:3180, 3260 and 3313: which object the entry comes from *)
Definition owner (ax : axis) (us : list cobj) (s : key) (b : blpt) (p : Z) : result cobj :=
  owner_of (fun u => match ax with
                     | AxSpw => mem key_dec s (spws u)
                     | AxBlpts => mem blpt_dec b (c_blpts u)
                     | AxPols => mem Z.eq_dec p (c_pols u)
                     end) us.
(** uvpspec.py:3194, 3261 and 3318: its row there *)
Definition row_index (ax : axis) (u : cobj) (blpts : list blpt) (j : nat) (b : blpt) : result nat :=
  match ax with
  | AxBlpts => index_res blpt_dec b (c_blpts u)
  | _ => nth_res (fast_lookup (c_blpts u) blpts) j
  end.

(** array element access, uvpspec.py:3204-3354 *)
Definition get3 (a : list (list (list V))) (i j k : nat) : result V :=
  bind (nth_res a i) (fun r => bind (nth_res r j) (fun c => nth_res c k)).

(** uvpspec.py:3204-3233, 3264-3299 and 3321-3354: one entry *)
Definition entry (ax : axis) (us : list cobj) (blpts : list blpt) (s : key) (j : nat) (b : blpt) (p : Z) : result V :=
  bind (owner ax us s b p) (fun u =>
  bind (index_res key_dec s (spws u)) (fun m =>
  bind (index_res Z.eq_dec p (c_pols u)) (fun q =>
  bind (row_index ax u blpts j b) (fun n =>
  get3 (c_cells u) m n q)))).

(** uvpspec.py:3201, 3299 and 3325: one scalar *)
Definition scalar_entry (ax : axis) (us : list cobj) (b0 : blpt) (s : key) (p : Z) : result Sc :=
  bind (owner ax us s b0 p) (fun u =>
  bind (index_res key_dec s (spws u)) (fun m =>
  bind (index_res Z.eq_dec p (c_pols u)) (fun q =>
  bind (nth_res (c_scalar u) m) (fun r => nth_res r q)))).

(** uvpspec.py:3244-3253, 3301-3308 and 3356-3364: pair numbers, times and LSTs of row [j]. When
    windows or polarizations are concatenated the row number is looked up in the object that
    owns the first window or polarization, and read from the first object. *)
Definition row_entry (ax : axis) (us : list cobj) (u0 : cobj) (blpts : list blpt) (s0 : key) (p0 : Z) (j : nat) (b : blpt)
  : result (blpt * M) :=
  bind (owner ax us s0 b p0) (fun u =>
  bind (row_index ax u blpts j b) (fun n =>
  let src := match ax with AxBlpts => u | _ => u0 end in
  bind (nth_res (c_blpts src) n) (fun b' =>
  bind (nth_res (c_rows src) n) (fun r => Ok (b', r))))).

(** uvpspec.py:3172-3191: the windows of the new object; 3105-3112 copies them from the first *)
Definition new_windows (ax : axis) (us : list cobj) (u0 : cobj) (ss : list key) : result (list window) :=
  match ax with
  | AxSpw => map_res (fun s => bind (owner_of (fun u => mem key_dec s (spws u)) us) (fun u =>
                               bind (index_res key_dec s (spws u)) (fun m => nth_res (c_windows u) m))) ss
  | _ => Ok (c_windows u0)
  end.

(** uvpspec.py:3146-3169 *)
Definition rp_put (acc : result (list (Z * Z))) (kv : Z * Z) : result (list (Z * Z)) :=
  bind acc (fun d =>
  match find (fun e => Z.eqb (fst e) (fst kv)) d with
  | None => Ok (d ++ [kv])
  | Some e => if Z.eqb (snd e) (snd kv) then Ok d else Err ValueError
  end).
(** uvpspec.py:3146-3169 *)
Definition merge_rparams (ds : list (list (Z * Z))) : result (list (Z * Z)) :=
  let empty d := match d : list (Z * Z) with [] => true | _ => false end in
  if existsb empty ds && negb (forallb empty ds) then Err ValueError
  else fold_left rp_put (concat ds) (Ok []).

(** uvpspec.py:3370-3383 *)
Definition new_bls (us : list cobj) : result (list (Z * Vec)) :=
  map_res (fun bl =>
    bind (owner_of (fun u => mem Z.eq_dec bl (map fst (c_bls u))) us) (fun u =>
    bind (index_res Z.eq_dec bl (map fst (c_bls u))) (fun h => nth_res (c_bls u) h)))
  (sorted_set Z.eq_dec Z.leb (concat (map (fun u => map fst (c_bls u)) us))).

(** [enumerate], uvpspec.py:2977-3399 *)
Definition indexed {A} (l : list A) : list (nat * A) := combine (seq 0 (length l)) l.

(** uvpspec.py:2977-3399 *)
Definition combine_objs (us : list cobj) : result cobj :=
  match us with
  | [u] => Ok u
  | _ =>
    bind (overlap us) (fun ax =>
    match us with
    | [] => Err IndexError
    | u0 :: _ =>
      let ss := sorted_set key_dec lex_leb (concat (map spws us)) in
      let bs := sorted_set blpt_dec blpt_leb (concat (map c_blpts us)) in
      let ps := sorted_set Z.eq_dec abs_leb (concat (map c_pols us)) in
      let b0 := hd (0, 0, 0)%Z bs in let s0 := hd [] ss in let p0 := hd 0%Z ps in
      bind (merge_rparams (map c_rparams us)) (fun rp =>
      bind (map_res (fun s => map_res (fun jb => map_res (entry ax us bs s (fst jb) (snd jb)) ps) (indexed bs)) ss) (fun cells =>
      bind (map_res (fun s => map_res (scalar_entry ax us b0 s) ps) ss) (fun scal =>
      bind (map_res (fun jb => row_entry ax us u0 bs s0 p0 (fst jb) (snd jb)) (indexed bs)) (fun rows =>
      bind (new_windows ax us u0 ss) (fun ws =>
      bind (new_bls us) (fun bls =>
      Ok (mkc ws (map fst rows) ps cells (map snd rows) scal bls rp (c_static u0))))))))
    end)
  end.

(** * recursive_combine_uvpspec, uvpspec.py:3402-3438, for any pairwise merge [mrg] *)
Section Recursive.
Context {A : Type}.
Variable mrg : A -> A -> result A.
(** [fuel] bounds the recursion depth; [length us] is enough; uvpspec.py:3402-3438 *)
Fixpoint rec_combine (fuel : nat) (us : list A) : result A :=
  match us with
  | [] => Err ValueError
  | [u] => Ok u
  | [u; v] => mrg u v
  | _ =>
      match fuel with
      | O => Err ValueError
      | S fuel' =>
          let mid := length us / 2 in
          bind (rec_combine fuel' (firstn mid us)) (fun l =>
          bind (rec_combine fuel' (skipn mid us)) (fun r => mrg l r))
      end
  end.
(** uvpspec.py:3402-3438 *)
Definition recursive_combine (us : list A) : result A := rec_combine (length us) us.

(** cli.py:97-158 for one name: [files] are the objects read from the sorted files.
    cli.py:108-113: [num_batches = (n + size - 1) // size], slices [start:end] *)
Definition batch_slices (size : nat) (files : list A) : list (list A) :=
  map (fun i => slice (i * size) (Nat.min ((i + 1) * size) (length files)) files)
      (seq 0 ((length files + size - 1) / size)).
(** cli.py:145-155 *)
Definition add_batch (acc : result (option A)) (batch : list A) : result (option A) :=
  bind acc (fun o =>
  bind (recursive_combine batch) (fun b =>
  match o with
  | None => Ok (Some b)
  | Some m => bind (recursive_combine [m; b]) (fun r => Ok (Some r))
  end)).
(** [batch_size=None] is one batch (cli.py:101-102); no files: division by zero at line 108 *)
Definition merge_files (batch_size : option nat) (files : list A) : result (option A) :=
  let size := match batch_size with None => length files | Some b => b end in
  if Nat.eqb size 0 then Err ZeroDivisionError
  else fold_left add_batch (batch_slices size files) (Ok None).
End Recursive.

(** uvpspec.py:2493-2497 [__add__], 2977-3399 *)
Definition combine2 (u v : cobj) : result cobj := combine_objs [u; v].
End Combine.
Arguments cobj : clear implicits.
