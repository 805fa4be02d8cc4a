(** Model of [uvpspec_utils.subtract_uvp] (uvpspec_utils.py:11-141) in exact real arithmetic.
    An object is its list of rows (baseline-pair, LST); what a row holds is looked up by spectral window (the tuple that
    get_spw_ranges returns for it) and polarization pair.  The selection of common parts is the one of UvpModel
    ([select_common] with spws, blpairs, lsts, polpairs), restricted to what matters here: which rows and windows stay;
    polarization pairs are not selected (uvpspec_utils.py:360-372 passes [_polpairs], which stays None). *)
From Coq Require Import String.
From Coq Require Import Reals Lra.
From Verif Require Import Prelude.
Open Scope R_scope.

Record cell := mkcell {
  c_data : nat -> R * R; c_ns : R; c_int : R; c_wgt : option (list R) (* all channels of both weights; None: nan *);
  c_stat : string -> nat -> R * R; c_covr : nat -> nat -> R; c_covi : nat -> nat -> R; c_win : nat -> nat -> R }.

Section Sub.
Context {W : Type} (eqW : forall x y : W, {x = y} + {x <> y}).
(** the attributes used by uvpspec_utils.py:11-141 [subtract_uvp] and 286-385 [select_common] *)
Record row := mkrow { r_blp : Z; r_lst : Z; r_cell : W -> Z -> cell }.
(** [s_stats]: names of the statistics (None: no stats_array); [s_cov]: cov_model (None: no covariance arrays); [s_hwin]: has window functions; the attributes used by uvpspec_utils.py:11-141 [subtract_uvp] and 286-385 [select_common] *)
Record sobj := mksobj { s_folded : bool; s_wins : list W; s_pols : list Z; s_rows : list row; s_stats : option (list string); s_cov : option string; s_hwin : bool }.

(** the attributes used by uvpspec_utils.py:11-141 [subtract_uvp] and 286-385 [select_common] *)
Definition memW (w : W) (l : list W) : bool := if in_dec eqW w l then true else false.
(** the attributes used by uvpspec_utils.py:11-141 [subtract_uvp] and 286-385 [select_common] *)
Definition memZ (z : Z) (l : list Z) : bool := if in_dec Z.eq_dec z l then true else false.
(** the attributes used by uvpspec_utils.py:11-141 [subtract_uvp] and 286-385 [select_common] *)
Definition has_blp (b : Z) (u : sobj) : bool := memZ b (map r_blp (s_rows u)).
(** the attributes used by uvpspec_utils.py:11-141 [subtract_uvp] and 286-385 [select_common] *)
Definition has_lst (t : Z) (u : sobj) : bool := memZ t (map r_lst (s_rows u)).
(** 40-49 and uvpspec_utils.py:286-385: rows whose baseline-pair and whose LST occur in both objects, in the object's own order;
    an empty list of common windows, baseline-pairs, LSTs or polarization pairs is a ValueError, no row left an AssertionError *)
Definition restrict (u1 u2 u : sobj) : sobj :=
  mksobj (s_folded u) (filter (fun w => memW w (s_wins u1) && memW w (s_wins u2)) (s_wins u)) (s_pols u)
    (filter (fun r => has_blp (r_blp r) u1 && has_blp (r_blp r) u2 && (has_lst (r_lst r) u1 && has_lst (r_lst r) u2)) (s_rows u))
    (s_stats u) (s_cov u) (s_hwin u).
(** uvpspec_utils.py:40-49 [subtract_uvp], 286-385 [select_common] *)
Definition some {A} (l : list A) : bool := match l with [] => false | _ => true end.
(** uvpspec_utils.py:40-49 [subtract_uvp], 286-385 [select_common] *)
Definition common2 (u1 u2 : sobj) : result (sobj * sobj) :=
  require (some (filter (fun w => memW w (s_wins u2)) (s_wins u1))) ValueError (
  require (existsb (fun r => has_blp (r_blp r) u2) (s_rows u1)) ValueError (
  require (existsb (fun r => has_lst (r_lst r) u2) (s_rows u1)) ValueError (
  require (some (filter (fun p => memZ p (s_pols u2)) (s_pols u1))) ValueError (
  let v1 := restrict u1 u2 u1 in let v2 := restrict u1 u2 u2 in
  require (some (s_rows v1)) AssertionError (require (some (s_rows v2)) AssertionError (Ok (v1, v2))))))).

(** 75-98: [np.sqrt(1 / (1 / a**2 + 1 / b**2))], with numpy's 1/0 = inf and 1/inf = 0 *)
Definition invq (a b : R) : R := if Req_EM_T a 0 then 0 else if Req_EM_T b 0 then 0 else sqrt (1 / (1 / a ^ 2 + 1 / b ^ 2)).
(** uvpspec_utils.py:101-135 [subtract_uvp] *)
Definition quad (a b : R) : R := sqrt (a ^ 2 + b ^ 2).
(** uvpspec_utils.py:101-135 [subtract_uvp] *)
Definition quad2 (a b : R * R) : R * R := (quad (fst a) (fst b), quad (snd a) (snd b)).
(** uvpspec_utils.py:92-99 [subtract_uvp] *)
Fixpoint map2 {A B C} (f : A -> B -> C) (l : list A) (l' : list B) : list C :=
  match l, l' with x :: l, y :: l' => f x y :: map2 f l l' | _, _ => [] end.
(** 70-135 for one row; the weights are not yet divided by their maximum *)
Definition sub_cell (dostat docov dowin : bool) (a b : cell) : cell :=
  mkcell (fun d => (fst (c_data a d) - fst (c_data b d), snd (c_data a d) - snd (c_data b d)))
    (invq (c_ns a) (c_ns b)) (invq (c_int a) (c_int b))
    (match c_wgt a, c_wgt b with Some x, Some y => Some (map2 invq x y) | _, _ => None end)
    (if dostat then fun s d => quad2 (c_stat a s d) (c_stat b s d) else c_stat a)
    (if docov then fun d d' => quad (c_covr a d d') (c_covr b d d') else c_covr a)
    (if docov then fun d d' => quad (c_covi a d d') (c_covi b d d') else c_covi a)
    (if dowin then fun d d' => quad (c_win a d d') (c_win b d d') else c_win a).
(** 97-99: the weights of the baseline-pair divided by the largest of them; 0/0 is nan *)
Fixpoint maxl (l : list R) : R := match l with [] => 0 | x :: l' => Rmax x (maxl l') end.
(** uvpspec_utils.py:92-99 [subtract_uvp] *)
Fixpoint all_wgts (l : list cell) : option (list R) :=
  match l with
  | [] => Some []
  | c :: l' => match c_wgt c, all_wgts l' with Some x, Some y => Some (x ++ y) | _, _ => None end
  end.
(** uvpspec_utils.py:92-99 [subtract_uvp] *)
Definition norm_wgts (l : list cell) : list cell :=
  let set_w (w : option (list R)) c := mkcell (c_data c) (c_ns c) (c_int c) w (c_stat c) (c_covr c) (c_covi c) (c_win c) in
  match all_wgts l with
  | None => map (set_w None) l
  | Some ws => if Req_EM_T (maxl ws) 0 then map (set_w None) l
               else map (fun c => set_w (option_map (map (fun x => x / maxl ws)) (c_wgt c)) c) l
  end.
(** the second operand broadcast against the first: equal numbers of rows, or a single row; the in-place assignments at uvpspec_utils.py:70-135 [subtract_uvp] *)
Definition broadcast {A B} (f : A -> B -> A) (l : list A) (l' : list B) : result (list A) :=
  if Nat.eqb (length l) (length l') then Ok (map2 f l l')
  else match l' with [y] => Ok (map (fun x => f x y) l) | _ => Err ValueError end.
(** put new cells, in order, into the rows of baseline-pair [b], at one window and polarization pair; the in-place assignments at uvpspec_utils.py:70-135 [subtract_uvp] *)
Fixpoint put (b : Z) (w : W) (p : Z) (rows : list row) (cs : list cell) : list row :=
  match rows with
  | [] => []
  | r :: rows' =>
      if Z.eqb (r_blp r) b
      then match cs with
           | c :: cs' => mkrow (r_blp r) (r_lst r) (fun w' p' => if eqW w' w then (if Z.eqb p' p then c else r_cell r w' p') else r_cell r w' p') :: put b w p rows' cs'
           | [] => r :: put b w p rows' []
           end
      else r :: put b w p rows' cs
  end.
(** the in-place assignments at uvpspec_utils.py:70-135 [subtract_uvp] *)
Definition of_blp (b : Z) (rows : list row) : list row := filter (fun r => Z.eqb (r_blp r) b) rows.
(** 66-135: one (window, polarization pair, baseline-pair).  The keys of the second object are looked up first (AssertionError
    if it has no such polarization pair or baseline-pair); for folded objects get_data returns the positive delays only, which
    do not fit into data_array (ValueError; at least 5 delay bins).  A statistic that the second object lacks is an AssertionError *)
Definition sub_one (u1 u2 : sobj) (w : W) (p b : Z) (rows : list row) : result (list row) :=
  let l1 := map (fun r => r_cell r w p) (of_blp b rows) in
  let l2 := map (fun r => r_cell r w p) (of_blp b (s_rows u2)) in
  require (memZ p (s_pols u2) && some l2) AssertionError (
  require (negb (s_folded u2)) ValueError (
  let dostat := match s_stats u1, s_stats u2 with Some _, Some _ => true | _, _ => false end in
  let docov := dostat && match s_cov u1, s_cov u2 with Some m, Some m' => if string_dec m m' then true else false | _, _ => false end in
  bind (broadcast (sub_cell dostat docov (s_hwin u1 && s_hwin u2)) l1 l2) (fun cs =>
  require (match s_stats u1, s_stats u2 with Some n, Some n' => forallb (fun x => if in_dec string_dec x n' then true else false) n | _, _ => true end) AssertionError (
  Ok (put b w p rows (norm_wgts cs)))))).
(** the loops at uvpspec_utils.py:57-66 [subtract_uvp] *)
Fixpoint fold_res {A S} (f : A -> S -> result S) (l : list A) (s : S) : result S :=
  match l with [] => Ok s | x :: l' => bind (f x s) (fold_res f l') end.
(** 51-66: the three loops, over windows, polarization pairs and distinct baseline-pairs of the first object *)
Definition subtract_uvp (u1 u2 : sobj) : result sobj :=
  bind (common2 u1 u2) (fun v => let (v1, v2) := v in
  let blps := nodup Z.eq_dec (map r_blp (s_rows v1)) in (* the code sorts them; the order has no effect *)
  let todo := list_prod (list_prod (s_wins v1) (s_pols v1)) blps in
  bind (fold_res (fun '(w, p, b) rows => sub_one v1 v2 w p b rows) todo (s_rows v1)) (fun rows =>
  Ok (mksobj (s_folded v1) (s_wins v1) (s_pols v1) rows (s_stats v1) (s_cov v1) (s_hwin v1)))).
End Sub.
Arguments row : clear implicits.
Arguments sobj : clear implicits.
