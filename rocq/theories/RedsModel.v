(** [utils.get_reds] (utils.py:1227-1360) given the redundant groups found by hera_cal's get_pos_reds; [PSpecBeamBase.get_Omegas]
    (pspecbeam.py:293-348); [PSpecData.validate_pol] (pspecdata.py:3203-3268) and [PSpecData.units] (2944-2980). Reading files and the
    antenna positions of a UVData object are not modelled: positions are a dictionary. Real numbers are exact. *)
From Coq Require Import Reals String.
From Verif Require Import Prelude PyStr PyDict UvpModel GeomModel.
Open Scope R_scope.

Definition bl := (Z * Z)%type.

(** ** get_reds *)
(** 1312: the vector of the first baseline of a group *)
Definition group_vec (ap : antpos) (r : list bl) : result vec :=
  match r with [] => Err IndexError | b :: _ => bl_vec (pos ap) b end.
(** 1317-1326: the cuts; each condition skips the group *)
Definition cut (lr dr : R * R) (ew l a : R) : bool :=
  (ltbR l (fst lr) || ltbR (snd lr) l) || (ltbR a (fst dr) || ltbR (snd dr) a) || ltbR (Rabs (l * cos (a * PI / 180))) ew.
(** utils.py:1227-1360 [get_reds] *)
Definition xant_ok (xants : list Z) (b : bl) : bool := negb (existsb (Z.eqb (fst b)) xants) && negb (existsb (Z.eqb (snd b)) xants).
(** 1310-1360. [reds]: the groups of get_pos_reds. [get_bl_lens_angs] of no vectors fails at [blvecs.shape[1]] *)
Definition get_reds (tol : R) (ap : antpos) (reds : list (list bl)) (lr dr : R * R) (xants : option (list Z))
    (add_autos autos_only : bool) (ew : R) : result (list (list bl) * list R * list R) :=
  bind (map_res (group_vec ap) reds) (fun vecs =>
  require (negb (Nat.eqb (List.length vecs) 0)) IndexError (
  let lens := map bl_len vecs in
  let angs := map (bl_ang tol) vecs in
  let sel := filter (fun x => negb (cut lr dr ew (fst (snd x)) (snd (snd x)))) (combine reds (combine lens angs)) in
  let reds := map fst sel in let lens := map (fun x => fst (snd x)) sel in let angs := map (fun x => snd (snd x)) sel in
  let ants := map fst ap in
  let '(reds, lens, angs) :=
    if add_autos then
      let reds := map (fun a => (a, a)) ants :: reds in let lens := 0 :: lens in let angs := 0 :: angs in
      if autos_only then (firstn 1 reds, firstn 1 lens, firstn 1 angs) else (reds, lens, angs)
    else (reds, lens, angs) in
  match xants with
  | None => Ok (reds, lens, angs)
  | Some xs =>
      let l := filter (fun x => Nat.ltb 0 (List.length (fst x)))
                      (map (fun x => (filter (xant_ok xs) (fst x), snd x)) (combine reds (combine lens angs))) in
      Ok (map fst l, map (fun x => fst (snd x)) l, map (fun x => snd (snd x)) l)
  end)).

(** ** get_Omegas: [of_int]: polpair_int2tuple; [name]: polnum2str; [p1], [p2]: the beam integrals over frequency; pspecbeam.py:293-348 [get_Omegas] *)
Inductive polid := PNum (n : Z) | PName (s : string).
(** pspecbeam.py:293-348 [get_Omegas] *)
Inductive polpair := PPInt (n : Z) | PPTup (a b : polid).
(** a list, one tuple or integer, or something else; pspecbeam.py:293-348 [get_Omegas] *)
Inductive polarg := PList (l : list polpair) | POne (p : polpair) | POther.
Section Om.
Variables (V : Type) (of_int : Z -> result (Z * Z)) (name : Z -> result string) (p1 p2 : string -> result V).
(** pspecbeam.py:293-348 [get_Omegas] *)
Definition pname (p : polid) : result string := match p with PNum n => name n | PName s => Ok s end.
(** pspecbeam.py:293-348 [get_Omegas] *)
Definition as_tuple (p : polpair) : result (polid * polid) :=
  match p with PPInt n => bind (of_int n) (fun ab => Ok (PNum (fst ab), PNum (snd ab))) | PPTup a b => Ok (a, b) end.
(** pspecbeam.py:293-348 [get_Omegas] *)
Definition omegas_one (ab : polid * polid) : result (V * V) :=
  bind (pname (fst ab)) (fun a => bind (pname (snd ab)) (fun b =>
  if string_dec a b then bind (p1 a) (fun x => bind (p2 a) (fun y => Ok (x, y))) else Err NotImplementedError)).
(** pspecbeam.py:311-348: rows of the two arrays before the transpose *)
Definition get_Omegas (arg : polarg) : result (list V * list V) :=
  bind (match arg with PList l => Ok l | POne p => Ok [p] | POther => Err TypeError end) (fun l =>
  bind (map_res as_tuple l) (fun t => bind (map_res omegas_one t) (fun r => Ok (map fst r, map snd r)))).
End Om.
Arguments get_Omegas {V}. Arguments omegas_one {V}.

(** ** validate_pol: [num o s]: polstr2num with x_orientation o; a dataset is its x_orientation and its polarizations; pspecdata.py:3203-3268 [validate_pol] *)
Record pset := mkpset { p_xo : string; p_pols : list Z }.
Section Pol.
Variable num : string -> string -> result Z.
(** pspecdata.py:3203-3268 [validate_pol] *)
Definition polnum (o : string) (p : polid) : result Z := match p with PNum n => Ok n | PName s => num o s end.
(** pspecdata.py:3203-3268 [validate_pol] *)
Definition mem_Z (n : Z) (l : list Z) : bool := existsb (Z.eqb n) l.
(** pspecdata.py:3227-3268; datasets are given by their index (dset_idx is in DsetModel) *)
Definition validate_pol (dsets : list pset) (i j : nat) (pp : polid * polid) : result bool :=
  match dsets with
  | [] => Err IndexError
  | d0 :: _ =>
      bind (polnum (p_xo d0) (fst pp)) (fun a => bind (polnum (p_xo d0) (snd pp)) (fun b =>
      match nth_error dsets i, nth_error dsets j with
      | Some d1, Some d2 => Ok (mem_Z a (p_pols d1) && mem_Z b (p_pols d2))
      | _, _ => Err IndexError
      end))
  end.
End Pol.

(** ** units, pspecdata.py:2960-2980; a dataset is its vis_units *)
Definition units (dsets : list string) (beam little_h : bool) : result (string * string) :=
  match dsets with
  | [] => Err IndexError
  | v :: _ => Ok (v, if beam then ((if little_h then "h^-3 " else "") ++ "Mpc^3")%string
                     else "Hz str [beam normalization not specified]"%string)
  end.
