(** Model of pstokes.py:19-24 and 74-517: pseudo-Stokes visibilities.
    Arrays are flat lists (all operations are elementwise); polarizations are integers; nsamples are real numbers.
    Not modelled: reading of Miriad files, history, uvdS.check(), strings for polarizations. Objects have one spectral
    window (the code compares spw_array with [==] and takes the truth value). *)
From Coq Require Import Reals.
From Verif Require Import Prelude CNum.
Open Scope Z_scope.

(** pstokes.py:19-24 *)
Definition pol_weights (ps : Z) : option (list (Z * C)) :=
  if Z.eqb ps 1 then Some [(-5, C1); (-6, C1)]
  else if Z.eqb ps 2 then Some [(-5, C1); (-6, Copp C1)]
  else if Z.eqb ps 3 then Some [(-7, C1); (-8, C1)]
  else if Z.eqb ps 4 then Some [(-7, Copp Ci); (-8, Ci)]
  else None.
(** pstokes.py:19-24, 159-307 [_combine_pol_arrays] *)
Fixpoint lookup (p : Z) (l : list (Z * C)) : option C :=
  match l with [] => None | (q, w) :: l' => if Z.eqb p q then Some w else lookup p l' end.

(** the attribute pol_convention read at pstokes.py:113-125 *)
Inductive conv := Avg | Sum | OtherConv.
(** the attribute pol_convention read at pstokes.py:113-125 *)
Definition conv_eqb (a b : conv) : bool :=
  match a, b with Avg, Avg | Sum, Sum | OtherConv, OtherConv => true | _, _ => false end.

(** pstokes.py:159-307 [_combine_pol_arrays] *)
Definition map2 {A B D} (f : A -> B -> D) (l : list A) (l' : list B) : list D := map (fun p => f (fst p) (snd p)) (combine l l').

(** pstokes.py:159-307 [_combine_pol_arrays] *)
Definition posb (x : R) : bool := if Rlt_dec 0 x then true else false.

(** pstokes.py:245-305, the three arrays *)
Definition comb_data (w1 w2 : C) (c : conv) (d1 d2 : list C) : list C :=
  let s := map2 (fun a b => Cadd (Cmul w1 a) (Cmul w2 b)) d1 d2 in
  match c with Avg => map (fun x => Cmul x (RtoC (/ 2))) s | _ => s end.
(** pstokes.py:159-307 [_combine_pol_arrays] *)
Definition valid_ns (n1 n2 : list R) : list bool := map2 (fun a b => posb a && posb b) n1 n2.
(** pstokes.py:159-307 [_combine_pol_arrays] *)
Definition comb_ns (n1 n2 : list R) : list R :=
  map2 (fun a b => if posb a && posb b then (4 / (1 / a + 1 / b))%R else 0%R) n1 n2.
(** flags: the union; samples without nsamples that are not flagged are flagged (with a warning); pstokes.py:159-307 [_combine_pol_arrays] *)
Definition comb_flags (f1 f2 : list bool) (ns : option (list R * list R)) : list bool :=
  let f := map2 orb f1 f2 in
  match ns with
  | None => f
  | Some (n1, n2) =>
      let v := valid_ns n1 n2 in
      if existsb (fun b => b) (map2 (fun v f => negb v && negb f) v f) then map2 (fun f v => f || negb v) f v else f
  end.

(** pstokes.py:159-307 [_combine_pol_arrays] *)
Definition same_len {A} (p : option (list A * list A)) : bool :=
  match p with None => true | Some (a, b) => Nat.eqb (length a) (length b) end.
(** pstokes.py:159-307 [_combine_pol_arrays] *)
Definition combine_pol_arrays (p1 p2 ps : Z) (c : conv) (data : option (list C * list C)) (flags : option (list bool * list bool))
    (ns : option (list R * list R)) : result (option (list C) * option (list bool) * option (list R)) :=
  match pol_weights ps with
  | None => Err AssertionError
  | Some w =>
      match lookup p1 w, lookup p2 w with
      | Some w1, Some w2 =>
          match c with
          | OtherConv => Err ValueError
          | _ =>
              require (same_len data && same_len flags && same_len ns) AssertionError (
              Ok (option_map (fun d => comb_data w1 w2 c (fst d) (snd d)) data,
                  option_map (fun f => comb_flags (fst f) (snd f) ns) flags,
                  option_map (fun n => comb_ns (fst n) (snd n)) ns))
          end
      | _, _ => Err AssertionError
      end
  end.

(** a UVData object: one column of data, flags and nsamples per polarization; the UVData attributes used at pstokes.py:74-157, 318-517 *)
Record col := mkcol { cpol : Z; cdata : list C; cflags : list bool; cns : list R }.
(** the UVData attributes used at pstokes.py:74-157, 318-517 *)
Record uvd := mkuvd { uspw : Z; ufreqs : list Z; utimes : list Z; ubls : list Z; uconv : option conv; ucols : list col }.
(** the UVData attributes used at pstokes.py:74-157, 318-517 *)
Definition upols (u : uvd) : list Z := map cpol (ucols u).

(** the UVData attributes used at pstokes.py:74-157, 318-517 *)
Definition zlist_eqb (a b : list Z) : bool := if list_eq_dec Z.eq_dec a b then true else false.
(** pstokes.py:449-456: select one polarization if there are several *)
Definition select_pol (u : uvd) (p : Z) : uvd :=
  if Nat.ltb 1 (length (ucols u))
  then mkuvd (uspw u) (ufreqs u) (utimes u) (ubls u) (uconv u) (filter (fun c => Z.eqb (cpol c) p) (ucols u))
  else u.
(** pstokes.py:113-125: a missing convention is taken, and set, to be "avg" *)
Definition set_conv (u : uvd) : uvd :=
  match uconv u with
  | None => mkuvd (uspw u) (ufreqs u) (utimes u) (ubls u) (Some Avg) (ucols u)
  | Some _ => u
  end.
(** the UVData attributes used at pstokes.py:74-157, 318-517 *)
Definition the_conv (u : uvd) : conv := match uconv u with Some c => c | None => Avg end.

(** pstokes.py:74-157 [_combine_pol], on objects with one polarization *)
Definition combine_pol (u1 u2 : uvd) (p1 p2 ps : Z) : result uvd :=
  require (conv_eqb (the_conv u1) (the_conv u2)) ValueError (
  match ucols u1, ucols u2 with
  | c1 :: _, c2 :: _ =>
      bind (combine_pol_arrays p1 p2 ps (the_conv u1) (Some (cdata c1, cdata c2)) (Some (cflags c1, cflags c2)) (Some (cns c1, cns c2)))
        (fun r => match r with
                  | (Some d, Some f, Some n) =>
                      Ok (mkuvd (uspw u1) (ufreqs u1) (utimes u1) (ubls u1) (Some (the_conv u1)) [mkcol ps d f n])
                  | _ => Err ValueError
                  end)
  | _, _ => Err IndexError
  end).

(** pstokes.py:318-467 [construct_pstokes], on UVData objects *)
Definition construct_pstokes (u1 u2 : uvd) (ps : Z) : result uvd :=
  require (Z.eqb (uspw u1) (uspw u2)) AssertionError (
  require (zlist_eqb (ufreqs u1) (ufreqs u2)) ValueError (
  require (zlist_eqb (utimes u1) (utimes u2)) ValueError (
  require (zlist_eqb (ubls u1) (ubls u2)) ValueError (
  match pol_weights ps with
  | Some [(p1, _); (p2, _)] =>
      require (existsb (Z.eqb p1) (upols u1)) AssertionError (
      require (existsb (Z.eqb p2) (upols u2)) AssertionError (
      combine_pol (select_pol u1 p1) (select_pol u2 p2) p1 p2 ps))
  | _ => Err KeyError
  end)))).
(** what the call leaves behind in its first (second) argument: without a selection, [setattr] acts on the caller's
    object (pstokes.py:116-121, 449-456) *)
Definition arg_after (u : uvd) : uvd := if Nat.ltb 1 (length (ucols u)) then u else set_conv u.

(** pstokes.py:470-517 [filter_dset_on_stokes_pol]: only the first polarization of each object counts *)
Definition first_pol (u : uvd) : result Z := match upols u with p :: _ => Ok p | [] => Err IndexError end.
(** pstokes.py:470-517 [filter_dset_on_stokes_pol] *)
Fixpoint find_pol (p : Z) (us : list uvd) : option uvd :=
  match us with [] => None | u :: l => match upols u with q :: _ => if Z.eqb q p then Some u else find_pol p l | [] => find_pol p l end end.
(** pstokes.py:470-517 [filter_dset_on_stokes_pol] *)
Definition filter_dset_on_stokes_pol (us : list uvd) (ps : Z) : result (uvd * uvd) :=
  bind (map_res first_pol us) (fun _ =>
  match pol_weights ps with
  | Some [(p1, _); (p2, _)] =>
      match find_pol p1 us, find_pol p2 us with Some a, Some b => Ok (a, b) | _, _ => Err AssertionError end
  | _ => Err AssertionError
  end).
