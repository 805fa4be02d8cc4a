(** Model of plot.py: which data are drawn, where, and under which label.  matplotlib itself (drawing) is not modelled: a plot is the list of
    values, positions and texts handed to it.  Exact arithmetic; nan is None. *)
From Coq Require Import Ascii String.
From Coq Require Import Reals Lra.
From Flocq Require Import Core.
From Verif Require Import PyStr.
From Verif Require Import Prelude BlCodecModel StatModel GeomModel ConvModel.
Open Scope R_scope.

(** ** [_is_antpair_tuple], [_is_blpair_tuple], [_normalize_plot_blpairs], plot.py:10-71.
    Python values as far as they are told apart: integers, tuples, lists, anything else *)
Inductive pv := PInt (z : Z) | PTup (l : list pv) | PList (l : list pv) | POther.
(** plot.py:10-16 *)
Definition as_antpair (v : pv) : option (Z * Z) := match v with PTup [PInt a; PInt b] => Some (a, b) | _ => None end.
(** plot.py:19-25 *)
Definition as_blpair (v : pv) : option blpair_ants :=
  match v with PTup [x; y] => match as_antpair x, as_antpair y with Some a, Some b => Some (a, b) | _, _ => None end | _ => None end.
(** plot.py:52-68 *)
Definition norm_item (v : pv) : result Z :=
  match v with
  | PInt z => Ok z
  | _ => match as_blpair v with Some p => Ok (antnums_to_blpair p) | None => match as_antpair v with Some _ => Err ValueError | None => Err TypeError end end
  end.
(** plot.py:34-49 *)
Definition norm_group (v : pv) : result (list Z) :=
  match v with
  | PList l => map_res norm_item l
  | PInt _ => map_res norm_item [v]
  | _ => match as_blpair v with
         | Some _ => map_res norm_item [v]
         | None => match as_antpair v with Some _ => Err ValueError | None => Err TypeError end
         end
  end.
(** plot.py:28-71 *)
Definition normalize_blpairs (l : list pv) : result (list (list Z)) := map_res norm_group l.

(** ** components of the data, plot.py:701-732 (delay_waterfall) and 1137-1157 (delay_wedge).
    A sample is a pair of real part (possibly nan) and imaginary part; [power[flags, :] = np.nan] gives nan + 0j *)
Definition sample := (option R * R)%type.
(** plot.py:663 (delay_waterfall), 1141-1152 (delay_wedge) *)
Inductive comp := CReal | CImag | CAbs | CAbsReal | CAbsImag.
(** plot.py:710-712 *)
Definition flag_row (f : bool) (row : list sample) : list sample := if f then map (fun _ => (None, 0)) row else row.
(** [np.abs] of a complex sample, plot.py:716, 1150 *)
Definition absC (s : sample) : option R := option_map (fun x => sqrt (x ^ 2 + snd s ^ 2)) (fst s).
(** plot.py:715-724 (as written: abs-imag takes np.real) *)
Definition wf_component (c : comp) (s : sample) : option R :=
  match c with
  | CAbs => absC s
  | CReal => fst s
  | CAbsReal => option_map Rabs (fst s)
  | CImag => Some (snd s)
  | CAbsImag => option_map Rabs (fst s)
  end.
(** plot.py:1141-1150 *)
Definition wedge_component (c : comp) (s : sample) : option R :=
  match c with
  | CAbs => absC s
  | CReal => fst s
  | CAbsReal => option_map Rabs (fst s)
  | CImag => Some (snd s)
  | CAbsImag => Some (Rabs (snd s))
  end.
(** np.abs(power).min(): nan if there is one; plot.py:729 *)
Fixpoint allsome {A} (l : list (option A)) : option (list A) :=
  match l with [] => Some [] | None :: _ => None | Some a :: l' => option_map (cons a) (allsome l') end.
(** plot.py:729 *)
Definition minabs (l : list (option R)) : option R := option_map (fun v => minR (map Rabs v)) (allsome l).
(** plot.py:729 *)
Definition fill_of (l : list (option R)) : option R := option_map (fun m => m * / 10 ^ 6 + / 10 ^ 10) (minabs l).
(** power[power < 0] = np.abs(power).min() * 1e-6 + 1e-10 (a comparison with nan is False); plot.py:728-729, 1156-1157 *)
Definition fix_neg (l : list (option R)) : list (option R) :=
  map (fun x => match x with Some v => if Rlt_dec v 0 then fill_of l else x | None => None end) l.
(** plot.py:666, 709-732 *)
Definition waterfall_rows (c : comp) (log : bool) (flags : list bool) (rows : list (list sample)) : list (option R) :=
  let p := map (wf_component c) (List.concat (map (fun fr => flag_row (fst fr) (snd fr)) (List.combine flags rows))) in
  match c with CReal | CImag => if log then fix_neg p else p | _ => p end.

(** ** delay_spectrum: series, titles and labels, plot.py:74-156, 353-436; plot.py:402-414 *)
Record meta := mkmeta { m_spw : pystr; m_blp : pystr; m_pol : pystr; m_lst : R }.
(** plot.py:130 *)
Inductive field := FSpw | FBlp | FPol | FLst.
(** plot.py:130 *)
Definition order4 : list field := [FSpw; FBlp; FPol; FLst].
(** plot.py:137-141 *)
Definition feq (f : field) (a b : meta) : bool :=
  match f with
  | FSpw => if list_eq_dec ascii_dec (m_spw a) (m_spw b) then true else false
  | FBlp => if list_eq_dec ascii_dec (m_blp a) (m_blp b) then true else false
  | FPol => if list_eq_dec ascii_dec (m_pol a) (m_pol b) then true else false
  | FLst => if Req_EM_T (m_lst a) (m_lst b) then true else false
  end.
(** len({metadata[field] for metadata in series_metadata}) > 1; plot.py:137-141 *)
Definition varies (ms : list meta) (f : field) : bool := match ms with [] => false | m :: _ => negb (forallb (feq f m) ms) end.
Section Labels.
(** f"{lst_hrs:0.3f}" of the LST in hours, plot.py:89-92 *)
Variable fmt3 : R -> pystr.
(** plot.py:91 *)
Definition lst_hours (l : R) : R := pymod l (2 * PI) * 12 / PI.
(** plot.py:131-136 *)
Definition field_label (f : field) (m : meta) : pystr :=
  match f with
  | FSpw => s_ "spw=" ++ m_spw m
  | FBlp => s_ "blpair=" ++ m_blp m
  | FPol => s_ "pol=" ++ m_pol m
  | FLst => s_ "lst=" ++ fmt3 (lst_hours (m_lst m)) ++ s_ " hr"
  end.
(** Python's [str.join], plot.py:149, 155 *)
Fixpoint joinS (sep : pystr) (l : list pystr) : pystr := match l with [] => [] | [x] => x | x :: l' => x ++ sep ++ joinS sep l' end.
(** plot.py:147 *)
Definition is_blp (f : field) : bool := match f with FBlp => true | _ => false end.
(** label_type = 'auto', title_legend = True: title, labels, whether there is a legend; plot.py:106-156 *)
Definition auto_title (avg : bool) (ms : list meta) : pystr * list (option pystr) * bool :=
  match ms with
  | [] => ([], [], false)
  | m :: _ =>
      let varying := filter (varies ms) order4 in
      let static := filter (fun f => negb (varies ms f)) order4 in
      let tf := filter (fun f => negb (avg && is_blp f)) static in
      let labels := map (fun m' => match varying with [] => None | _ => Some (joinS (s_ ", ") (map (fun f => field_label f m') varying)) end) ms in
      (joinS (s_ " | ") (map (fun f => field_label f m) tf), labels, existsb (fun l => match l with Some _ => true | None => false end) labels)
  end.
End Labels.
(** plot.py:325-329: the number that the size of the plot is judged by, and the number of spectra drawn; [rows b]: integrations of baseline-pair b in the plotted object *)
Definition too_many (ntimes : nat) (groups : list (list Z)) (force : bool) : bool := Nat.ltb 100 (ntimes * List.length groups) && negb force.
(** plot.py:355-419 *)
Definition drawn (avg : bool) (rows : Z -> nat) (groups : list (list Z)) : nat :=
  list_sum (map (fun g => if avg then match g with [] => 0%nat | b :: _ => rows b end else list_sum (map rows g)) groups).
(** plot.py:332-333, 541-544 (also 690-691 with 881-884, and 1101-1102 with 1229-1232) *)
Definition shown {A} (deltasq delay : bool) (convert : A -> A) (data : A) : A := if deltasq && negb delay then convert data else data.
(** plot.py:541-544, 881-884, 1229-1232 *)
Definition quantity_label (deltasq : bool) : string := if deltasq then "\Delta^2" else "P".

(** ** delay_waterfall: subplots and extent, plot.py:752-771, 810-877; plot.py:757-758 *)
Definition nside (nkeys : nat) : nat := Z.to_nat (Zceil (sqrt (INR nkeys))).
(** the key drawn in subplot (i, j), if any; plot.py:811-824, 877 *)
Definition subplot {A} (nhorz : nat) (keys : list A) (i j : nat) : option A := nth_error keys (i * nhorz + j).
(** plot.py:868 *)
Definition bottom (nhorz nkeys i j : nat) : bool := Nat.leb nkeys (i * nhorz + j + nhorz).
(** matshow(..., extent=[x[0], x[-1], ...]): the middle of pixel i of n; plot.py:828-836 *)
Definition pixel (x0 x1 : R) (n i : nat) : R := x0 + (INR i + 1 / 2) * ((x1 - x0) / INR n).

(** ** delay_wedge, plot.py:1077-1308 *)
(** axes: positions of the rows and the rows of data; [p]: np.argsort of the separations; plot.py:1092-1093 *)
Definition pick {A} (l : list A) (p : list nat) : list A := flat_map (fun i => match nth_error l i with Some a => [a] | None => [] end) p.
(** plot.py:1108-1114 *)
Definition wedge_axis (delay : bool) (kfac : R) (seps : list R) (p : list nat) : list R := if delay then pick seps p else map (fun s => s * kfac) seps.
(** plot.py:1137-1138 *)
Definition wedge_data {A} (rows : list A) (p : list nat) : list A := pick rows p.
(** plot.py:1268-1277 *)
Definition wedge_horizons (delay : bool) (kpar : R) (seps : list R) (p : list nat) : list R :=
  map (fun s => let h := s / u_c * 10 ^ 9 in if delay then h else h * (kpar / 10 ^ 9)) (pick seps p).
(** bin edges; plot.py:1176-1188 *)
Fixpoint mids (l : list R) : list R := match l with a :: ((b :: _) as l') => (a + (b - a) / 2) :: mids l' | _ => [] end.
(** plot.py:1176-1188 *)
Definition edges (l : list R) : list R :=
  match l with
  | a :: b :: _ => let n := List.length l in (a - (b - a) / 2) :: mids l ++ [nth (n - 1) l 0 + (nth (n - 1) l 0 - nth (n - 2) l 0) / 2]
  | _ => []
  end.
(** data[:, ::-1] and np.rot90(m, k=1) for a matrix with nc columns; plot.py:1172-1174 *)
Definition revcols {A} (nc : nat) (m : nat -> nat -> A) : nat -> nat -> A := fun i j => m i (nc - 1 - j)%nat.
(** plot.py:1172-1174 *)
Definition rot90 {A} (nc : nat) (m : nat -> nat -> A) : nat -> nat -> A := fun i j => m j (nc - 1 - i)%nat.
(** plot.py:1077-1079: [sel]: UVPSpec.select with given baseline-pairs and times *)
Definition wedge_select {U T} (sel : option (list Z) -> list T -> U -> U) (blps : option (list Z)) (times : option (list T)) (u : U) : U :=
  match times with Some ts => sel blps ts u | None => u end.

(** ** plot_uvdata_waterfalls: file names, plot.py:1417-1424; [pre {pol} mid {bl} post] or the other order; [str.lower], plot.py:1421 *)
Definition lower (c : ascii) : ascii := let n := nat_of_ascii c in if (Nat.leb 65 n && Nat.leb n 90)%bool then ascii_of_nat (n + 32) else c.
(** plot.py:1418 *)
Definition bl_id (a1 a2 : Z) : pystr := str_Z a1 ++ s_ "." ++ str_Z a2.
(** plot.py:1419-1422 *)
Definition with_format (out fmt : pystr) : result pystr :=
  let k := List.length fmt in
  let c := if Nat.eqb k 0 then nth_error out 0 else if Nat.ltb (List.length out) k then None else nth_error out (List.length out - k) in
  match c with
  | None => Err IndexError
  | Some c => Ok (if list_eq_dec ascii_dec [lower c] (map lower fmt) then out else out ++ s_ "." ++ fmt)
  end.

(** ** [_get_sigfig], [_round_sigfig], plot.py:1428-1437, for x <> 0 (for 0 the code raises OverflowError), and np.around(x, n); plot.py:1428-1429 *)
Definition r10 : radix := Build_radix 10 eq_refl.
(** plot.py:1428-1429 *)
Definition log10 (x : R) : R := ln x / ln 10.
(** plot.py:1428-1429 *)
Definition get_sigfig (x : R) : Z := (- Zfloor (log10 (Rabs x)))%Z.
(** plot.py:1432-1437 *)
Definition round_sigfig (up : bool) (x : R) : R :=
  let s := get_sigfig x in IZR ((if up then Zceil else Zfloor) (bpow r10 s * x)) / bpow r10 s.
(** np.around, plot.py:1207-1218 *)
Definition around (x : R) (n : Z) : R := IZR (ZnearestE (bpow r10 n * x)) / bpow r10 n.
(** plot.py:1207-1218 *)
Definition tick (x : R) : R := around x (get_sigfig x + 2).
