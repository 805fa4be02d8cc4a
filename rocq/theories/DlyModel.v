(** Model of the delays, of the physical-unit response matrix and of the beam integral:
    [utils.get_delays], [PSpecData.delays], [PSpecData.get_Q], [PSpecBeamUV.beam_normalized_response] and
    [PSpecData.get_integral_beam], and of [FTBeam.gaussian], [FTBeam.from_file], [FTBeam.get_bandwidth].
    Exact arithmetic; nan is [None]. *)
From Coq Require Import String Ascii.
From Coq Require Import Reals.
From Verif Require Import Prelude CNum PyStr CovqModel GetModel WinModel.
Open Scope R_scope.

(** ** np.fft.fftfreq(n, d) and np.fft.fftshift of a length-n array; numpy's fftfreq and fftshift as called at utils.py:544-571 [get_delays] *)
Definition fftfreq (n : nat) (d : R) (k : nat) : R :=
  (let m := ((n - 1) / 2 + 1)%nat in
   if (k <? m)%nat then INR k else - INR (n / 2) + INR (k - m)) * (1 / (INR n * d)).
(** numpy's fftfreq and fftshift as called at utils.py:544-571 [get_delays] *)
Definition shifted (n : nat) (x : nat -> R) : list R := map (fun i => x ((i + (n - n / 2)) mod n)%nat) (seq 0 n).

(** ** utils.py:544-571.  The median of no differences is nan *)
Definition get_delays (freqs : list R) (ndlys : option nat) : option (list R) :=
  let n := match ndlys with None => length freqs | Some n => n end in
  match diffsR freqs with [] => None | ds => Some (shifted n (fftfreq n (medianR ds))) end.

(** ** pspecdata.py:2982-3005, in ns.  [window]: the frequencies of the spectral window *)
Definition delays (ndsets : nat) (window : list R) (ndlys : option nat) : result (option (list R)) :=
  if Nat.eqb ndsets 0 then Err IndexError
  else Ok (option_map (map (fun t => t * 10 ^ 9)) (get_delays window ndlys)).

(** ** pspecdata.py:2777-2811.  A negative mode indexes the delays from their end *)
Definition py_index (n : nat) (m : Z) : result nat :=
  if (m <? 0)%Z then (if (0 <=? m + Z.of_nat n)%Z then Ok (Z.to_nat (m + Z.of_nat n)) else Err IndexError)
  else if (m <? Z.of_nat n)%Z then Ok (Z.to_nat m) else Err IndexError.
(** pspecdata.py:2777-2811 [get_Q] *)
Definition get_Q (ndsets : nat) (window : list R) (ndlys : option nat) (mode : Z) : result (option (nat -> nat -> C)) :=
  let n := match ndlys with None => length window | Some n => n end in
  if (Z.of_nat n <=? mode)%Z then Err IndexError else
  bind (delays ndsets window (Some n)) (fun ds =>
  match ds with
  | None => bind (py_index n mode) (fun _ => Ok None)
  | Some l =>
      bind (py_index (length l) mode) (fun i =>
      let tau := nth i l 0 * / 10 ^ 9 in
      let e := fun j => Cexpi (- (2 * PI * tau * nth j window 0)) in
      Ok (Some (fun i j => (Cconj (e i) * e j)%C)))
  end).

(** ** PSpecBeamUV.beam_normalized_response, pspecbeam.py:482-545.  [b_interp] is UVBeam._interp_freq: for the frequencies asked
    for, the response of (polarization index, frequency index, pixel).  Polarization strings are numbered by pyuvdata. *)
Record uvbeam := mkuvbeam {
  b_power : bool; b_naxes : nat; b_peak : bool; b_healpix : bool;
  b_nside : nat; b_npix : nat; b_pols : list Z;
  b_interp : list R -> nat -> nat -> nat -> R }.
(** pspecbeam.py:482-545 [beam_normalized_response] *)
Fixpoint index_of (p : Z) (l : list Z) : option nat :=
  match l with [] => None | x :: r => if Z.eqb x p then Some O else option_map S (index_of p r) end.
(** pspecbeam.py:482-545 [beam_normalized_response] *)
Definition rsumn (n : nat) (f : nat -> R) : R := fold_right Rplus 0 (map f (seq 0 n)).
(** pspecbeam.py:482-545 [beam_normalized_response] *)
Definition normalized_response (b : uvbeam) (pol : Z) (freqs : list R) : result ((nat -> nat -> R) * (nat -> R)) :=
  require (b_power b) ValueError (require (Nat.leb (b_naxes b) 1) ValueError (
  require (b_peak b) ValueError (require (b_healpix b) ValueError (
  match index_of pol (b_pols b) with
  | None => Err ValueError
  | Some i =>
      let res := b_interp b freqs i in
      Ok (res, fun f => rsumn (b_npix b) (res f) * PI / (3 * INR (b_nside b) ^ 2))
  end)))).

(** ** get_integral_beam, pspecdata.py:2735-2775.  [None]: a beam without that method (Gaussian, from array) or no beam at all *)
Definition get_integral_beam (beam : option uvbeam) (pol : Z) (window : list R) : result (nat -> nat -> R) :=
  match beam with
  | None => Ok (fun _ _ => 1)
  | Some b =>
      bind (normalized_response b pol window) (fun ro =>
      let prod := fun f p => fst ro f p * (1 / snd ro f) in
      Ok (fun i j => PI / (3 * INR (b_nside b) * INR (b_nside b)) * rsumn (b_npix b) (fun p => prod i p * prod j p)))
  end.

(** ** FTBeam.gaussian, uvwindow.py:168-237: maps as functions of (row, column) *)
Inductive widths_arg := WScalar (w : R) | WList (l : list R).
(** uvwindow.py:168-237 [gaussian] *)
Definition ft_x (npix : nat) (mapsize : R) : list R :=
  shifted npix (fun k => fftfreq npix 1 k * INR npix / 2 / mapsize).
(** uvwindow.py:168-237 [gaussian] *)
Definition gauss_map (npix : nat) (mapsize wdeg : R) (y x : nat) : R :=
  let w := wdeg * PI / 180 in
  let fw := 1 / PI / w in
  let u := ft_x npix mapsize in
  exp (-1 * (nth x u 0 ^ 2 + nth y u 0 ^ 2) / fw ^ 2) * (PI / 2 / mapsize) * w ^ 2.
(** uvwindow.py:168-237 [gaussian] *)
Definition gaussian (num2str : Z -> string) (freqs : list R) (widths : widths_arg) (pol : polarg) (mapsize : R) (npix : nat)
  : result (ftbeam (nat -> nat -> R)) :=
  require (negb (Nat.leb (length freqs) 2)) ValueError (
  bind (match widths with
        | WScalar w => Ok (map (fun _ => w) freqs)
        | WList l => require (Nat.eqb (length l) (length freqs)) ValueError (Ok l) end) (fun ws =>
  new_ftbeam num2str 3 npix npix (map (gauss_map npix mapsize) ws) pol freqs mapsize)).

(** ** FTBeam.from_file, uvwindow.py:117-165, and get_bandwidth, 239-270.  A file: its existence and format, map size, frequencies,
    and maps (of [s1] by [s2] pixels). The path is a string; [str(Path(p))] is taken to be [p] *)
Record ftfile (A : Type) := mkfile { f_ok : bool; f_map : R; f_freq : list R; f_data : list A; f_s1 : nat; f_s2 : nat }.
Arguments mkfile {A}. Arguments f_ok {A}. Arguments f_map {A}. Arguments f_freq {A}. Arguments f_data {A}. Arguments f_s1 {A}. Arguments f_s2 {A}.
(** uvwindow.py:117-165 [from_file] *)
Definition ch_us : ascii := "_"%char.
(** uvwindow.py:117-165 [from_file] *)
Definition ch_dot : ascii := "."%char.
(** [str(ftfile).split("_")[-1].split(".")[0]]; uvwindow.py:117-165 [from_file] *)
Definition file_pol (path : pystr) : pystr := hd [] (PyStr.split ch_dot (last (PyStr.split ch_us path) [])).
(** uvwindow.py:117-165 [from_file] *)
Definition from_file {A} (num2str : Z -> string) (path : pystr) (f : ftfile A) (spw_range : option (list Z)) : result (ftbeam A) :=
  require (f_ok f) ValueError (
  let pol := string_of_list_ascii (file_pol path) in
  bind (match spw_range with
        | None => Ok (f_freq f, f_data f)
        | Some r =>
            require (check_spw_range r (Some (length (f_freq f)))) ValueError (
            match r with
            | [a; b] => Ok (slice (Z.to_nat a) (Z.to_nat b) (f_freq f), slice (Z.to_nat a) (Z.to_nat b) (f_data f))
            | _ => Err ValueError end)
        end) (fun fd =>
  new_ftbeam num2str 3 (f_s1 f) (f_s2 f) (snd fd) (PolStr pol) (fst fd) (f_map f))).
(** uvwindow.py:239-270 [get_bandwidth] *)
Definition get_bandwidth {A} (f : ftfile A) : result (list R) :=
  require (f_ok f) ValueError (require (negb (Nat.leb (length (f_freq f)) 1)) ValueError (Ok (f_freq f))).
