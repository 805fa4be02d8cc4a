(** Model of noise.py, loss.py and the error-bar functions of utils.py / uvpspec.py (exact real arithmetic; infinities and
    nan are values, since flagged spectra carry an infinite noise). *)
From Coq Require Import String.
From Coq Require Import Reals Lra.
From Verif Require Import Prelude PyDict CNum.
Open Scope R_scope.

(** ** noise.calc_P_N, noise.py:20-90 *)
Definition calc_P_N (scalar Tsys t_int : R) (Ncoherent : R) (Nincoherent : option R) (form : string) (k : option R) (component : string) : result R :=
  require (if string_dec form "Pk" then true else if string_dec form "DelSq" then true else false) AssertionError (
  require (if string_dec component "abs" then true else if string_dec component "real" then true else if string_dec component "imag" then true else false) AssertionError (
  let p := scalar * (Tsys * 1000) ^ 2 in
  let p := p / (t_int * Ncoherent) in
  let p := match Nincoherent with Some n => p / sqrt n | None => p end in
  let p := if string_dec component "real" then p / sqrt 2 else if string_dec component "imag" then p / sqrt 2 else p in
  if string_dec form "DelSq" then
    match k with Some k => Ok (p * k ^ 3 / (2 * PI ^ 2)) | None => Err AssertionError end
  else Ok p)).

(** ** UVPSpec.generate_noise_spectra, uvpspec.py:2506-2673, for one window and polarization pair.
    A row is a baseline-pair-time: its baseline-pair, integration time, nsample and |k| at each delay. *)
Record nrow := mknrow { nblp : Z; ntint : R; nnsamp : R; nk : list R }.
(** the UVPSpec attributes read by uvpspec.py:2506-2674 *)
Record nobj := mknobj { nrows : list nrow; nNtpairs : nat; nNdlys : nat }.
(** the argument Tsys of uvpspec.py:2506-2674 (float, array, or dictionary of these by baseline-pair) *)
Inductive tsys := TFloat (x : R) | TArr (l : list R).
(** the argument Tsys of uvpspec.py:2506-2674 (float, array, or dictionary of these by baseline-pair) *)
Inductive tsysarg := AVal (t : tsys) | ADict (d : list (Z * tsys)).
(** lines 2626-2629: a single value becomes an array of Ntpairs entries, one array for all baseline-pairs *)
Definition tsys_of (o : nobj) (a : tsysarg) (blp : Z) : result tsys :=
  match a with
  | AVal (TFloat x) => Ok (TArr (repeat x (nNtpairs o)))
  | AVal (TArr l) => Ok (TArr l)
  | ADict d => match dget Z.eq_dec d blp with Some t => Ok t | None => Err KeyError end
  end.
(** self.blpair_to_indices(blp), in row order; an absent one is an assertion error; uvpspec.py:1312-1338, used in 2506-2674 *)
Definition rows_of (o : nobj) (blp : Z) : list nrow := filter (fun r => Z.eqb (nblp r) blp) (nrows o).
(** uvpspec.py:2635-2674, the calls of noise.calc_P_N *)
Definition noise_row (scalar : R) (form component : string) (ndly : nat) (T : R) (r : nrow) : result (list R) :=
  if string_dec form "DelSq" then map_res (fun k => calc_P_N scalar T (ntint r) 1 (Some (nnsamp r)) form (Some k) component) (nk r)
  else bind (calc_P_N scalar T (ntint r) 1 (Some (nnsamp r)) form None component) (fun p => Ok (repeat (1 * p) ndly)).
(** uvpspec.py:2635-2674, the calls of noise.calc_P_N *)
Fixpoint noise_rows (scalar : R) (form component : string) (ndly : nat) (Ts : list R) (rs : list nrow) {struct rs} : result (list (list R)) :=
  match rs with
  | [] => Ok []
  | r :: rs' => match Ts with
                | [] => Err IndexError
                | T :: Ts' => bind (noise_row scalar form component ndly T r) (fun x => bind (noise_rows scalar form component ndly Ts' rs') (fun xs => Ok (x :: xs)))
                end
  end.
Definition noise_blp (o : nobj) (scalar : R) (a : tsysarg) (form component : string) (blp : Z) : result (Z * list (list R)) :=
  let rs := rows_of o blp in
  require (negb (Nat.eqb (length rs) 0)) AssertionError (
  bind (tsys_of o a blp) (fun t =>
  match t with
  | TFloat _ => (* passes the assertion at 2636; Tsys[blp][j] at 2657 *) match rs with [] => Ok (blp, []) | _ => Err TypeError end
  | TArr l => require (Nat.eqb (length l) (nNtpairs o)) AssertionError
                (bind (noise_rows scalar form component (nNdlys o) l rs) (fun xs => Ok (blp, xs)))
  end)).
Definition generate_noise_spectra (o : nobj) (scalar : R) (a : tsysarg) (blpairs : list Z) (form component : string) : result (list (Z * list (list R))) :=
  map_res (noise_blp o scalar a form component) blpairs.

(** ** Signal-plus-noise errors *)
(** numpy floats: finite, infinite, not a number; used for utils.py:1502-1729, 1783-1812 *)
Inductive ext := Fin (x : R) | Inf | NaN.
(** products and sums of non-negative extended numbers (0 * inf is nan); IEEE arithmetic as used in utils.py:1712-1721, 1783-1812 *)
Definition xmul (a b : ext) : ext :=
  match a, b with
  | Fin x, Fin y => Fin (x * y)
  | Fin x, Inf | Inf, Fin x => if Rlt_dec 0 x then Inf else NaN
  | Inf, Inf => Inf
  | _, _ => NaN
  end.
(** IEEE arithmetic as used in utils.py:1712-1721, 1783-1812 *)
Definition xadd (a b : ext) : ext :=
  match a, b with Fin x, Fin y => Fin (x + y) | NaN, _ | _, NaN => NaN | _, _ => Inf end.
(** IEEE arithmetic as used in utils.py:1712-1721, 1783-1812 *)
Definition xsqrt (a : ext) : ext := match a with Fin x => Fin (sqrt x) | x => x end.
(** utils.py:1712-1721 *)
Definition nan_to_inf (a : ext) : ext := match a with NaN => Inf | x => x end.
(** utils.py:1712-1721: P_SN from the data and P_N (non-negative) *)
Definition P_SN (data : R) (pn : ext) : ext :=
  let ps := if Rlt_dec data 0 then 0 else data in
  nan_to_inf (xsqrt (xadd (xmul (xmul (Fin (sqrt 2)) (Fin ps)) pn) (xmul pn pn))).
(** utils.py:1783-1812 apply_P_SN_correction, one entry: the correction factor and the corrected value; utils.py:1783-1812 *)
Definition kappa : R := sqrt (1 / sqrt PI + 1) - 1.
(** utils.py:1783-1812, the guard against division by zero *)
Definition tiny : R := / 10 ^ 40.
(** utils.py:1783-1812, the guard against division by zero *)
Definition close0 (x : R) : bool := if Rle_dec (Rabs x) (/ 10 ^ 8) then true else false.
(** utils.py:1783-1812 *)
Definition correction (pn psn : ext) : ext :=
  match pn, psn with
  | Fin n, Fin s =>
      let c := 1 - kappa * n / (if Rle_dec tiny s then s else tiny) in
      if close0 c then Inf else if Rlt_dec c 0 then Inf else Fin c
  | Fin n, Inf => Fin (1 - 0)
  | Inf, Fin s => (* 1 - inf < 0 *) Inf
  | _, _ => (* nan *) Inf
  end.
(** utils.py:1783-1812 *)
Definition corrected (pn psn : ext) : ext := xmul psn (correction pn psn).

(** ** Integration time of a product, pspecdata.py:4024-4066: weighted mean nsample over channels, effective integration times,
    and their inverse average; pspecdata.py:4028-4038 *)
Definition rsum (l : list R) : R := fold_right Rplus 0 l.
(** pspecdata.py:4028-4038 *)
Definition clip1 (x : R) : R := if Rle_dec 1 x then x else 1.
(** pspecdata.py:4028-4038 *)
Definition mean_nsamp (ns ws : list R) : R := rsum (map (fun p => fst p * snd p) (combine ns ws)) / clip1 (rsum ws).
(** pspecdata.py:4048-4066 *)
Definition pol_integ (i1 i2 : R) : R := if Rlt_dec 0 i1 then if Rlt_dec 0 i2 then 2 / (1 / i1 + 1 / i2) else 0 else 0.

(** ** loss.apply_bias_correction, loss.py:8-53.  Arrays are lists of reals per spectral window. the UVPSpec attributes of loss.py:8-53 *)
Record luvp := mkluvp { lspws : list Z; ldata : Z -> list R; lcovr : option (Z -> list R); lcovi : Z -> list R; lstats : list (string * (Z -> list R)) }.
(** loss.py:38-53, the assignments [array[spw] *= ...] *)
Definition scale (c : R) (l : list R) : list R := map (fun x => x * c) l.
(** loss.py:38-53, the assignments [array[spw] *= ...] *)
Definition at_spw (s : Z) (g : list R -> list R) (f : Z -> list R) : Z -> list R := fun z => if Z.eqb z s then g (f z) else f z.
(** loss.py:38-53 *)
Definition bias_total (c : R) (s : Z) (u : luvp) : luvp :=
  mkluvp (lspws u) (at_spw s (scale c) (ldata u))
    (match lcovr u with Some f => Some (at_spw s (scale (c ^ 2)) f) | None => None end)
    (match lcovr u with Some _ => at_spw s (scale (c ^ 2)) (lcovi u) | None => lcovi u end)
    (map (fun p => (fst p, at_spw s (scale c) (snd p))) (lstats u)).
(** loss.py:38-53 *)
Definition bias_data (c : R) (s : Z) (u : luvp) : luvp := mkluvp (lspws u) (at_spw s (scale c) (ldata u)) (lcovr u) (lcovi u) (lstats u).
(** the loop body; [None] = argument not given; returns the state reached also when it fails; loss.py:38-53 *)
Definition bias_step (total data : option (list (Z * R))) (s : Z) (u : luvp) : luvp * option pyerr :=
  match total with
  | Some d => match dget Z.eq_dec d s with
              | None => (u, Some KeyError)
              | Some c => let u := bias_total c s u in
                  match data with
                  | Some d' => match dget Z.eq_dec d' s with None => (u, Some KeyError) | Some c' => (bias_data c' s u, None) end
                  | None => (u, None)
                  end
              end
  | None => match data with
            | Some d' => match dget Z.eq_dec d' s with None => (u, Some KeyError) | Some c' => (bias_data c' s u, None) end
            | None => (u, None)
            end
  end.
(** loss.py:38-53 *)
Fixpoint bias_loop (total data : option (list (Z * R))) (ss : list Z) (u : luvp) : luvp * option pyerr :=
  match ss with
  | [] => (u, None)
  | s :: ss' => match bias_step total data s u with (u', None) => bias_loop total data ss' u' | r => r end
  end.
(** the object passed, after the call, and the result; loss.py:8-53 *)
Definition apply_bias_correction (total data : option (list (Z * R))) (inplace : bool) (u : luvp) : luvp * result luvp :=
  let '(u', e) := bias_loop total data (lspws u) u in
  (if inplace then u' else u, match e with None => Ok u' | Some e => Err e end).

(** ** noise.get_approximate_delay_delay_corr_matrix, noise.py:272-297; scipy's circulant(c)[i, j] = c[(i - j) mod n]; noise.py:272-297 *)
Definition dft (n : nat) (x : nat -> R) (k : Z) : C := csum n (fun f => RtoC (x f) * Cexpi (- (2 * PI * IZR k / INR n * INR f)))%C.
(** noise.py:272-297 *)
Definition delay_cov (n : nat) (w : nat -> R) (k : Z) : R := Cabs2 (dft n (fun f => w f ^ 2) k).
(** noise.py:272-297 *)
Fixpoint rmax (n : nat) (f : nat -> R) : R := match n with O => f O | S m => Rmax (rmax m f) (f (S m)) end.
(** noise.py:272-297 *)
Definition corr_matrix (n : nat) (w : nat -> R) (i j : nat) : R :=
  delay_cov n w ((Z.of_nat i - Z.of_nat j) mod Z.of_nat n) / rmax (n - 1) (fun k => delay_cov n w (Z.of_nat k)).
(** uvpspec.py:2945-2973 add_approximate_covariance for one row and polarization: nf channels, stat array pn of length ndly *)
Definition approx_cov (nf ndly : nat) (w : nat -> R) (pn : nat -> R) : result (nat -> nat -> R) :=
  require (Nat.eqb nf ndly) ValueError (Ok (fun i j => pn i * pn j * corr_matrix nf w i j)).

(** ** utils.uvd_to_Tsys, utils.py:1426-1499: the factor applied to each polarization slot of the data array.
    [pols] are the polarization names of the data in axis order, all in AUTOVISPOLS; [leb] is Python's string order. *)
Fixpoint insert_s (leb : string -> string -> bool) (x : string) (l : list string) : list string :=
  match l with [] => [x] | y :: l' => if leb x y then x :: l else y :: insert_s leb x l' end.
(** [sorted] and [list.index] of polarization names, utils.py:1426-1499 *)
Definition sorted_s (leb : string -> string -> bool) (l : list string) : list string := fold_right (insert_s leb) [] l.
(** [sorted] and [list.index] of polarization names, utils.py:1426-1499 *)
Fixpoint index_of (x : string) (l : list string) : option nat :=
  match l with [] => None | y :: l' => if string_dec x y then Some O else match index_of x l' with Some i => Some (S i) | None => None end end.
(** each pol p multiplies slot pols_sorted.index(p) by J2K[p] (line 1493-1494) *)
Definition tsys_slot (leb : string -> string -> bool) (pols : list string) (p : string) : option nat := index_of p (sorted_s leb pols).
