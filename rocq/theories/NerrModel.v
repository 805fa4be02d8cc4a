(** Model of [utils.uvp_noise_error] (utils.py:1502-1729) and [utils.apply_P_SN_correction] over whole objects (utils.py:1783-1812):
    system temperatures from autocorrelations, P_N, P_SN and the statistics stored.  Exact arithmetic; autocorrelations are
    non-negative reals. *)
From Coq Require Import String.
From Coq Require Import Reals Lra.
From Verif Require Import Prelude PyDict CNum NoiseModel.
Open Scope R_scope.

(** ** one spectral window, baseline-pair and polarization *)
(** the UVData object of temperatures, one polarization: its LSTs over all baseline-times, and by antenna its times, data and flags; the UVData object auto_Tsys of utils.py:1502-1729 *)
Record autos := mkautos { at_freqs : list R; at_lst_array : list R; at_times : Z -> list R; at_data : Z -> nat -> nat -> R; at_flag : Z -> nat -> nat -> bool }.

(** utils.py:1563-1564: distinct LSTs in order of first appearance *)
Definition first_seen (l : list R) : list R := rev (nodup Req_EM_T (rev l)).
(** np.argmin(np.abs(freqs - f0)), utils.py:1581 *)
Fixpoint argmin_from (i : nat) (best : nat) (bv : R) (l : list R) : nat :=
  match l with [] => best | x :: l' => if Rlt_dec x bv then argmin_from (S i) i x l' else argmin_from (S i) best bv l' end.
(** utils.py:1581 *)
Definition argmin (l : list R) : nat := match l with [] => 0%nat | x :: l' => argmin_from 1 0 x l' end.
(** utils.py:1581 *)
Definition spw_start (a : autos) (f0 : R) : nat := argmin (map (fun f => Rabs (f - f0)) (at_freqs a)).
(** np.where(np.isclose(times, t, atol=1e-5, rtol=0))[0][0], utils.py:1603-1610 *)
Definition same_time (x t : R) : bool := if Rle_dec (Rabs (x - t)) (/ 10 ^ 5) then true else false.
(** utils.py:1603-1610 *)
Fixpoint match_from (i : nat) (l : list R) (t : R) : result nat :=
  match l with [] => Err IndexError | x :: l' => if same_time x t then Ok i else match_from (S i) l' t end.
(** utils.py:1603-1610 *)
Definition match_time (l : list R) (t : R) : result nat := match_from 0 l t.

(** np.sum, utils.py:1625-1671 *)
Definition rsumn (n : nat) (f : nat -> R) : R := rsum (map f (seq 0 n)).
(** ~flag as a number; utils.py:1625-1671 *)
Definition good (fl : bool) : R := if fl then 0 else 1.
(** utils.py:1625-1671 *)
Definition clip20 (x : R) : R := if Rle_dec (/ 10 ^ 20) x then x else / 10 ^ 20.
(** utils.py:1625-1671: geometric mean of the two antennas, flags of either, taper-weighted mean over the unflagged channels *)
Definition pairT (a : autos) (bl : Z * Z) (i f : nat) : R := sqrt (at_data a (fst bl) i f * at_data a (snd bl) i f).
(** utils.py:1625-1671 *)
Definition pairF (a : autos) (bl : Z * Z) (i f : nat) : bool := (at_flag a (fst bl) i f || at_flag a (snd bl) i f)%bool.
(** utils.py:1625-1671 *)
Definition meanT (a : autos) (bl : Z * Z) (start n : nat) (w : nat -> R) (i : nat) : R :=
  rsumn n (fun f => pairT a bl i (start + f) * good (pairF a bl i (start + f)) * w f) / clip20 (rsumn n (fun f => good (pairF a bl i (start + f)) * w f)).
(** np.all(Tflag, axis=-1); utils.py:1625-1671 *)
Definition allF (a : autos) (bl : Z * Z) (start n : nat) (i : nat) : bool := forallb (fun f => pairF a bl i (start + f)) (seq 0 n).

(** scipy's interp1d(kind="nearest", fill_value="extrapolate"): points sorted (stably) by abscissa; the index of the value is the
    number of midpoints below x; scipy.interpolate.interp1d as called in utils.py:1676-1689 *)
Fixpoint ins_pt (p : R * R) (l : list (R * R)) : list (R * R) :=
  match l with [] => [p] | q :: l' => if Rle_dec (fst p) (fst q) then p :: l else q :: ins_pt p l' end.
(** scipy.interpolate.interp1d as called in utils.py:1676-1689 *)
Definition sort_pts (l : list (R * R)) : list (R * R) := fold_right ins_pt [] l.
(** scipy.interpolate.interp1d as called in utils.py:1676-1689 *)
Fixpoint nearest_sorted (l : list (R * R)) (x : R) : R :=
  match l with
  | [] => 0
  | p :: l' => match l' with [] => snd p | q :: _ => if Rlt_dec ((fst p + fst q) / 2) x then nearest_sorted l' x else snd p end
  end.
(** scipy.interpolate.interp1d as called in utils.py:1676-1689 *)
Definition nearest (l : list (R * R)) (x : R) : R := nearest_sorted (sort_pts l) x.

(** the Tsys of utils.py:1589-1692 (inf, one value, or one per row) *)
Inductive temp := TempInf | TempAll (x : R) | TempRows (l : list R).
(** [r_*]: the rows of the baseline-pair in the power spectrum object; the time and LST arrays of the UVPSpec object, utils.py:1589-1610 *)
Record prow := mkprow { r_t1 : R; r_t2 : R; r_l1 : R; r_l2 : R }.
(** utils.py:1589-1692.  [bl1], [bl2]: the two baselines as antenna pairs; times are those of the first antenna of each *)
Definition interp_side (a : autos) (bl : Z * Z) (start n : nat) (w : nat -> R) (tinds : list nat) (xs : list R) : result (list R) :=
  bind (gather (first_seen (at_lst_array a)) tinds) (fun ls =>
  let pts := map (fun p => (fst p, meanT a bl start n w (snd p))) (filter (fun p => negb (allF a bl start n (snd p))) (combine ls tinds)) in
  Ok (map (nearest pts) xs)).
(** utils.py:1589-1692, the case distinction on the number of unflagged times *)
Definition count_good (a : autos) (bl : Z * Z) (start n : nat) (tinds : list nat) : nat := length (filter (fun i => negb (allF a bl start n i)) tinds).
(** utils.py:1578-1692 *)
Definition temperature (a : autos) (bl1 bl2 : Z * Z) (f0 : R) (n : nat) (w : nat -> R) (rows : list prow) : result temp :=
  let s := spw_start a f0 in
  bind (map_res (match_time (at_times a (fst bl1))) (map r_t1 rows)) (fun t1 =>
  bind (map_res (match_time (at_times a (fst bl2))) (map r_t2 rows)) (fun t2 =>
  (* a window past the end of the frequencies: the taper does not broadcast (except to one channel, not modelled) *)
  require (Nat.leb (s + n) (length (at_freqs a))) ValueError (
  if forallb (fun p => forallb (fun f => (pairF a bl1 (fst p) (s + f) || pairF a bl2 (snd p) (s + f))%bool) (seq 0 n)) (combine t1 t2) then Ok TempInf
  else if (Nat.ltb 1 (count_good a bl1 s n t1) && Nat.ltb 1 (count_good a bl2 s n t2))%bool then
    bind (interp_side a bl1 s n w t1 (map r_l1 rows)) (fun T1 =>
    bind (interp_side a bl2 s n w t2 (map r_l2 rows)) (fun T2 =>
    Ok (TempRows (map (fun p => sqrt (fst p * snd p)) (combine T1 T2)))))
  else match t1, t2 with
       | i :: _, j :: _ => Ok (TempAll (sqrt (meanT a bl1 s n w i * meanT a bl2 s n w j)))
       | _, _ => Err IndexError
       end))).

(** utils.py:1694-1703 with generate_noise_spectra (NoiseModel): the noise at one row.  An infinite temperature gives an infinite
    noise (positive scalar, integration time and nsample) *)
Definition row_temp (T : temp) (i : nat) : ext := match T with TempInf => Inf | TempAll x => Fin x | TempRows l => match nth_error l i with Some x => Fin x | None => NaN end end.
(** utils.py:1694-1703 with noise.py:20-90 *)
Definition row_noise (scalar tint nsamp : R) (T : ext) : ext :=
  match T with Fin x => match calc_P_N scalar x tint 1 (Some nsamp) "Pk" None "real" with Ok p => Fin p | Err _ => NaN end | x => x end.

(** ** the object *)
Section Obj.
(** keys: spectral window, baseline-pair, polarization pair, in the order of the loops *)
Context {Key : Type} (keys : list Key) (keq : forall a b : Key, {a = b} + {a <> b}).
(** real part of the data, and what lines 1620-1706 give for the key: row, delay *)
Context (data : Key -> nat -> nat -> R) (fromT : Key -> result (nat -> nat -> ext)).
(** whether the object of temperatures was given *)
Context (have_autos : bool).
(** uvp.stats_array, uvpspec.py:1066-1181 *)
Definition est := list (string * (Key -> nat -> nat -> ext)).
(** uvpspec.py:1106-1143 *)
Definition set_st (s : est) (name : string) (k : Key) (v : nat -> nat -> ext) : est :=
  let old := match dget string_dec s name with Some a => a | None => fun _ _ _ => NaN end in
  dset string_dec s name (fun k' => if keq k' k then v else old k').
(** uvpspec.py:1066-1104 *)
Definition get_st (s : est) (name : string) (k : Key) : result (nat -> nat -> ext) :=
  match dget string_dec s name with Some a => Ok (a k) | None => Err AssertionError end.
(** utils.py:1712-1721 *)
Definition psn_of (k : Key) (pn : nat -> nat -> ext) : nat -> nat -> ext := fun i d => P_SN (data k i d) (pn i d).
(** [in err_type], utils.py:1708-1726 *)
Definition has (e : string) (errs : list string) : bool := if in_dec string_dec e errs then true else false.
(** utils.py:1705-1723 *)
Definition key_step (errs : list string) (pre : option string) (k : Key) (s : est) : est * option pyerr :=
  match (match pre with None => fromT k | Some nm => get_st s nm k end) with
  | Err e => (s, Some e)
  | Ok pn =>
      let s1 := if has "P_N" errs then set_st s "P_N" k pn else s in
      (if has "P_SN" errs then set_st s1 "P_SN" k (psn_of k pn) else s1, None)
  end.
(** the loops of utils.py:1578-1723 *)
Fixpoint key_loop (errs : list string) (pre : option string) (ks : list Key) (s : est) : est * option pyerr :=
  match ks with
  | [] => (s, None)
  | k :: ks' => match key_step errs pre k s with (s', None) => key_loop errs pre ks' s' | r => r end
  end.
(** utils.py:1783-1812: every window, hence every key *)
Definition apply_correction (psn pn : string) (s : est) : est * option pyerr :=
  match dget string_dec s psn, dget string_dec s pn with
  | Some a, Some b => (dset string_dec s psn (fun k i d => corrected (b k i d) (a k i d)), None)
  | _, _ => (s, Some AssertionError)
  end.
(** utils.py:1558-1559 (err_type a string or a list) *)
Inductive errarg := EStr (e : string) | EList (l : list string).
(** utils.py:1558-1559 (err_type a string or a list) *)
Definition err_list (e : errarg) : list string := match e with EStr x => [x] | EList l => l end.
(** utils.py:1502-1729: auto_Tsys is read at 1563 (no precomputed noise) or at 1581 (always) *)
Definition noise_error (e : errarg) (pre : option string) (corr : bool) (s : est) : est * option pyerr :=
  if negb have_autos then (s, Some AttributeError) else
  match key_loop (err_list e) pre keys s with
  | (s', None) =>
      if (corr && has "P_SN" (err_list e))%bool then apply_correction "P_SN" (match pre with None => "P_N"%string | Some nm => nm end) s' else (s', None)
  | r => r
  end.
End Obj.
