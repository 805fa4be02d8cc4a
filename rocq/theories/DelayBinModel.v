(** Model of the delay re-binning (grouping.py:2183-2325 and 2329-2505), over the reals, for one
    row (one baseline-pair-time, one polarization). Double-precision rounding is not modelled. *)
From Coq Require Import Reals.
From Verif Require Import Prelude AvgModel.
Open Scope Z_scope.

(** a Python [slice(a, b)]; Python slices as used at grouping.py:2183-2326 *)
Definition pslice : Type := Z * Z.

(** [l[a:b]] with Python's treatment of negative bounds; Python slices as used at grouping.py:2183-2326 *)
Definition py_norm (n a : Z) : Z := if a <? 0 then Z.max 0 (a + n) else Z.min a n.
(** Python slices as used at grouping.py:2183-2326 *)
Definition py_slice {A} (s : pslice) (l : list A) : list A :=
  let n := Z.of_nat (length l) in
  slice (Z.to_nat (py_norm n (fst s))) (Z.to_nat (py_norm n (snd s))) l.

(** grouping.py:2308-2312: [while low >= 0]; [None] when the fuel is used up *)
Fixpoint neg_loop (fuel : nat) (low nk : Z) : option (list pslice) :=
  match fuel with
  | O => None
  | S f => if low >=? 0
           then match neg_loop f (low - nk) nk with None => None | Some r => Some ((low, low + nk) :: r) end
           else Some []
  end.

(** grouping.py:2314-2318: [while high <= n] *)
Fixpoint pos_loop (fuel : nat) (n high nk : Z) : option (list pslice) :=
  match fuel with
  | O => None
  | S f => if high <=? n
           then match pos_loop f n (high + nk) nk with None => None | Some r => Some ((high - nk, high) :: r) end
           else Some []
  end.

(** grouping.py:2295-2325 for [n] delays with the zero delay at [z]: the slices and, aligned with
    them, whether the zero kernel ([true]) or the kernel is used. [Ok None]: the loops have not
    ended within the fuel. *)
Definition delay_slices (fuel : nat) (n z nk nzero : Z) : result (option (list (pslice * bool))) :=
  if nzero mod 2 =? 0 then Err ValueError else
  Ok (match neg_loop fuel (z - nk - nzero / 2) nk, pos_loop fuel n (z + 1 + nk + nzero / 2) nk with
      | Some neg, Some pos =>
          Some (map (fun s => (s, false)) (rev neg) ++ [((z - nzero / 2, z + 1 + nzero / 2), true)] ++ map (fun s => (s, false)) pos)
      | _, _ => None
      end).

(** [np.where(dly == 0)[0][0]]; grouping.py:2263-2326 [_get_delay_slices] *)
Fixpoint zero_index (k : Z) (dly : list R) : option Z :=
  match dly with [] => None | x :: l => if Req_EM_T x 0 then Some k else zero_index (k + 1) l end.

(** [d * kernel]: equal lengths, or one of them of length 1; summed; grouping.py:2183-2213 [_bin_data_like_array] *)
Definition weighted (d k : list R) : result (list R) :=
  if Nat.eqb (length d) (length k) then Ok (map (fun p => (fst p * snd p)%R) (combine d k))
  else match d, k with
       | [x], _ => Ok (map (Rmult x) k)
       | _, [y] => Ok (map (fun x => (x * y)%R) d)
       | _, _ => Err ValueError
       end.
(** grouping.py:2183-2213 [_bin_data_like_array] *)
Definition wsum (d k : list R) : result R := bind (weighted d k) (fun l : list R => Ok (Rsum l)).

(** grouping.py:2183-2212 [_bin_data_like_array] and line 2444 (the delays) *)
Definition bin_data (kernel zkernel : list R) (slices : list (pslice * bool)) (d : list R) : result (list R) :=
  map_res (fun s : pslice * bool => wsum (py_slice (fst s) d) (if snd s then zkernel else kernel)) slices.

(** [np.max] of a non-empty array of absolute values; grouping.py:2216-2242 [_bin_rms_like_array] *)
Definition maxabs (l : list R) : R := fold_right (fun x m => Rmax (Rabs x) m) 0%R l.

(** grouping.py:2215-2242 [_bin_rms_like_array], one slice *)
Definition rms_slice (vals kernel : list R) : result R :=
  match vals with
  | [] => Err ValueError (* np.max of an empty array *)
  | _ => let scale := maxabs vals in
         let scaled := if Req_EM_T scale 0 then map (fun _ => 0%R) vals else map (fun v => (Rabs v / scale)%R) vals in
         bind (wsum (map (fun v => (v ^ 2)%R) scaled) kernel) (fun s => Ok (scale * sqrt s)%R)
  end.
(** grouping.py:2216-2242 [_bin_rms_like_array] *)
Definition bin_rms (kernel zkernel : list R) (slices : list (pslice * bool)) (d : list R) : result (list R) :=
  map_res (fun s : pslice * bool => rms_slice (py_slice (fst s) d) (if snd s then zkernel else kernel)) slices.

(** [kernel /= np.sum(kernel)]; grouping.py:2329-2501 [average_in_delay_bins] *)
Definition normalise (k : list R) : list R := map (fun x => (x / Rsum k)%R) k.

(** grouping.py:2385-2505 on one row of one spectral window: the new delays, data and (standard-deviation like)
    statistic. [ntot] is [len(uvp.dly_array)], over all windows. *)
Definition average_in_delay_bins (fuel : nat) (ntot : nat) (kernel zkernel dly data stat : list R)
  : result (option (list R * list R * list R)) :=
  if (ntot / 2 <? length kernel)%nat then Err ValueError else
  if negb (if list_eq_dec Req_EM_T zkernel (rev zkernel) then true else false) then Err ValueError else
  let kernel := normalise kernel in let zkernel := normalise zkernel in
  match zero_index 0 dly with
  | None => Err IndexError
  | Some z =>
      bind (delay_slices fuel (Z.of_nat (length dly)) z (Z.of_nat (length kernel)) (Z.of_nat (length zkernel))) (fun o =>
      match o with
      | None => Ok None
      | Some sl =>
          bind (bin_data kernel zkernel sl data) (fun data' =>
          bind (bin_data kernel zkernel sl dly) (fun dly' =>
          bind (bin_rms kernel zkernel sl stat) (fun stat' => Ok (Some (dly', data', stat')))))
      end)
  end.
