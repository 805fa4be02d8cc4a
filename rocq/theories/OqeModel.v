(** Model of the quadratic estimator: [utils.get_Q_alt], [PSpecData.q_hat], [get_G], [get_H],
    [get_unnormed_E], [get_unnormed_V], [get_MW], [p_hat] and [cov_p_hat], over exact complex numbers
    ([CNum]; double-precision rounding is not modelled). An array is a function of its indices together
    with explicit dimensions; entries beyond the dimensions are meaningless. The weighting matrices R and
    the data x that [self.R] and [self.x] return are inputs (they are modelled in PdModel). *)
From Coq Require Import Reals String.
From Verif Require Import Prelude CNum.
Open Scope R_scope.

(** numpy arrays of pspecdata.py:1483-2849 with one or two axes *)
Definition vec := nat -> C.
(** numpy arrays of pspecdata.py:1483-2849 with one or two axes *)
Definition mat := nat -> nat -> C.
(** [np.dot] of an [_, n] and an [n, _] array; numpy operations used in pspecdata.py:1483-2849 and utils.py:1832-1914 *)
Definition mmul (n : nat) (a b : mat) : mat := fun i j => csum n (fun k => (a i k * b k j)%C).
(** [np.conj(R).T]; numpy operations used in pspecdata.py:1483-2849 and utils.py:1832-1914 *)
Definition ctrans (a : mat) : mat := fun i j => Cconj (a j i).
(** [np.einsum("ab,ba", a, b)], a is n x m; numpy operations used in pspecdata.py:1483-2849 and utils.py:1832-1914 *)
Definition trace2 (n m : nat) (a b : mat) : C := csum n (fun i => csum m (fun j => (a i j * b j i)%C)).
(** numpy operations used in pspecdata.py:1483-2849 and utils.py:1832-1914 *)
Definition madd (a b : mat) : mat := fun i j => (a i j + b i j)%C.
(** numpy operations used in pspecdata.py:1483-2849 and utils.py:1832-1914 *)
Definition mscale (c : C) (a : mat) : mat := fun i j => (c * a i j)%C.
(** elementwise product [a * b]; numpy operations used in pspecdata.py:1483-2849 and utils.py:1832-1914 *)
Definition mhad (a b : mat) : mat := fun i j => (a i j * b i j)%C.
(** numpy operations used in pspecdata.py:1483-2849 and utils.py:1832-1914 *)
Definition mconj (a : mat) : mat := fun i j => Cconj (a i j).
(** [np.eye], [np.diag]; np.eye, np.diag, pspecdata.py:2483-2637 *)
Definition eye : mat := fun i j => if Nat.eqb i j then C1 else C0.
(** np.eye, np.diag, pspecdata.py:2483-2637 *)
Definition diag (d : vec) : mat := fun i j => if Nat.eqb i j then d i else C0.

(** [np.fft.fft] of a length-n vector, by its definition; numpy.fft, utils.py:1894-1903; pspecdata.py:1580-1610 *)
Definition fft (n : nat) (x : vec) : vec :=
  fun k => csum n (fun j => (x j * Cexpi (- (2 * PI * INR k * INR j / INR n)))%C).
(** [np.fft.fftshift] rolls by n // 2, [np.fft.ifftshift] by - (n // 2); numpy.fft, utils.py:1894-1903; pspecdata.py:1580-1610 *)
Definition fftshift (n : nat) (x : vec) : vec := fun a => x ((a + (n - n / 2)) mod n)%nat.
(** numpy.fft, utils.py:1894-1903; pspecdata.py:1580-1610 *)
Definition ifftshift (n : nat) (x : vec) : vec := fun a => x ((a + n / 2) mod n)%nat.

(** utils.py:1898-1901: [-n_delays / 2] for even, [-(n_delays - 1) / 2] for odd [n_delays] *)
Definition start_idx (nd : nat) : R :=
  if Nat.even nd then - (INR nd / 2) else - ((INR nd - 1) / 2).

(** utils.py:1896-1903: the vector m, by FFT or by the explicit exponential *)
Definition m_fft (nf mode : nat) : vec :=
  fft nf (ifftshift nf (fun a => if Nat.eqb a mode then C1 else C0)).
(** utils.py:1896-1903 *)
Definition m_exp (nd mode : nat) (phase : R) : vec :=
  fun j => Cexpi (- (2 * PI * ((start_idx nd + INR mode) * (INR j - phase)) / INR nd)).

(** utils.py:1832-1906: the shape [n_freqs + n_extend] and the matrix; [mode] may be any integer.
    [n_extend] is a channel count (an int in every call of the package). *)
Definition get_Q_alt (mode : Z) (nd nf : nat) (allow_fft : bool) (n_extend : nat) (phase : R)
  : result (nat * mat) :=
  if (Z.geb mode (Z.of_nat nd) || Z.ltb mode 0)%bool then Err IndexError
  else
    let a := Z.to_nat mode in
    let n := (nf + n_extend)%nat in
    let ph := if Nat.eqb n_extend 0 then 0 else phase in
    let m := if (Nat.eqb nd n && allow_fft)%bool then m_fft n a else m_exp nd a ph in
    Ok (n, fun i j => (Cconj (m i) * m j)%C).

(** utils.py:1909-1910 *)
Definition get_Q_alt_tensor (nd nf : nat) (allow_fft : bool) (n_extend : nat) (phase : R)
  : result (list (nat * mat)) :=
  map_res (fun a => get_Q_alt (Z.of_nat a) nd nf allow_fft n_extend phase) (seq 0 nd).

(** the matrix of an in-range mode, as the loops [for ch in range(spw_Ndlys)] use it; utils.py:1832-1914 as used in pspecdata.py:1612-1859 *)
Definition Qm (nd nf : nat) (allow_fft : bool) (n_extend : nat) (phase : R) (a : nat) : mat :=
  match get_Q_alt (Z.of_nat a) nd nf allow_fft n_extend phase with
  | Ok (_, q) => q
  | Err _ => fun _ _ => C0
  end.

(** pspecdata.py:1540-1558: [Rx = sum_k R(k) x(k)] over the keys given (a single key is a list of one).
    [ne] is the number of channels including the filter extension, R is spw_Nfreqs x ne, x is ne x Ntimes. *)
Definition Rx (ne : nat) (keys : list (mat * mat)) : mat :=
  fun i t => fold_right Cadd C0 (map (fun k => mmul ne (fst k) (snd k) i t) keys).

(** pspecdata.py:1564-1610. [beam] is [del_tau * integral_beam] as a function of two channels,
    used only with [exact_norm]. The result is indexed by delay and time. *)
Definition q_hat (nd nf ne : nat) (keys1 keys2 : list (mat * mat))
                 (allow_fft exact_norm : bool) (del_tau : R) (beam : mat) : result mat :=
  let r1 := Rx ne keys1 in
  let r2 := Rx ne keys2 in
  if (exact_norm && allow_fft)%bool then Err NotImplementedError
  else if exact_norm then
    Ok (fun a t =>
          let q := mhad (mscale (RtoC del_tau) (Qm nd nf true 0 0 a)) beam in
          (RtoC (/ 2) * csum nf (fun i => (Cconj (r1 i t) * mmul nf q r2 i t)%C))%C)
  else if (allow_fft && Nat.eqb nf nd)%bool then
    Ok (fun a t => (RtoC (/ 2) * Cconj (fftshift nf (fft nf (fun i => r1 i t)) a)
                    * fftshift nf (fft nf (fun i => r2 i t)) a)%C)
  else
    Ok (fun a t =>
          (RtoC (/ 2) * csum nf (fun i => (Cconj (r1 i t) * mmul nf (Qm nd nf true 0 0 a) r2 i t)%C))%C).

(** [np.count_nonzero(G) == 0]; pspecdata.py:1682-1686 *)
Definition all_zero (n : nat) (g : mat) : Prop := forall i j, (i < n)%nat -> (j < n)%nat -> g i j = C0.
(** pspecdata.py:1682-1686 *)
Definition Ceqb (a b : C) : bool :=
  if Req_EM_T (re a) (re b) then if Req_EM_T (im a) (im b) then true else false else false.
(** pspecdata.py:1682-1686 *)
Definition all_zerob (n : nat) (g : mat) : bool :=
  forallb (fun i => forallb (fun j => Ceqb (g i j) C0) (seq 0 n)) (seq 0 n).

(** pspecdata.py:1654-1686 (get_G) and 1757-1797 (get_H): [weight] multiplies Q2 elementwise: all ones
    in get_G and in get_H with [sampling], the sinc matrix otherwise. [qn1], [qn2] are the [qnorm] arrays
    ([del_tau * integral_beam] with exact_norm, ones without). *)
Definition raw_response (nd nf ext : nat) (phase : R) (R1 R2 : mat) (qn weight : mat) : mat :=
  let ne := (nf + ext)%nat in
  fun i j =>
    let Q1 := mhad (Qm nd nf true 0 0 i) qn in
    let Q2 := mhad (mhad (Qm nd nf true ext phase j) qn) weight in
    trace2 ne nf (mmul nf (ctrans R1) Q1) (mmul ne R2 Q2).
(** pspecdata.py:1612-1686, 1688-1797 *)
Definition response (nd nf ext : nat) (phase : R) (R1 R2 qn weight : mat) : mat :=
  let g := raw_response nd nf ext phase R1 R2 qn weight in
  fun i j => ((if all_zerob nd g then eye i j else g i j) / RtoC 2)%C.

(** pspecdata.py:1654-1686 *)
Definition ones : mat := fun _ _ => C1.
(** [np.sinc(x) = sin(pi x) / (pi x)]; pspecdata.py:1757-1763 *)
Definition np_sinc (x : R) : R := if Req_EM_T x 0 then 1 else sin (PI * x) / (PI * x).
(** pspecdata.py:1757-1763 *)
Definition sinc_matrix (n : nat) : mat := fun i j => RtoC (np_sinc ((INR i - INR j) / INR n)).

(** pspecdata.py:1612-1686 *)
Definition get_G (nd nf ext : nat) (phase : R) (R1 R2 qn : mat) : mat :=
  response nd nf ext phase R1 R2 qn ones.
(** pspecdata.py:1688-1797 *)
Definition get_H (nd nf ext : nat) (phase : R) (R1 R2 qn : mat) (sampling : bool) : mat :=
  response nd nf ext phase R1 R2 qn (if sampling then ones else sinc_matrix (nf + ext)).

(** pspecdata.py:1847-1859 (get_unnormed_E); with [exact_norm] the beam multiplies [np.dot(Q, R2)] *)
Definition get_E (nd nf : nat) (R1 R2 : mat) (exact_norm : bool) (del_tau : R) (beam : mat) (a : nat) : mat :=
  let QR2 := mmul nf (Qm nd nf true 0 0 a) R2 in
  let QR2' := if exact_norm then mhad (mscale (RtoC del_tau) beam) QR2 else QR2 in
  mscale (RtoC (/ 2)) (mmul nf (ctrans R1) QR2').

(** pspecdata.py:1951-1976 (get_unnormed_V), given the covariance models *)
Definition get_V (ne : nat) (E : nat -> mat) (C1' C2' P21 S21 : mat) : mat :=
  fun a b =>
    (trace2 ne ne (mmul ne (E a) C2') (mmul ne (ctrans (E b)) C1')
     + trace2 ne ne (mmul ne (E a) P21) (mmul ne (mconj (E b)) S21))%C.

(** [np.sum(G, axis=1)]; pspecdata.py:2548-2622 *)
Definition rowsum (n : nat) (g : mat) : vec := fun i => csum n (fun j => g i j).

(** pspecdata.py:2548-2622 (get_MW). [inv] stands for what [np.linalg.inv] returns (or [np.linalg.pinv]
    when it raises), [vmh] for the matrix V^-1/2 built from [np.linalg.eigh]; what is needed of them is
    stated in the theorems. [has_covar] is [band_covar is not None]. Division by zero gives 0 here where
    numpy gives inf or nan: the theorems ask for non-zero denominators. *)
Definition get_MW (n : nat) (G H : mat) (mode : string) (exact_norm has_covar : bool) (inv vmh : mat)
  : result (mat * mat) :=
  if negb (existsb (String.eqb mode) ["H^-1"; "V^-1/2"; "I"; "L^-1"]%string) then Err AssertionError
  else if (negb (String.eqb mode "I") && exact_norm)%bool then Err NotImplementedError
  else if String.eqb mode "H^-1" then
    let W := mmul n inv H in
    let norm := rowsum n W in
    Ok (inv, fun i j => (W i j / norm i)%C)
  else if String.eqb mode "V^-1/2" then
    if has_covar then
      let norm := rowsum n (mmul n vmh H) in
      let M := mmul n (diag (fun i => C1 / norm i)%C) vmh in
      Ok (M, mmul n M H)
    else Err ValueError
  else if String.eqb mode "I" then
    Ok (diag (fun i => C1 / rowsum n G i)%C, mmul n (diag (fun i => C1 / rowsum n H i)%C) H)
  else Err NotImplementedError.

(** pspecdata.py:2593-2601: V^-1/2 from the retained eigenvalues and eigenvectors (k of them, columns of
    [u]): [eigvects . diag(1 / sqrt(eigvals)) . eigvects.T] (transposed, not conjugated) *)
Definition v_minus_half (k : nat) (ev : nat -> R) (u : mat) : mat :=
  fun i j => csum k (fun l => (u i l * RtoC (1 / sqrt (ev l)) * u j l)%C).

(** pspecdata.py:2829 *)
Definition p_hat (n : nat) (M q : mat) : mat := mmul n M q.
(** pspecdata.py:2845-2849, one time: [einsum("ab,cd,bd->ac", M, M, q_cov)] *)
Definition cov_p_hat (n : nat) (M qc : mat) : mat :=
  fun a c => csum n (fun b => csum n (fun d => (M a b * M c d * qc b d)%C)).
