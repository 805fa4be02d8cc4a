(** Simulations of testing.py: [noise_sim] (341-477), [gauss_cov_fg] (480-523), [sky_noise_jy_autos] (526-579), [sky_noise_sim] (582-720)
    and the baseline-pairs of [uvpspec_from_data] (190-338). Real numbers are exact; [None] is a value that is not finite. The random
    number generator is a state [G] with arbitrary draws. Files, pyuvdata's check and the order of rows in the sum of two
    UVData objects are not modelled (rows are appended). *)
From Coq Require Import Reals.
From Verif Require Import Prelude CNum CovqModel GetModel DlyModel UtilsModel.
Open Scope R_scope.

(** ** UVData: a row per baseline and time; arrays over channel and polarization; the UVData attributes used by testing.py:341-477 *)
Record row := mkrow { r_time : R; r_lst : R; r_int : R; r_ns : nat -> nat -> R; r_flag : nat -> nat -> bool; r_dat : nat -> nat -> option C }.
(** the UVData attributes used by testing.py:341-477 *)
Record uv := mkuv { u_rows : list row; u_nf : nat; u_cw : nat -> R; u_pols : list Z; u_unproj : bool }.
(** the UVData attributes used by testing.py:341-477 *)
Definition with_rows (u : uv) (l : list row) : uv := mkuv l (u_nf u) (u_cw u) (u_pols u) (u_unproj u).

(** np.unique of real numbers: sorted, adjacent repetitions removed; testing.py:417-431 (np.unique of times and lsts) *)
Fixpoint dedup (l : list R) : list R :=
  match l with
  | x :: (y :: _) as t => if Req_EM_T x y then dedup t else x :: dedup t
  | _ => l
  end.
(** testing.py:417-431 (np.unique of times and lsts) *)
Definition uniqueR (l : list R) : list R := dedup (sortR l).
(** Python's remainder, testing.py:417-431 *)
Definition modR (x m : R) : R := x - m * IZR (Int_part (x / m)).

(** testing.py:407-409 *)
Definition whitened (u : uv) : uv :=
  with_rows u (map (fun r => mkrow (r_time r) (r_lst r) (r_int r) (fun _ _ => 1) (fun _ _ => false) (r_dat r)) (u_rows u)).
(** testing.py:417-431: the copy that is added is shifted further in each turn *)
Definition shift_row (dt dl : R) (r : row) : row := mkrow (r_time r + dt) (modR (r_lst r + dl) (2 * PI)) (r_int r) (r_ns r) (r_flag r) (r_dat r).
(** testing.py:417-431 *)
Fixpoint extend_from (dt dl nt : R) (i n : nat) (copy acc : list row) : list row :=
  match n with
  | O => acc
  | S n' => let c := map (shift_row (dt * nt * INR (i + 1)) (dl * nt * INR (i + 1))) copy in extend_from dt dl nt (S i) n' c (acc ++ c)
  end.
(** testing.py:417-431 *)
Definition extended (n : nat) (u : uv) : uv :=
  let ts := uniqueR (map r_time (u_rows u)) in
  let dt := medianR (diffsR ts) in let dl := medianR (diffsR (uniqueR (map r_lst (u_rows u)))) in
  with_rows u (extend_from dt dl (INR (length ts)) 0 n (u_rows u) (u_rows u)).

(** testing.py:441-460 *)
Definition is_pstokes (p : Z) : bool := existsb (Z.eqb p) [1; 2; 3; 4]%Z.
(** testing.py:441-460 *)
Definition polcorr (p : Z) : R := if is_pstokes p then sqrt 2 else 1.
(** testing.py:433-460; [conv]: Jy_to_mK of the beam by channel and polarization *)
Definition rms (tsys : R) (conv : option (nat -> Z -> R)) (cw : nat -> R) (int ns : R) (f : nat) (p : Z) : option R :=
  let q := int * ns * cw f in
  if Rlt_dec 0 q then
    let trms := tsys / sqrt q / polcorr p in
    Some (match conv with None => trms | Some j => 1000 / j f p / polcorr p * trms end)
  else None.

Section Rng.
Variables (G : Type) (seedg : Z -> G) (entropy : G) (draw : G -> nat -> list R * G).
(** testing.py:462-470; [z]: standard normal deviates, in the order of the flattened array *)
Definition noisy (tsys : R) (conv : option (nat -> Z -> R)) (u : uv) (z1 z2 : list R) : uv :=
  let np := length (u_pols u) in
  with_rows u (map (fun br =>
     let b := fst br in let r := snd br in
     let idx := fun f p => ((b * u_nf u + f) * np + p)%nat in
     let v := fun f p => rms tsys conv (u_cw u) (r_int r) (r_ns r f p) f (nth p (u_pols u) 0%Z) in
     mkrow (r_time r) (r_lst r) (r_int r) (r_ns r)
       (fun f p => match v f p with None => true | Some _ => r_flag r f p end)
       (fun f p => match v f p with None => None
                   | Some s => Some (mkC (nth (idx f p) z1 0 / sqrt 2 * s) (nth (idx f p) z2 0 / sqrt 2 * s)) end))
    (combine (seq 0 (length (u_rows u))) (u_rows u))).
(** the object of the caller after the call, the generator, and what is returned ([Ok None]: None); testing.py:341-477 *)
Definition noise_sim (u : uv) (tsys : R) (conv : option (nat -> Z -> R)) (nextend : nat) (seed : option Z) (inplace whiten : bool) (g : G)
  : uv * G * result (option uv) :=
  let w := if whiten then whitened u else u in
  let mine := if inplace then w else u in
  if Nat.ltb 0 nextend && negb (u_unproj u) then (mine, g, Err AssertionError)
  else
  let d := if Nat.ltb 0 nextend then extended nextend w else w in
  let g0 := match seed with Some s => seedg s | None => g end in
  let size := (length (u_rows d) * u_nf d * length (u_pols d))%nat in
  let '(z1, g1) := draw g0 size in
  let '(z2, g2) := draw g1 size in
  let res := noisy tsys conv d z1 z2 in
  if inplace then (if Nat.ltb 0 nextend then mine else res, g2, Ok None) else (mine, g2, Ok (Some res)).

(** ** gauss_cov_fg, 506-523. [mvn]: draws of a multivariate normal distribution of zero mean, one list per draw *)
Variable mvn : G -> (nat -> nat -> R) -> nat -> nat -> list (list R) * G.
(** testing.py:480-523 *)
Definition gcov (amp scale : R) (fr : nat -> R) (i j : nat) : R := amp * exp (- (((fr i - fr j) / scale) ^ 2)).
(** testing.py:480-523 *)
Definition gauss_cov_fg (amp scale : R) (fr : nat -> R) (nf nt : nat) (const : bool) (g : G) : (nat -> nat -> C) * G :=
  let C := gcov amp scale fr in
  if const then
    let '(s, g') := mvn g C nf 2 in
    (fun t f => mkC (nth f (nth 0 s []) 0) (nth f (nth 1 s []) 0), g')
  else
    let '(s, g') := mvn g C nf (2 * nt) in
    (fun t f => mkC (nth f (nth t s []) 0) (nth f (nth (nt + t) s []) 0), g').

(** ** sky_noise_jy_autos, 557-579, for arrays over time and channel *)
Definition Jy2K (c kb omega fr : R) : R := / 10 ^ 26 * (c / fr) ^ 2 / (2 * kb * omega).
(** testing.py:526-579 *)
Definition jy_rms (c kb autov omega fr int cw trx : R) : R :=
  let j := Jy2K c kb omega fr in (autov * j + trx) / sqrt (int * cw) / j.
(** testing.py:526-579 *)
Definition sky_noise_jy_autos (c kb : R) (nt nf : nat) (autov : nat -> nat -> option R) (omega fr : nat -> R) (int cw trx : R) (g : G)
  : (nat -> nat -> option C) * G :=
  let '(x1, g1) := draw g (nt * nf) in
  let '(x2, g2) := draw g1 (nt * nf) in
  (fun t f => match autov t f with
              | None => None
              | Some a => let s := jy_rms c kb a (omega f) (fr f) int cw trx in
                          Some (mkC (nth (t * nf + f) x1 0 / sqrt 2 * s) (nth (t * nf + f) x2 0 / sqrt 2 * s))
              end, g2).

(** ** sky_noise_sim. Baselines with polarization; [k_stokes]: pQ, pU or pV; [auto_pol]: in AUTOVISPOLS *)
Section Sky.
Variables (Pol : Type) (pol_dec : forall a b : Pol, {a = b} + {a <> b}) (auto_pol qu_v : Pol -> bool) (pI : Pol).
(** testing.py:582-720, the keys of the dictionaries *)
Definition key := (Z * Z * Pol)%type.
(** testing.py:582-720, the keys of the dictionaries *)
Definition key_dec : forall a b : key, {a = b} + {a <> b}.
Proof. intros [[a b] p] [[c d] q]. destruct (Z.eq_dec a c), (Z.eq_dec b d), (pol_dec p q); subst; try (left; reflexivity); right; congruence. Defined.
(** data, numbers of samples and the listed keys of the object; [s_crosshand]: -7 or -8 among the polarizations; the UVData attributes used by testing.py:582-720 *)
Record skyuv := mksky { s_keys : list key; s_data : key -> nat -> nat -> C; s_ns : key -> nat -> nat -> R; s_crosshand : bool }.
(** testing.py:661, 666 *)
Definition is_auto (k : key) : bool := let '(a, b, p) := k in Z.eqb a b.
(** testing.py:663-671: a polarization other than pI takes the autocorrelations of pI; these must be in the object *)
Definition auto_of (u : skyuv) (a : Z) (p : Pol) : result (nat -> nat -> R) :=
  if (if in_dec key_dec (a, a, p) (s_keys u) then auto_pol p else false) then
    let q := if qu_v p then pI else p in
    if in_dec key_dec (a, a, q) (s_keys u) then Ok (fun t f => re (s_data u (a, a, q) t f)) else Err KeyError
  else Err KeyError.
(** np.sqrt, nan on negative numbers, testing.py:526-579, 688, 703 *)
Definition rsqrt (x : R) : option R := if Rle_dec 0 x then Some (sqrt x) else None.
(** testing.py:699-703 *)
Definition by_samples (ns : R) (x : C) : option C :=
  if Rle_dec (Rabs ns) (/ 10 ^ 8) then Some C0 else
  if Rlt_dec 0 ns then Some (mkC (re x / sqrt ns) (im x / sqrt ns)) else None.
(** propagation of a value that is not finite (Coq helper; testing.py:582-720) *)
Definition bindo {A B} (x : option A) (f : A -> option B) : option B := match x with Some a => f a | None => None end.
(** the arguments of testing.py:582-720 *)
Record skypar := mkpar { p_c : R; p_kb : R; p_omega : Pol -> nat -> R; p_fr : nat -> R; p_nf : nat; p_nt : nat; p_int : R; p_cw : R;
                         p_amp : R; p_scale : R; p_per_bl : bool; p_in_time : bool; p_seed : option Z; p_bynsamp : bool }.
(** testing.py:686-718: one cross-correlation; [sig]: the common signal if there is one *)
Definition one_bl (par : skypar) (u : skyuv) (sig : option (nat -> nat -> C)) (k : key) (g : G) : result (nat -> nat -> option C) * G :=
  let '(a, b, p) := k in
  match bind (auto_of u a p) (fun x => bind (auto_of u b p) (fun y => Ok (x, y))) with
  | Err e => (Err e, g)
  | Ok (x, y) =>
      let '(n, g1) := sky_noise_jy_autos (p_c par) (p_kb par) (p_nt par) (p_nf par) (fun t f => rsqrt (x t f * y t f)) (p_omega par p) (p_fr par) (p_int par) (p_cw par) 0 g in
      let n := if p_bynsamp par then fun t f => bindo (n t f) (by_samples (s_ns u k t f)) else n in
      let '(s, g2) := match sig with Some s => (s, g1) | None => gauss_cov_fg (p_amp par) (p_scale par * 1000000) (p_fr par) (p_nf par) (p_nt par) (p_in_time par) g1 end in
      (Ok (fun t f => bindo (n t f) (fun z => Some (z + s t f)%C)), g2)
  end.
(** the loop: the filled keys; testing.py:684-718 *)
Fixpoint sky_loop (par : skypar) (u : skyuv) (sig : option (nat -> nat -> C)) (ks : list key) (g : G) : result (list (key * (nat -> nat -> option C))) * G :=
  match ks with
  | [] => (Ok [], g)
  | k :: ks' => let '(r, g1) := one_bl par u sig k g in
                match r with
                | Err e => (Err e, g1)
                | Ok v => let '(rs, g2) := sky_loop par u sig ks' g1 in (bind rs (fun l => Ok ((k, v) :: l)), g2)
                end
  end.
(** testing.py:663-671: all listed autocorrelations of these polarizations are read *)
Definition read_autos (u : skyuv) : result (list (nat -> nat -> R)) :=
  map_res (fun k : key => let '(a, b, p) := k in auto_of u a p) (filter (fun k : key => is_auto k && auto_pol (snd k)) (s_keys u)).
(** the data of the returned object; the caller's object is copied; testing.py:582-720 *)
Definition sky_noise_sim (par : skypar) (u : skyuv) (g : G) : result (key -> nat -> nat -> option C) * G :=
  if s_crosshand u then (Err AssertionError, g)
  else match read_autos u with
  | Err e => (Err e, g)
  | Ok _ =>
    let '(sig, g1) := if p_per_bl par then let '(s, g') := gauss_cov_fg (p_amp par) (p_scale par * 1000000) (p_fr par) (p_nf par) (p_nt par) (p_in_time par) g in (Some s, g') else (None, g) in
    let g2 := match p_seed par with Some s => seedg s | None => entropy end in
    let '(r, g3) := sky_loop par u sig (filter (fun k => negb (is_auto k)) (s_keys u)) g2 in
    (bind r (fun l => Ok (fun k t f => match find (fun kv => if key_dec (fst kv) k then true else false) l with Some kv => snd kv t f | None => Some (s_data u k t f) end)), g3)
  end.
End Sky.
End Rng.
Arguments noise_sim {G}. Arguments gauss_cov_fg {G}. Arguments sky_noise_jy_autos {G}. Arguments sky_noise_sim {G} seedg entropy draw mvn {Pol}.
Arguments sky_loop {G} draw mvn {Pol}. Arguments one_bl {G} draw mvn {Pol}. Arguments auto_of {Pol}. Arguments is_auto {Pol}. Arguments key_dec {Pol}. Arguments read_autos {Pol}.
Arguments mksky {Pol}. Arguments s_keys {Pol}. Arguments s_data {Pol}. Arguments s_ns {Pol}. Arguments s_crosshand {Pol}. Arguments mkpar {Pol}.
Arguments p_per_bl {Pol}. Arguments p_seed {Pol}. Arguments p_in_time {Pol}. Arguments p_bynsamp {Pol}. Arguments p_omega {Pol}. Arguments p_int {Pol}. Arguments p_cw {Pol}. Arguments p_c {Pol}. Arguments p_kb {Pol}. Arguments p_fr {Pol}. Arguments p_nt {Pol}. Arguments p_nf {Pol}. Arguments p_amp {Pol}. Arguments p_scale {Pol}.

(** ** uvpspec_from_data, testing.py:304-320: the two lists of baselines given to pspec. An element of bl_grps is a group (list) or a baseline (tuple) *)
Inductive blarg (A : Type) := AGroup (l : list (blarg A)) | ATuple (b : A) | AOther.
Arguments AGroup {A}. Arguments ATuple {A}. Arguments AOther {A}.
(** isinstance tests, testing.py:304-320 *)
Definition is_group {A} (x : blarg A) : bool := match x with AGroup _ => true | _ => false end.
(** isinstance tests, testing.py:304-320 *)
Definition is_tuple {A} (x : blarg A) : bool := match x with ATuple _ => true | _ => false end.
Section From.
Context {A : Type} (eqb : A -> A -> bool).
(** testing.py:304-320 *)
Definition group_items (x : blarg A) : list (blarg A) := match x with AGroup l => l | _ => [] end.
(** testing.py:304-320 *)
Definition first_tuple (x : blarg A) : result bool := match group_items x with [] => Err IndexError | y :: _ => Ok (is_tuple y) end.
(** baselines after the first of a group are taken as they are (only those that are tuples are modelled); testing.py:304-320 *)
Definition tuples (l : list (blarg A)) : result (list A) := map_res (fun x => match x with ATuple b => Ok b | _ => Err TypeError end) l.
(** testing.py:304-320 *)
Definition from_data_bls (arg : blarg A) : result (list A * list A) :=
  match arg with
  | AGroup l0 =>
      match l0 with
      | [] => Err IndexError
      | x :: _ =>
          let grps := if is_group x then l0 else [AGroup l0] in
          require (forallb is_group grps) AssertionError (
          bind (map_res first_tuple grps) (fun fs => require (forallb (fun b : bool => b) fs) AssertionError (
          bind (map_res (fun g => bind (tuples (group_items g)) (fun bls => construct_blpairs eqb bls true false true)) grps) (fun rs =>
          Ok (concat (map (fun r => fst (fst r)) rs), concat (map (fun r => snd (fst r)) rs))))))
      end
  | _ => Err AssertionError
  end.
End From.
