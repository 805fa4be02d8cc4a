(** Specification vocabulary for UVPSpec selections: nothing here is used by the model. *)
From Coq Require Import QArith Qabs Sorted Permutation.
From Verif Require Import PyDict.
From Verif Require Import Prelude ListLemmas UvpModel.
Open Scope nat_scope.

Section Spec.
Context {X : Type}.
Notation uvp := (uvp X).

(** the dictionaries of spectrum-like arrays an object holds *)
Definition opt_list {A} (o : option A) : list A := match o with Some a => [a] | None => [] end.
Definition dicts (u : uvp) : list (list (nat * arr X)) :=
  [u_data u; u_wgt u; u_integration u; u_nsample u] ++
  opt_list (u_cov u) ++ opt_list (u_window u) ++ opt_list (u_stats u).

(** [d] has, for every window, an array with one row per blpair-time and one column per polpair *)
Definition shaped (u : uvp) (d : list (nat * arr X)) : Prop :=
  forall s, In s (u_spw_array u) -> exists a, dget Nat.eq_dec d s = Some a /\
    length a = length (u_blpair_array u) /\
    forall r, In r a -> length r = length (u_polpair_array u).

(** an object whose axes have consistent lengths and whose windows are numbered 0..Nspws-1 *)
Record wf (u : uvp) : Prop := {
  wf_spw : Permutation (u_spw_array u) (seq 0 (u_Nspws u));
  wf_freq : length (u_freq_array u) = length (u_spw_freq_array u);
  wf_dly : length (u_dly_array u) = length (u_spw_dly_array u);
  wf_freq_in : forall s, In s (u_spw_freq_array u) -> In s (u_spw_array u);
  wf_dly_in : forall s, In s (u_spw_dly_array u) -> In s (u_spw_array u);
  wf_scalar : length (u_scalar_array u) = length (u_spw_array u) /\
              forall r, In r (u_scalar_array u) -> length r = length (u_polpair_array u);
  wf_t1 : length (u_time_1_array u) = length (u_blpair_array u);
  wf_t2 : length (u_time_2_array u) = length (u_blpair_array u);
  wf_ta : length (u_time_avg_array u) = length (u_blpair_array u);
  wf_l1 : length (u_lst_1_array u) = length (u_blpair_array u);
  wf_l2 : length (u_lst_2_array u) = length (u_blpair_array u);
  wf_la : length (u_lst_avg_array u) = length (u_blpair_array u);
  wf_bl : length (u_bl_vecs u) = length (u_bl_array u);
  wf_dicts : forall d, In d (dicts u) -> shaped u d;
  wf_omega : forall r, In r (u_OmegaP u) -> length r = length (u_polpair_array u) }.

(** two times are the same for [select] *)
Definition close (t t' : Q) : Prop :=
  (Qabs (t - t') <= (1 # 100000000) + (1 # 10000000000000000) * Qabs t')%Q.

(** blpair-time number [i] is asked for: (no baseline argument, or its baselines match [bls],
    or its pair is in [blpairs]) and its time and LST match *)
Definition row_wanted (u : uvp) (a : select_args) (i : nat) : Prop :=
  exists b t l,
    nth_error (u_blpair_array u) i = Some b /\
    nth_error (u_time_avg_array u) i = Some t /\
    nth_error (u_lst_avg_array u) i = Some l /\
    ((a_bls a = None /\ a_blpairs a = None) \/
     (exists bls, a_bls a = Some bls /\
        if a_only_pairs_in_bls a then In (b / 1000000)%Z bls /\ In (b mod 1000000)%Z bls
        else In (b / 1000000)%Z bls \/ In (b mod 1000000)%Z bls) \/
     (exists bps, a_blpairs a = Some bps /\ In b bps)) /\
    (forall ts, a_times a = Some ts -> exists t', In t' ts /\ close t t') /\
    (forall ts, a_lsts a = Some ts -> exists l', In l' ts /\ close l l').

Definition pol_wanted (u : uvp) (a : select_args) (k : nat) : Prop :=
  exists p, nth_error (u_polpair_array u) k = Some p /\
    match a_polpairs a with None => True | Some pols => In p pols end.

(** windows asked for *)
Definition spw_wanted (a : select_args) (w : nat) : bool :=
  match a_spws a with None => true | Some spws => memN w spws end.

(** the new number of window [w]: how many kept windows come before it *)
Definition rank (kept : list nat) (w : nat) : nat := length (filter (fun x => x <? w) kept).
Definition spw_kept (u : uvp) (a : select_args) : list nat := filter (spw_wanted a) (u_spw_array u).
Definition no_row_args (a : select_args) : Prop :=
  a_bls a = None /\ a_blpairs a = None /\ a_times a = None /\ a_lsts a = None.

(** the row arrays of [u1] are the entries [R] of those of [u] *)
Record rows_picked (R : list nat) (u u1 : uvp) : Prop := {
  rp_bp : picks R (u_blpair_array u) (u_blpair_array u1);
  rp_t1 : picks R (u_time_1_array u) (u_time_1_array u1);
  rp_t2 : picks R (u_time_2_array u) (u_time_2_array u1);
  rp_ta : picks R (u_time_avg_array u) (u_time_avg_array u1);
  rp_l1 : picks R (u_lst_1_array u) (u_lst_1_array u1);
  rp_l2 : picks R (u_lst_2_array u) (u_lst_2_array u1);
  rp_la : picks R (u_lst_avg_array u) (u_lst_avg_array u1) }.

(** the array [a'] holds the rows [R] and columns [P] of [a] *)
Definition sub_array (R P : list nat) (a a' : arr X) : Prop :=
  exists rows, gather a R = Ok rows /\ Forall2 (fun r r' => gather r P = Ok r') rows a'.

(** what happens to one dictionary of arrays *)
Definition dict_selected (kept : list nat) (R P : list nat) (d d' : list (nat * arr X)) : Prop :=
  (forall w, In w kept -> exists a a', dget Nat.eq_dec d w = Some a /\
      dget Nat.eq_dec d' (rank kept w) = Some a' /\ sub_array R P a a') /\
  (forall s, dget Nat.eq_dec d' s <> None -> exists w, In w kept /\ s = rank kept w).

(** * a selection keeps rows [R], polarization pairs [P] and the wanted windows, in every array *)
Record select_spec (u : uvp) (a : select_args) (u' : uvp) (R P : list nat) : Prop := {
  (* the rows kept are exactly the wanted ones, in the original order *)
  sp_R_sorted : StronglySorted lt R;
  sp_R : forall i, In i R <-> i < length (u_blpair_array u) /\ row_wanted u a i;
  sp_P_sorted : StronglySorted lt P;
  sp_P : forall k, In k P <-> pol_wanted u a k;
  sp_R_ne : ~ no_row_args a -> R <> [];
  sp_P_ne : a_polpairs a <> None -> P <> [];
  sp_rows : rows_picked R u u';
  sp_pols : picks P (u_polpair_array u) (u_polpair_array u');
  (* windows are renumbered 0..n-1 in their original order *)
  sp_N : u_Nspws u' = length (spw_kept u a);
  sp_arr : u_spw_array u' = map (rank (spw_kept u a)) (spw_kept u a);
  sp_freq : combine (u_spw_freq_array u') (u_freq_array u') =
    map (fun p => (rank (spw_kept u a) (fst p), snd p))
        (filter (fun p => spw_wanted a (fst p)) (combine (u_spw_freq_array u) (u_freq_array u)));
  sp_dly : combine (u_spw_dly_array u') (u_dly_array u') =
    map (fun p => (rank (spw_kept u a) (fst p), snd p))
        (filter (fun p => spw_wanted a (fst p) &&
                  (negb (u_folded u) || dly_positive (snd p) ||
                   match a_spws a with None => true | Some _ => false end))
           (combine (u_spw_dly_array u) (u_dly_array u)));
  sp_freq_len : length (u_freq_array u') = length (u_spw_freq_array u');
  sp_dly_len : length (u_dly_array u') = length (u_spw_dly_array u');
  sp_folded : u_folded u' = u_folded u;
  sp_scalar : exists rows, picks (where_ (map (spw_wanted a) (u_spw_array u))) (u_scalar_array u) rows /\
                Forall2 (fun r r' => picks P r r') rows (u_scalar_array u');
  sp_omega : Forall2 (fun r r' => picks P r r') (u_OmegaP u) (u_OmegaP u');
  sp_bl : (no_row_args a /\ u_bl_array u' = u_bl_array u) \/
          (~ no_row_args a /\
           u_bl_array u' = filter (fun bl => existsb (fun b => (bl =? b / 1000000)%Z || (bl =? b mod 1000000)%Z)
                                                     (u_blpair_array u')) (u_bl_array u));
  sp_bl_len : length (u_bl_vecs u') = length (u_bl_array u');
  (* every dictionary of arrays keeps the same rows, columns and windows *)
  sp_dicts : Forall2 (dict_selected (spw_kept u a) R P) (dicts u) (dicts u');
  sp_label1 : u_label_1_array u' = u_label_1_array u;
  sp_label2 : u_label_2_array u' = u_label_2_array u }.

(** arguments for which a selection is possible *)
Record valid_args (u : uvp) (a : select_args) : Prop := {
  va_spws : forall spws, a_spws a = Some spws -> forall s, In s spws ->
              In s (u_spw_freq_array u) /\ In s (u_spw_dly_array u);
  va_bls : a_bls a <> Some [];
  va_blpairs : a_blpairs a <> Some [];
  va_time_lst : a_times a = None \/ a_lsts a = None;
  va_row : no_row_args a \/ exists i, row_wanted u a i;
  va_pols : a_polpairs a = None \/ exists k, pol_wanted u a k }.


(** the delays of window [s], in order *)
Definition window_dlys (u : uvp) (s : nat) : list Q :=
  map snd (filter (fun p => Nat.eqb s (fst p)) (combine (u_spw_dly_array u) (u_dly_array u))).

(** every stored spectrum of a window has as many bins as the window has delays *)
Definition widths (u : uvp) : Prop :=
  forall s a r c, In s (u_spw_array u) -> dget Nat.eq_dec (u_data u) s = Some a -> In r a -> In c r ->
    length c = length (window_dlys u s).

(** the delays of every window are the shifted FFT delays: bin [j] of [N] is at
    [(j - N/2) * step], with [step] at least the 1e-10 s that the code calls zero *)
Definition fft_delays (u : uvp) : Prop :=
  forall s, In s (u_spw_array u) -> exists step : Q, (1 # 10000000000 <= step)%Q /\
    forall j d, nth_error (window_dlys u s) j = Some d ->
      (d == (inject_Z (Z.of_nat j) - inject_Z (Z.of_nat (length (window_dlys u s) / 2))) * step)%Q.
End Spec.
