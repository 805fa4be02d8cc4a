(** Vocabulary for laws that relate several calls on UVPSpec objects: nothing here models code that is not in UvpModel, FoldModel
    and AvgModel. *)
From Coq Require Import QArith Qabs Sorted Permutation.
From Verif Require Import PyDict.
From Verif Require Import Prelude ListLemmas UvpModel UvpSpec.
Open Scope nat_scope.

Section Law.
Context {X : Type}.
Notation uvp := (uvp X).

(** two dictionaries of arrays hold the same arrays under the same keys; specification vocabulary for laws of uvpspec.py:1637-1721 [select]; models no code *)
Definition same_dict (d d' : list (nat * arr X)) : Prop := forall s, dget Nat.eq_dec d s = dget Nat.eq_dec d' s.
(** specification vocabulary for laws of uvpspec.py:1637-1721 [select]; models no code *)
Definition same_opt (d d' : option (list (nat * arr X))) : Prop :=
  match d, d' with Some x, Some y => same_dict x y | None, None => True | _, _ => False end.

(** two objects are the same: every attribute is, the order of dictionary entries aside; specification vocabulary for laws of uvpspec.py:1637-1721 [select]; models no code *)
Record same_object (u v : uvp) : Prop := {
  so_folded : u_folded u = u_folded v;
  so_N : u_Nspws u = u_Nspws v;
  so_spw : u_spw_array u = u_spw_array v;
  so_sf : u_spw_freq_array u = u_spw_freq_array v;
  so_sd : u_spw_dly_array u = u_spw_dly_array v;
  so_f : u_freq_array u = u_freq_array v;
  so_d : u_dly_array u = u_dly_array v;
  so_sc : u_scalar_array u = u_scalar_array v;
  so_bp : u_blpair_array u = u_blpair_array v;
  so_t1 : u_time_1_array u = u_time_1_array v;
  so_t2 : u_time_2_array u = u_time_2_array v;
  so_ta : u_time_avg_array u = u_time_avg_array v;
  so_l1 : u_lst_1_array u = u_lst_1_array v;
  so_l2 : u_lst_2_array u = u_lst_2_array v;
  so_la : u_lst_avg_array u = u_lst_avg_array v;
  so_bl : u_bl_array u = u_bl_array v;
  so_bv : u_bl_vecs u = u_bl_vecs v;
  so_pp : u_polpair_array u = u_polpair_array v;
  so_da : same_dict (u_data u) (u_data v);
  so_wg : same_dict (u_wgt u) (u_wgt v);
  so_in : same_dict (u_integration u) (u_integration v);
  so_ns : same_dict (u_nsample u) (u_nsample v);
  so_co : same_opt (u_cov u) (u_cov v);
  so_wi : same_opt (u_window u) (u_window v);
  so_st : same_opt (u_stats u) (u_stats v);
  so_e1 : u_label_1_array u = u_label_1_array v;
  so_e2 : u_label_2_array u = u_label_2_array v;
  so_om : u_OmegaP u = u_OmegaP v }.
End Law.

(** the arguments of two calls of [select] in one; of an argument given twice the first is kept; specification vocabulary for laws of uvpspec.py:1637-1721 [select]; models no code *)
Definition orelse {A} (x y : option A) : option A := match x with Some _ => x | None => y end.
(** specification vocabulary for laws of uvpspec.py:1637-1721 [select]; models no code *)
Definition at_once (a b : select_args) : select_args :=
  {| a_spws := orelse (a_spws a) (a_spws b); a_bls := orelse (a_bls a) (a_bls b);
     a_only_pairs_in_bls := match a_bls a with Some _ => a_only_pairs_in_bls a | None => a_only_pairs_in_bls b end;
     a_blpairs := orelse (a_blpairs a) (a_blpairs b); a_times := orelse (a_times a) (a_times b);
     a_lsts := orelse (a_lsts a) (a_lsts b); a_polpairs := orelse (a_polpairs a) (a_polpairs b) |}.
(** no kind of argument is given in both calls; [bls] and [blpairs] are one kind (both choose baseline-pairs), and so are [times] and [lsts]; specification vocabulary for laws of uvpspec.py:1637-1721 [select]; models no code *)
Definition different_kinds (a b : select_args) : Prop :=
  (a_spws a = None \/ a_spws b = None) /\
  ((a_bls a = None /\ a_blpairs a = None) \/ (a_bls b = None /\ a_blpairs b = None)) /\
  ((a_times a = None /\ a_lsts a = None) \/ (a_times b = None /\ a_lsts b = None)) /\
  (a_polpairs a = None \/ a_polpairs b = None).
