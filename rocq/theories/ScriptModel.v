(** Model of the command-line scripts in scripts/ and of the argument parsers they use: generate_pstokes_run.py:1-30
    (with pstokes.py:520-563), auto_noise_run.py:1-38 (with utils.py:1732-1780), bootstrap_run.py:1-20 (with
    grouping.py:2080-2180), psc_merge_spectra.py:1-30 (with container.py:512-520, 632-663), pspec_red.py:57-151 and
    pspec_run.py:1-27 (with pspecdata.py:5190-5489).
    Not modelled: argparse itself (the parsed arguments are given), profiling and logging by hera_cal (a script's [main]
    is simply called), what is printed, and the contents of the files read besides the polarizations. *)
From Coq Require Import String.
From Verif Require Import Prelude PyDict CNum PstokesModel.
Open Scope nat_scope.
Open Scope string_scope.

(** -- a Python call: which argument goes to which parameter -- *)

(** the values that occur as defaults (a float is kept as its source text); grouping.py:1930-1946, 2080-2180 [bootstrap_run, get_bootstrap_run_argparser],
    pspecdata.py:4500-4555, 5190-5489 [pspec_run, get_pspec_run_argparser] *)
Inductive pyval := VNone | VBool (b : bool) | VInt (z : Z) | VStr (s : string) | VFloat (s : string) | VList (l : list pyval).
(** a parameter: its name and its default, if any; the [def] lines grouping.py:1930-1946, pspecdata.py:3270-3299, 4500-4555, container.py:512-520 *)
Definition signature := list (string * option pyval).

(** the positional arguments go to the first parameters; a keyword must name a parameter that has no value yet; the calls at
    scripts/bootstrap_run.py:20, psc_merge_spectra.py:23-30, pspec_red.py:123-136, pspec_run.py:25-27 *)
Fixpoint fill (sig : signature) (pos : list pyval) (kw : list (string * pyval)) : result (list (string * pyval)) :=
  match sig with
  | [] => match pos with [] => Ok [] | _ => Err TypeError end
  | (p, d) :: sig' =>
      match pos with
      | v :: pos' =>
          match dget string_dec kw p with
          | Some _ => Err TypeError
          | None => bind (fill sig' pos' kw) (fun r => Ok ((p, v) :: r))
          end
      | [] =>
          match (match dget string_dec kw p with Some v => Some v | None => d end) with
          | Some v => bind (fill sig' [] kw) (fun r => Ok ((p, v) :: r))
          | None => Err TypeError
          end
      end
  end.
(** a call with positional and keyword arguments: the values of all parameters, or a TypeError; the calls at
    scripts/bootstrap_run.py:20, psc_merge_spectra.py:23-30, pspec_red.py:123-136, pspec_run.py:25-27 *)
Definition py_call (sig : signature) (pos : list pyval) (kw : list (string * pyval)) : result (list (string * pyval)) :=
  if forallb (fun e => existsb (String.eqb (fst e)) (map fst sig)) kw then fill sig pos kw else Err TypeError.

(** -- generate_pstokes_run.py -- *)

(** the value of --pstokes: a list when it is given (nargs="+"), the text "pI" when it is not; pstokes.py:536-542 *)
Inductive strarg := AStr (s : string) | AList (l : list string).
(** iteration over it: over the items of a list, over the characters of a text; generate_pstokes_run.py:25 *)
Fixpoint chars (s : string) : list string := match s with EmptyString => [] | String c s' => String c EmptyString :: chars s' end.
(** generate_pstokes_run.py:25 *)
Definition items (a : strarg) : list string := match a with AStr s => chars s | AList l => l end.

(** the arguments, pstokes.py:520-563 [generate_pstokes_argparser] *)
Record psargs := mkps { ps_in : string; ps_stokes : strarg; ps_out : option string; ps_clobber : bool; ps_keep : bool }.
(** pstokes.py:536-542 *)
Definition default_stokes : strarg := AStr "pI".

(** files: name to UVData object; the reading and writing at generate_pstokes_run.py:16, 30 *)
Definition fsys := list (string * uvd).

(** [uvd_output += other] for an object with other polarizations and the same times, baselines and frequencies. pyuvdata sorts
    the polarizations, the model appends them; generate_pstokes_run.py:27 *)
Definition uv_iadd (u v : uvd) : uvd := mkuvd (uspw u) (ufreqs u) (utimes u) (ubls u) (uconv u) (ucols u ++ ucols v)%list.

Section Pstokes.
(** pyuvdata's [polstr2num]; a KeyError for text that names no polarization; generate_pstokes_run.py:26, pstokes.py:413-416 *)
Variable p2n : string -> option Z.

(** [construct_pstokes(uvd, uvd, p)] with a text; pstokes.py:412-416. It may set pol_convention on [uvd] only if [uvd] has
    one polarization (pstokes.py:449-456), and then it fails. *)
Definition construct (u : uvd) (p : string) : result uvd :=
  match p2n p with None => Err KeyError | Some n => construct_pstokes u u n end.

(** the loop, generate_pstokes_run.py:25-27 *)
Fixpoint add_stokes (u out : uvd) (ps : list string) : result uvd :=
  match ps with
  | [] => Ok out
  | p :: ps' =>
      match p2n p with
      | None => Err KeyError
      | Some n =>
          if existsb (Z.eqb n) (upols out) then add_stokes u out ps'
          else bind (construct u p) (fun v => add_stokes u (uv_iadd out v) ps')
      end
  end.

(** the object that is written, generate_pstokes_run.py:19-27 *)
Definition stokes_out (u : uvd) (a : psargs) : result uvd :=
  bind (if ps_keep a then Ok u
        else match items (ps_stokes a) with [] => Err IndexError | p :: _ => construct u p end)
    (fun out => add_stokes u out (items (ps_stokes a))).

(** the script, generate_pstokes_run.py:12-30: the files afterwards, and how it ends *)
Definition generate_pstokes_run (fs : fsys) (a : psargs) : fsys * result unit :=
  match dget string_dec fs (ps_in a) with
  | None => (fs, Err OSError)
  | Some u =>
      let out := match ps_out a with None => ps_in a | Some o => o end in
      match stokes_out u a with
      | Err e => (fs, Err e)
      | Ok o =>
          match dget string_dec fs out with
          | Some _ => if ps_clobber a then (dset string_dec fs out o, Ok tt) else (fs, Err OSError)
          | None => (dset string_dec fs out o, Ok tt)
          end
      end
  end.
End Pstokes.

(** -- auto_noise_run.py -- *)

Section Noise.
(** a power spectrum, and [utils.uvp_noise_error] on it (it may fail, and it changes its argument); auto_noise_run.py:29-31 *)
Variable U : Type.
Variable noise : U -> result U.

(** the container: group to spectra; auto_noise_run.py:18-34 *)
Definition store := list (string * list (string * U)).
(** [psc.get_pspec(group, spec)], auto_noise_run.py:29 *)
Definition st_get (st : store) (g s : string) : option U :=
  match dget string_dec st g with None => None | Some l => dget string_dec l s end.
(** [psc.set_pspec(group, spec, uvp, overwrite=True)] in an existing group, auto_noise_run.py:31 *)
Definition st_set (st : store) (g s : string) (u : U) : store :=
  match dget string_dec st g with None => st | Some l => dset string_dec st g (dset string_dec l s u) end.

(** the inner loop, auto_noise_run.py:28-31: each spectrum is written back before the next one is read *)
Fixpoint noise_specs (st : store) (g : string) (specs : list string) : store * result unit :=
  match specs with
  | [] => (st, Ok tt)
  | s :: specs' =>
      match st_get st g s with
      | None => (st, Err KeyError)
      | Some u =>
          match noise u with
          | Err e => (st, Err e)
          | Ok u' => noise_specs (st_set st g s u') g specs'
          end
      end
  end.
(** the outer loop, auto_noise_run.py:25-31. The local variable [spectra] is only assigned when --spectra is not given
    (auto_noise_run.py:26-28); reading it otherwise is an UnboundLocalError. *)
Fixpoint noise_groups (st : store) (spectra : option (list string)) (groups : list string) : store * result unit :=
  match groups with
  | [] => (st, Ok tt)
  | g :: groups' =>
      match spectra with
      | Some _ => (st, Err UnboundLocalError)
      | None =>
          match dget string_dec st g with
          | None => (st, Err KeyError)
          | Some l =>
              match noise_specs st g (map fst l) with
              | (st', Ok _) => noise_groups st' spectra groups'
              | (st', Err e) => (st', Err e)
              end
          end
      end
  end.
(** the script, auto_noise_run.py:13-32; all groups by default *)
Definition auto_noise_run (st : store) (groups : option (list string)) (spectra : option (list string)) : store * result unit :=
  noise_groups st spectra (match groups with Some g => g | None => map fst st end).
End Noise.

(** -- bootstrap_run.py and pspec_run.py: the arguments of the parser become keyword arguments -- *)

(** grouping.py:1930-1946 [bootstrap_run] *)
Definition bootstrap_sig : signature :=
  [("filename", None); ("spectra", Some VNone); ("blpair_groups", Some VNone); ("time_avg", Some (VBool false));
   ("Nsamples", Some (VInt 1000)); ("seed", Some (VInt 0)); ("normal_std", Some (VBool true)); ("robust_std", Some (VBool true));
   ("cintervals", Some VNone); ("keep_samples", Some (VBool false)); ("bl_error_tol", Some (VFloat "1.0"));
   ("overwrite", Some (VBool false)); ("add_to_history", Some (VStr "")); ("verbose", Some (VBool true)); ("maxiter", Some (VInt 1))].
(** the options of the parser and their defaults (the positional [filename] has none), grouping.py:2080-2180 [get_bootstrap_run_argparser] *)
Definition bootstrap_opts : signature :=
  [("filename", None); ("spectra", Some VNone); ("blpair_groups", Some VNone); ("time_avg", Some (VBool false));
   ("Nsamples", Some (VInt 100)); ("seed", Some (VInt 0)); ("normal_std", Some (VBool true)); ("robust_std", Some (VBool false));
   ("cintervals", Some VNone); ("keep_samples", Some (VBool false)); ("bl_error_tol", Some (VFloat "1.0"));
   ("overwrite", Some (VBool false)); ("add_to_history", Some (VStr "")); ("verbose", Some (VBool false))].

(** pspecdata.py:4500-4555 [pspec_run] *)
Definition pspec_run_sig : signature :=
  [("dsets", None); ("filename", None); ("dsets_std", Some VNone); ("cals", Some VNone); ("cal_flag", Some (VBool true));
   ("groupname", Some VNone); ("dset_labels", Some VNone); ("dset_pairs", Some VNone); ("psname_ext", Some VNone);
   ("spw_ranges", Some VNone); ("n_dlys", Some VNone); ("pol_pairs", Some VNone); ("blpairs", Some VNone);
   ("input_data_weight", Some (VStr "identity")); ("norm", Some (VStr "I")); ("taper", Some (VStr "none"));
   ("sampling", Some (VBool false)); ("exclude_auto_bls", Some (VBool false)); ("exclude_cross_bls", Some (VBool false));
   ("exclude_permutations", Some (VBool true)); ("Nblps_per_group", Some VNone);
   ("bl_len_range", Some (VList [VInt 0; VFloat "1e10"])); ("bl_deg_range", Some (VList [VInt 0; VInt 180]));
   ("bl_error_tol", Some (VFloat "1.0")); ("store_window", Some (VBool true)); ("exact_windows", Some (VBool false));
   ("ftbeam", Some VNone); ("beam", Some VNone); ("cosmo", Some VNone); ("interleave_times", Some (VBool false));
   ("rephase_to_dset", Some VNone); ("trim_dset_lsts", Some (VBool false)); ("broadcast_dset_flags", Some (VBool true));
   ("time_thresh", Some (VFloat "0.2")); ("Jy2mK", Some (VBool false)); ("overwrite", Some (VBool true));
   ("symmetric_taper", Some (VBool true)); ("file_type", Some (VStr "miriad")); ("verbose", Some (VBool true));
   ("exact_norm", Some (VBool false)); ("store_cov", Some (VBool false)); ("store_cov_diag", Some (VBool false));
   ("filter_extensions", Some VNone); ("history", Some (VStr "")); ("r_params", Some VNone); ("tsleep", Some (VFloat "0.1"));
   ("maxiter", Some (VInt 1)); ("return_q", Some (VBool false)); ("known_cov", Some VNone); ("cov_model", Some (VStr "empirical"));
   ("include_autocorrs", Some (VBool false)); ("include_crosscorrs", Some (VBool true)); ("xant_flag_thresh", Some (VFloat "0.95"));
   ("allow_fft", Some (VBool false))].
(** pspecdata.py:5190-5489 [get_pspec_run_argparser] *)
Definition pspec_run_opts : signature :=
  [("dsets", None); ("filename", None); ("dsets_std", Some VNone); ("groupname", Some VNone); ("dset_pairs", Some VNone);
   ("dset_labels", Some VNone); ("spw_ranges", Some VNone); ("n_dlys", Some VNone); ("pol_pairs", Some VNone); ("blpairs", Some VNone);
   ("input_data_weight", Some (VStr "identity")); ("norm", Some (VStr "I")); ("taper", Some (VStr "none")); ("beam", Some VNone);
   ("cosmo", Some VNone); ("rephase_to_dset", Some VNone); ("trim_dset_lsts", Some (VBool false));
   ("broadcast_dset_flags", Some (VBool false)); ("time_thresh", Some (VFloat "0.2")); ("Jy2mK", Some (VBool false));
   ("exclude_auto_bls", Some (VBool false)); ("exclude_cross_bls", Some (VBool false)); ("exclude_permutations", Some (VBool false));
   ("Nblps_per_group", Some VNone); ("bl_len_range", Some (VList [VInt 0; VFloat "1e10"])); ("bl_deg_range", Some (VList [VInt 0; VInt 180]));
   ("bl_error_tol", Some (VFloat "1.0")); ("store_cov", Some (VBool false)); ("store_cov_diag", Some (VBool false));
   ("return_q", Some (VBool false)); ("overwrite", Some (VBool false)); ("cov_model", Some (VStr "empirical")); ("psname_ext", Some (VStr ""));
   ("verbose", Some (VBool false)); ("file_type", Some (VStr "uvh5")); ("filter_extensions", Some VNone);
   ("symmetric_taper", Some (VBool true)); ("include_autocorrs", Some (VBool false)); ("exclude_crosscorrs", Some (VBool false));
   ("interleave_times", Some (VBool false)); ("xant_flag_thresh", Some (VFloat "0.95")); ("store_window", Some (VBool false));
   ("allow_fft", Some (VBool false))].

(** scripts/bootstrap_run.py:13-20: everything in the namespace becomes a keyword argument (filename is taken out and passed
    as the keyword [filename]) *)
Definition bootstrap_script (ns : list (string * pyval)) : result (list (string * pyval)) :=
  match dget string_dec ns "filename" with
  | None => Err KeyError
  | Some f => py_call bootstrap_sig [] (("filename", f) :: ddel string_dec ns "filename")
  end.

(** [not v] of an option that was declared store_true, scripts/pspec_run.py:20 *)
Definition py_not (v : pyval) : pyval := match v with VBool b => VBool (negb b) | VNone => VBool true | _ => VBool false end.
(** scripts/pspec_run.py:9-27; [keep] is hera_cal's filter_kwargs *)
Definition pspec_script (keep : string -> bool) (ns : list (string * pyval)) (history : string) : result (list (string * pyval)) :=
  let kw := filter (fun e => keep (fst e)) ns in
  match dget string_dec kw "dsets", dget string_dec kw "filename", dget string_dec kw "exclude_crosscorrs" with
  | Some d, Some f, Some x =>
      let kw1 := ddel string_dec (ddel string_dec (ddel string_dec kw "dsets") "filename") "exclude_crosscorrs" in
      let kw2 := dset string_dec kw1 "include_crosscorrs" (py_not x) in
      match dget string_dec kw2 "history" with
      | Some _ => Err TypeError
      | None => py_call pspec_run_sig [] (("dsets", d) :: ("filename", f) :: ("history", VStr history) :: kw2)
      end
  | _, _, _ => Err KeyError
  end.

(** -- psc_merge_spectra.py -- *)

(** the functions and classes of the module, container.py:11, 55, 512, 632 *)
Definition container_names : list string :=
  ["transactional"; "PSpecContainer"; "combine_psc_spectra"; "get_combine_psc_spectra_argparser"].
(** the options of the parser, container.py:632-663 [get_combine_psc_spectra_argparser] *)
Definition merge_opts : list string := ["filename"; "dset_split_str"; "ext_split_str"; "verbose"].
(** container.py:512-520 [combine_psc_spectra] *)
Definition combine_sig : signature :=
  [("psc", None); ("groups", Some VNone); ("dset_split_str", Some (VStr "_x_")); ("ext_split_str", Some (VStr "_"));
   ("merge_history", Some (VBool true)); ("verbose", Some (VBool true)); ("overwrite", Some (VBool false))].
(** the keyword arguments [k=a.n] of a call, read from the namespace [a] in order; psc_merge_spectra.py:23-30 *)
Fixpoint read_args (ns : list (string * pyval)) (l : list (string * string)) : result (list (string * pyval)) :=
  match l with
  | [] => Ok []
  | (k, n) :: l' =>
      match dget string_dec ns n with
      | None => Err AttributeError
      | Some v => bind (read_args ns l') (fun r => Ok ((k, v) :: r))
      end
  end.
(** psc_merge_spectra.py:13-30, with the name of the parser function, the namespace that the parser returned, and the pairs
    keyword=attribute of the call *)
Definition merge_script_gen (names : list string) (parser : string) (call : list (string * string)) (ns : list (string * pyval))
    : result (list (string * pyval)) :=
  if existsb (String.eqb parser) names then bind (read_args ns call) (fun kw => py_call combine_sig [] kw) else Err AttributeError.
(** the call of the script, psc_merge_spectra.py:26-29 *)
Definition merge_call : list (string * string) :=
  [("psc", "filename"); ("uvp_split_str", "uvp_split_str"); ("ext_split_str", "ext_split_str"); ("verbose", "verbose")].
(** the script, psc_merge_spectra.py:13-30 *)
Definition merge_script : list (string * pyval) -> result (list (string * pyval)) :=
  merge_script_gen container_names "get_combine_psc_argparser" merge_call.

(** -- pspec_red.py -- *)

(** pspecdata.py:3270-3299 [PSpecData.pspec], without self *)
Definition pspec_sig : signature :=
  [("bls1", None); ("bls2", None); ("dsets", None); ("pols", None); ("n_dlys", Some VNone); ("input_data_weight", Some (VStr "identity"));
   ("norm", Some (VStr "I")); ("taper", Some (VStr "none")); ("sampling", Some (VBool false)); ("little_h", Some (VBool true));
   ("spw_ranges", Some VNone); ("symmetric_taper", Some (VBool true)); ("baseline_tol", Some (VFloat "1.0")); ("store_cov", Some (VBool false));
   ("store_cov_diag", Some (VBool false)); ("return_q", Some (VBool false)); ("store_window", Some (VBool true));
   ("exact_windows", Some (VBool false)); ("ftbeam", Some VNone); ("verbose", Some (VBool true)); ("filter_extensions", Some VNone);
   ("exact_norm", Some (VBool false)); ("history", Some (VStr "")); ("r_params", Some VNone); ("cov_model", Some (VStr "empirical"));
   ("known_cov", Some VNone); ("allow_fft", Some (VBool false))].

(** numpy broadcasting of two shapes, from the last axis; pspec_red.py:90 *)
Fixpoint bc_rev (a b : list nat) : option (list nat) :=
  match a, b with
  | [], _ => Some b
  | _, [] => Some a
  | x :: a', y :: b' =>
      match bc_rev a' b' with
      | None => None
      | Some r => if Nat.eqb x y then Some (x :: r) else if Nat.eqb x 1 then Some (y :: r) else if Nat.eqb y 1 then Some (x :: r) else None
      end
  end.
(** pspec_red.py:90 *)
Definition np_broadcast (a b : list nat) : option (list nat) := option_map (@rev nat) (bc_rev (rev a) (rev b)).
(** [a *= b]: the common shape has to be that of [a]; pspec_red.py:90 *)
Definition inplace_ok (a b : list nat) : bool :=
  match np_broadcast a b with None => false | Some s => if list_eq_dec Nat.eq_dec s a then true else false end.
(** the conversion of one dataset of shape (Nblts, Nfreqs, Npols) with the factor [None, None, :, None]; pspec_red.py:85-91 *)
Definition convert_units (shape : nat * nat * nat) : result unit :=
  let '(nblts, nf, np) := shape in if inplace_ok [nblts; nf; np] [1; 1; nf; 1]%nat then Ok tt else Err ValueError.

(** the settings of the configuration file used in the call, pspec_red.py:20-26, 109-112, 132-139 *)
Record redcfg := mkred { r_weight : pyval; r_norm : pyval; r_taper : pyval; r_avg : pyval; r_noauto : pyval; r_noperm : pyval; r_h : pyval }.
(** the pairs of different datasets, pspec_red.py:117-122 *)
Definition red_pairs (n : nat) : list (nat * nat) :=
  filter (fun p => negb (Nat.eqb (fst p) (snd p))) (list_prod (seq 0 n) (seq 0 n)).
(** the call of [ds.pspec], pspec_red.py:128-140 *)
Definition red_call (c : redcfg) (bls : pyval) (p : nat * nat) : result (list (string * pyval)) :=
  py_call pspec_sig [bls; bls]
    [("dsets", VList [VInt (Z.of_nat (fst p)); VInt (Z.of_nat (snd p))]); ("input_data_weight", r_weight c); ("norm", r_norm c);
     ("taper", r_taper c); ("avg_group", r_avg c); ("exclude_auto_bls", r_noauto c); ("exclude_permutations", r_noperm c);
     ("spw_ranges", VNone); ("little_h", r_h c)].
(** the loop, pspec_red.py:117-148: the pairs whose spectra were stored before it ended *)
Fixpoint red_loop (c : redcfg) (bls : pyval) (done : list (nat * nat)) (ps : list (nat * nat)) : list (nat * nat) * result unit :=
  match ps with
  | [] => (done, Ok tt)
  | p :: ps' => match red_call c bls p with Err e => (done, Err e) | Ok _ => red_loop c bls (done ++ [p])%list ps' end
  end.
(** the script for datasets of the given shapes, pspec_red.py:85-151; [conv]: convert_jy_to_mk *)
Definition pspec_red (c : redcfg) (bls : pyval) (conv : bool) (shapes : list (nat * nat * nat)) : list (nat * nat) * result unit :=
  match (if conv then map_res convert_units shapes else Ok []) with
  | Err e => ([], Err e)
  | Ok _ =>
      match shapes with
      | [] => ([], Err IndexError)
      | _ => red_loop c bls [] (red_pairs (List.length shapes))
      end
  end.
