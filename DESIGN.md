# Formal model of hera_pspec in Rocq (Coq 8.16.1)

## 1. How to read this
* `properties.jsonl` lists the claims (C01, C02, ...). A claim that turned out to be false of the code in general is
  kept twice: once restricted to the inputs for which it holds (status *proved*), and once unrestricted (status *partial*,
  with a `_refuted` theorem that exhibits, usually for a whole family of inputs, how the code fails, next to the theorem
  of the part that holds). Claims whose restriction would be too thin to be a claim of its own are only kept unrestricted.
* `MANIFEST.json` maps claims to theorems. Section 5 below repeats it with files and axioms.
* `rocq/theories/<Area>Model.v`: executable definitions that mirror the Python functions; each cites file and lines
  under `/repo/src/hera_pspec` (or `/repo/scripts`) and says what it leaves out. `<Area>Proofs.v`: lemmas. `<Area>Props.v`: the theorems, each with its
  `Print Assumptions`, the small specifications they need (stated without the model's helpers where possible), and
  `Example`s that show that concrete, non-trivial cases meet the hypotheses.
* `seeded/LOG.jsonl`: the mutation tests (edits of the model that mimic realistic bugs, and which theorems then fail).

## 2. Conventions of the model
* Python exceptions are values: `result A := Ok a | Err e`, with the class of the exception only.
* Objects that are mutated are records passed from state to state; a method that raises returns the state it leaves
  behind, so that "a failing call changes nothing" is a statement one can prove or refute.
* Histories are lists of operations folded over a state; theorems about histories are proved by induction on them.
* Loops are structural recursion or folds; `while` loops have fuel, and the theorems show that it suffices
  or that the model returns an error value if it would run out.
* Dictionaries are association lists in insertion order (`PyDict`), strings are lists of ASCII characters (`PyStr`).
* The random number generator, the operating system (`open` that fails, crash points), the job scheduler, scipy's interpolators,
  eigenvalue routines, the taper windows and the beams are *arguments* of the model (functions or relations), so the
  theorems hold for all of them; where something about them is needed, it is a visible hypothesis of the theorem.
* Numbers: integers are `Z`/`nat`; data and weights are rationals, reals or complex numbers over the reals (`CNum`). The
  baseline codec (C01) is in IEEE binary64, operation by operation, with Flocq's rounding; everywhere else
  floating-point rounding is not modelled.

## 3. Trusted base
1. Coq's kernel (8.16.1) and, as usual, its parser/printer for reading the statements.
2. The axioms that `Print Assumptions` lists. Only these occur, all from Coq's standard library (through its
   real numbers), none added here:
   * `FunctionalExtensionality.functional_extensionality_dep` (F)
   * `ClassicalDedekindReals.sig_forall_dec` (S)
   * `ClassicalDedekindReals.sig_not_dec` (N)
   * `Classical_Prop.classic` (C)
   Section 5 gives the letters per theorem; theorems without letters are closed under the global context.
3. The hand-written model: that each definition does what the cited lines do. No code was run (the sandbox has none of
   the dependencies), so this rests on reading the source.
4. Libraries used as proved libraries: Coq's standard library, Flocq (rounding), Coquelicot (integrals, derivatives, limits).
   They add no axioms besides those above (coqchk also lists the fields of the sealed modules of Coq's Reals, `RbaseSymbolsImpl.*` and `RinvImpl.*`, and those of ssreflect's `ssrunder`, which are module fields of the libraries and not axioms).

### Assumptions about external code (hypotheses or modelling choices, by claim)
* numpy/scipy arithmetic is exact, except in C01.
* `np.linalg.pinv` of a diagonal matrix is the diagonal of reciprocals with entries below the cut-off set to 0 (C22, C50, C53).
* `np.linalg.eigh`, `inv`: any matrices with the defining equations (C32-C35, C61-C64). FFTs are the DFT sums.
* `scipy.integrate.quad` is the Riemann integral (C42, C74); `interp1d`, `RegularGridInterpolator` are arbitrary functions (C76, C89-C97).
* JSON preserves values (C04); HDF5 writes reach the file in program order (C14-C16).
* pyuvdata's `select` keeps exactly the listed times and refuses an empty list (C38).
* `linspace`d bins are exactly linear (C40, C93).

## 4. What is modelled, and what is not
| file | modelled | not modelled |
|---|---|---|
| `uvpspec_utils.py` | all codecs, `compress_r_params`/`decompress_r_params`, `_select`, `select_common`, `_get_red_bls`, `_get_red_blpairs`, `_get_blpairs_from_bls`, the sorting helpers used by `combine_uvpspec`, `subtract_uvp` | |
| `uvpspec.py` | key lookups and getters, delays, k axes used by the averages, select, `combine_uvpspec`, `recursive_combine_uvpspec`, `get_uvp_overlap`, `generate_noise_spectra`, `get_exact_window_functions`, `set_stats`-like access in C05-C10, order of writes of `write_to_group` (C14-C16), HDF5 storage and partial reading (`write_to_group`, `read_from_group`), `__eq__`, `set_cosmology`, `compute_scalar`, `convert_to_deltasq`, `get_kperps`, `get_kparas`, `set_stats`, `get_stats`, `set_stats_slice`, `get_spw_ranges`, `time_to_indices`, `get_blpair_groups_from_bl_groups`, `get_blpair_seps`, `get_blpair_blvecs`, `check`, argument normalisers | plotting, history strings, unit strings |
| `grouping.py` | `group_baselines`, `sample_baselines`, `average_spectra`, `spherical_average`, `spherical_wf_from_uvp` (binning), `fold_spectra`, `bootstrap_average_blpairs`, delay re-binning, argument types, `bootstrap_run` on a container, error statistics of `bootstrap_resampled_error` | histograms |
| `utils.py` | `cov`, `construct_blpairs`, `calc_blpair_reds`, `get_delays`, `spw_range_from_freqs`, `get_blvec_reds`, `job_monitor`, `get_reds`, `uvd_time_difference`, `uvd_to_Tsys`, `uvp_noise_error`, `apply_P_SN_correction`, time/LST helpers, `circular_average`, `get_bl_lens_angs`, `spw_range_from_redshifts`, `config_pspec_blpairs`, `load_config` (after the YAML reader) | logging, YAML syntax |
| `scripts/*.py` | all six scripts with the options and defaults of their parsers | argparse, profiling, logging; the data in the files |
| `container.py` | the whole state machine (`_open`, `_close`, retries, transactions, set/get/list/tree/save), `combine_psc_spectra` | HDF5 itself; nested groups |
| `pspecdata.py` | `add`, labels, `dset_idx`, all setters, caches (`C_model`, `I`, `iC`, `Y`, `R`), `q_hat`, `get_G`, `get_H`, `get_unnormed_E`, `get_unnormed_V`, `get_MW`, `get_Q_alt`, `get_integral_beam` (as matrix), `p_hat`, `cov_p_hat`, `get_analytic_covariance`, `broadcast_dset_flags`, `scalar`, `scalar_delay_adjustment`, `pspec` (rows, metadata, normalisation cache), `Jy_to_mK`, `trim_dset_lsts`, interleaving of `pspec_run`, `parse_blkey`, `validate_datasets`, `rephase_to_dset`, `cov_q_hat`, control flow and outputs of `pspec_run`, `validate_blpairs`, `set_C`/`clear_cache`/`cross_covar_model`, `validate_pol`, `units` | reading of files |
| `pstokes.py` | construction of pseudo-Stokes visibilities and flags, `filter_dset_on_stokes_pol`-like control flow | Miriad reading |
| `conversions.py` | everything | |
| `pspecbeam.py` | `_compute_pspec_scalar`, `PSpecBeamGauss`, `PSpecBeamFromArray`, Jy to mK factors | reading of UVBeam files, (`get_Omegas` and the pixel sums are modelled) |
| `noise.py`, `loss.py` | everything | |
| `uvwindow.py` | `FTBeam` bookkeeping, k bins and grids, interpolation of the beam to the grid, cylindrical and spherical window functions (`cylindrical_to_spherical`, `get_spherical_wf` with their checks), `run_and_write` | file formats |
| `cli.py` | `fast_merge_baselines` merge loop | option parsing |
| `plot.py` | which data are drawn where: forms of baseline-pairs, components, negative values, titles and labels of `delay_spectrum`, size limits, subplots, wedge axes, bins, rotation, horizons, file names, rounding | matplotlib itself, colours, unit strings |
| `testing.py` | `noise_sim`, `gauss_cov_fg`, `sky_noise_jy_autos`, `sky_noise_sim` (which samples receive which noise, shapes, errors), the baseline-pairs of `uvpspec_from_data` | `build_vanilla_uvpspec`, the random number generator |

## 5. Per property: what is modelled, how it is proved, theorems, axioms

**C01 (proved) Baseline(-pair) integer codec round-trips.** Codecs on Z and in binary64 (Flocq), operation by operation; interval bounds on the rounded quotients, lia. Files: BlCodecProps. Theorems: `C01_codec_round_trip` [SNCF], `C01_conjugation` [SNCF], `C01_blpair_injective` [SNCF], `C01_float_split` [SNCF]. Note: in IEEE binary64 arithmetic.

**C02 (partial) Baseline-pair integers stay unique for any array size.** Codecs on Z and in binary64 (Flocq), operation by operation; interval bounds on the rounded quotients, lia. Files: BlCodecProps. Theorems: `C02_blpair_unique_refuted` [SNCF], `C02_decode_wrong_from_900` [SNCF], `C01_blpair_injective` [SNCF]. Note: false as stated: antenna 1000 collides; injective below 1000, decodable below 900.

**C03 (proved) Polarization-pair integer codec round-trips.** Decimal-string slicing; decimal expansion lemmas, finite ranges. Files: PolPairProps. Theorems: `C03_polpair_round_trip`, `C03_polpair_decode_total`, `C03_polpair_injective`.

**C04 (proved) r_params compression is lossless.** Association lists; induction over the dictionary. Files: RParamsProps. Theorems: `C04_r_params_round_trip`, `C04_r_params_stored_once`, `C04_reserved_field_refuted`. Note: the last theorem shows that the exclusion of a field called baselines is necessary.

**C05 (proved) select keeps exactly the requested blpair-times, spws and polpairs, with data aligned.** Record of a UVPSpec with row metadata and per-window arrays, _select step by step; mask/gather lemmas, invariants of well-formed objects. Files: UvpProps. Theorems: `C05_select_correct`, `C05_select_lookup`, `C05_select_ok_iff`, `C05_select_wf`, `C05_empty_spws_refuted`. Note: select on in-memory objects; the last theorem records that an empty window list is accepted.

**C06 (partial) select keeps every per-spectrum array aligned, including labels.** Record of a UVPSpec with row metadata and per-window arrays, _select step by step; mask/gather lemmas, invariants of well-formed objects. Files: UvpProps. Theorems: `C06_labels_unchanged`, `C06_labels_aligned_refuted`. Note: false of the code: label arrays are never selected.

**C07 (proved) select_common reduces all objects to their common windows, baseline-pairs and times.** Record of a UVPSpec with row metadata and per-window arrays, _select step by step; mask/gather lemmas, invariants of well-formed objects. Files: UvpProps. Theorems: `C07_select_common`, `C07_select_common_blpairs`, `C07_select_common_errors`. Note: the unrestricted claim is C98.

**C08 (proved) Key lookups address the right spectra.** Record of a UVPSpec with row metadata and per-window arrays, _select step by step; mask/gather lemmas, invariants of well-formed objects. Files: SplitProps, UvpProps. Theorems: `C08_lookup`, `C08_unknown_key`, `C08_get_all_keys`, `select_keeps_vectors`.

**C09 (proved) Data and delay axes have the same length when windows are selected before folding.** Fold as explicit slices over rationals, histories of select and fold; index arithmetic, induction over histories. Files: UvpProps. Theorems: `C09_lengths`, `C09_lengths_unfolded`. Note: the unrestricted claim is C99.

**C10 (proved) fold_spectra averages +/- delays.** Fold as explicit slices over rationals, histories of select and fold; index arithmetic, induction over histories. Files: FoldProps. Theorems: `C10_fold_bins`, `C10_even_drops_first`, `C10_fold_object`, `C10_fold_total`, `C10_fold_refuses_twice`, `C10_fold_stats`, `C10_fold_covariance`, `C10_exact_window_rows`. Note: the unrestricted claim is C100.

**C11 (proved) combine_uvpspec concatenates spectra of aligned objects without misattributing data.** Merge as nested gathers over keyed rows; list induction, strong induction on the number of objects, witnesses. Files: CombineProps. Theorems: `C11_combine_aligned`, `C11_order_irrelevant`. Note: the unrestricted claim is C101.

**C12 (proved) get_uvp_overlap accepts exactly single-axis differences.** Merge as nested gathers over keyed rows; list induction, strong induction on the number of objects, witnesses. Files: CombineProps. Theorems: `C12_overlap`, `C12_rejects`. Note: an if-and-only-if characterisation of the accepted lists and the returned axis.

**C13 (proved) recursive_combine_uvpspec merges every object exactly once.** Merge as nested gathers over keyed rows; list induction, strong induction on the number of objects, witnesses. Files: CombineProps. Theorems: `C13_every_input_once`, `C13_empty`, `C13_associative`, `C13_batches`, `C13_no_files`, `C13_same_object`. Note: tree of n-1 merges for every merge function; the whole object is equal to that of one call for objects that differ in their blpair-times.

**C14 (proved) PSpecContainer: read your writes, isolation, listing.** Container as a state machine on a two-level dictionary with a log of writes and an oracle for failing opens; invariants over histories, refinement to a map. Files: ContainerProps, ContainerTree. Theorems: `C14_get`, `C14_read_your_writes`, `C14_isolation`, `C14_no_overwrite`, `C14_read_only`, `C14_listing`, `C14_tree`. Note: all histories of calls and all refusals to open; isolation and no-overwrite also at every crash point; the group name 'header' is reserved.

**C15 (proved) PSpecContainer: no torn spectrum is ever readable.** Container as a state machine on a two-level dictionary with a log of writes and an oracle for failing opens; invariants over histories, refinement to a map. Files: ContainerProps. Theorems: `C15_never_torn`, `C15_recoverable`. Note: the unrestricted claim is C102.

**C16 (proved) PSpecContainer: file handle discipline and bounded retries.** Container as a state machine on a two-level dictionary with a log of writes and an oracle for failing opens; invariants over histories, refinement to a map. Files: ContainerProps. Theorems: `C16_closed_after_call`, `C16_kept_open`, `C16_open_bounded`. Note: the unrestricted claim is C103.

**C17 (proved) combine_psc_spectra merges only the extensions of each spectrum name.** Container as a state machine on a two-level dictionary with a log of writes and an oracle for failing opens; invariants over histories, refinement to a map. Files: PscCombineProps, TightProps. Theorems: `C17_merge`, `C17_keep_open_required`, `C17_contents`. Note: the unrestricted claim is C104.

**C18 (proved) Averaging spectra is the weighted mean.** Averaging with real weights, at row level and at object level; algebra, permutations. Files: AvgProps, AvgTwoStep, TightProps. Theorems: `C18_weighted_mean` [SNF], `C18_default_mean` [SNF], `C18_groups` [S], `C18_total` [SNF], `C18_order_irrelevant` [SNF], `C18_bounds` [SNF], `C18_two_steps` [SF], `C18_recomputed_weights` [SF], `C18_error_bars` [SNF], `C18_window_rows` [SF], `C18_metadata` [SNF], `C18_two_steps_object` [SNF], `C18_second_average_total` [SNF], `average_averageable` [SNF]. Note: the unrestricted claim is C105.

**C19 (proved) Equal and integer baseline-pair weights are honoured.** Averaging with real weights, at row level and at object level; algebra, permutations. Files: AvgProps. Theorems: `C19_integer_weights` [SF], `C19_equal_weights` [SF], `C19_unnormalised` [SF], `C19_nonpositive_rejected` [SF]. Note: the unrestricted claim is C106.

**C20 (proved) Bootstrap draws preserve group size; the bootstrap is an average with integer multiplicities.** Averaging with real weights, at row level and at object level; algebra, permutations. Files: GroupProps, TightProps. Theorems: `C20_sample`, `C20_multiplicities`, `C20_used_exactly` [SF], `C20_unknown_pair`, `C20_split_over_objects`. Note: the unrestricted claim is C107.

**C21 (proved) Baseline grouping is a partition.** Slices of lists, shuffles as permutations; list induction. Files: GroupProps. Theorems: `C21_partition`, `C21_membership`, `C21_errors`. Note: the unrestricted claim is C108.

**C22 (proved) Spherical averaging bins every (kperp,kpara) cell at most once and takes the weighted mean.** Binning matrices over the reals; finite-sum algebra. Files: SphProps. Theorems: `C22_assignment` [SNF], `C22_mean` [SNF], `C22_cutoff` [SNF], `C22_unit_response` [SNF], `C22_flagged_ignored` [SNF], `C22_uniform_mean` [SNF], `C22_inverse_variance_mean` [SNF]. Note: for any pseudo-inverse that behaves like numpy's on non-negative diagonal matrices.

**C23 (proved) Delay-bin slices tile the delay axis symmetrically.** Integer slices; lia, induction on the fuel. Files: DelayBinProps. Theorems: `C23_slices`, `C23_average` [SNF], `C23_errors`.

**C24 (proved) construct_blpairs enumerates exactly the requested baseline pairs.** List processing; induction, permutation lemmas, oracle for job outcomes. Files: UtilsProps. Theorems: `C24_pairs`, `C24_one_order`, `C24_groups`, `C24_errors`.

**C25 (proved) Redundant grouping puts each baseline in exactly one group.** List processing; induction, permutation lemmas, oracle for job outcomes. Files: UtilsProps. Theorems: `C25_partition`, `C25_red_bls`, `C25_red_blpairs`. Note: for any symmetric closeness test.

**C26 (proved) job_monitor runs every job index and retries only failures.** List processing; induction, permutation lemmas, oracle for job outcomes. Files: UtilsProps. Theorems: `C26_range_jobs`, `C26_first_round`. Note: the unrestricted claim is C109.

**C27 (proved) Frequency-range to channel-range conversion finds the channels in range.** List processing; induction, permutation lemmas, oracle for job outcomes. Files: UtilsProps. Theorems: `C27_channels`, `C27_none`, `C27_errors`, `C27_empty`. Note: the unrestricted claim is C110.

**C28 (proved) Dataset labels are unique and resolve to their dataset.** Labels as strings; invariant over add calls. Files: AddMore, LabelProps. Theorems: `C28_labels_unique`, `C28_labels_stable`, `C28_labels_given`, `C28_lookup`, `C28_labels_default`, `C28_lengths`, `C28_full_unique`. Note: for histories of fewer than 100000 datasets, the range of the renaming counter.

**C29 (proved) Cached matrices are right after clear_cache while the window is kept.** PSpecData as a state machine with caches; invariants over histories of calls, witnesses. Files: PdProps. Theorems: `C29_fresh_after_clear` [SNF]. Note: the unrestricted claim is C111.

**C30 (proved) pspec() output rows are aligned with their metadata.** Loops of pspec; induction over windows, polarizations, pairs; witnesses. Files: PspecProps. Theorems: `C30_aligned`, `C30_errors`. Note: the unrestricted claim is C112.

**C31 (proved) The identity-weighting normalisation cache is transparent.** Loops of pspec; induction over windows, polarizations, pairs; witnesses. Files: PspecProps. Theorems: `C31_transparent` [SNF], `C31_one_polarization` [SNF].

**C32 (proved) FFT and matrix forms of the estimator agree.** Complex matrices as functions of their indices; finite sums, roots of unity. Files: OqeProps. Theorems: `q_hat_is_delay_spectrum` [SNF], `q_hat_fft_equals_matrix` [SNF], `q_hat_exact_norm_fft_refused`, `Q_alt_accepts` [SNF], `Q_alt_independent_of_method` [SNF], `Q_alt_structure` [SNF], `Q_alt_tensor_all_modes` [SNF]. Note: numpy's fft is modelled by the discrete Fourier sum it documents.

**C33 (proved) Normalisation: unweighted estimator is unbiased and window rows sum to one.** Complex matrices as functions of their indices; finite sums, roots of unity. Files: OqeProps. Theorems: `G_identity` [SNF], `G_row_sum` [SNF], `p_hat_mode_I` [SNF], `q_hat_mean_is_response` [SNF], `p_hat_flat_spectrum_unbiased` [SNF], `window_rows_sum_to_one` [SF], `get_MW_accepts` [SF], `fully_flagged_gives_zero` [SNF]. Note: linalg.inv and the inverse square root enter as arbitrary matrices.

**C34 (proved) Swapping the two baselines conjugates the estimate.** Complex matrices as functions of their indices; finite sums, roots of unity. Files: OqePairProps. Theorems: `q_hat_swap_conjugates` [SNF], `auto_q_hat_real_nonnegative` [SNF], `cross_power_geometric_mean` [SNF], `auto_q_hat_parseval` [SNF], `q_hat_sesquilinear` [SNF], `q_hat_keys_additive` [SNF], `swap_conjugates_all` [SNF].

**C35 (proved) Reported noise covariances are the covariances of the estimates.** Complex matrices as functions of their indices; finite sums, roots of unity. Files: CovProps. Theorems: `analytic_noise_covariance_correct` [SF], `cov_q_structure` [SF], `cov_p_structure` [SF]. Note: finite ensembles with arbitrary weights.

**C36 (proved) broadcast_dset_flags makes flags separable and only adds flags.** Boolean waterfalls; induction over channels and windows. Files: FlagProps. Theorems: `broadcast_one_window`, `broadcast_only_adds`, `broadcast_separable`, `broadcast_unflag`, `broadcast_every_dataset`, `broadcast_idempotent`, `broadcast_accepts`, `broadcast_default_whole_band`. Note: idempotence for thresholds below one and up to a million channels (integer comparison of the rational threshold).

**C37 (proved) Pseudo-Stokes combination.** Complex arithmetic on flat arrays; ring/field. Files: PstokesProps. Theorems: `pstokes_combination` [SF], `pstokes_invert` [SF], `pstokes_unused` [SF], `pstokes_rejects` [SF], `filter_dsets_spec` [SF], `filter_dsets_accepts` [SF], `pol_arrays_combined` [SF].

**C38 (proved) Time interleaving and LST trimming.** Lists of times; induction, witnesses. Files: TimesProps. Theorems: `interleave_splits_times`, `interleave_accepts`, `interleave_std_aligned`, `trim_keeps_common`, `trim_same_lsts`, `trim_accepts`.

**C39 (partial) scalar honours the taper override.** Scalars as trapezoidal sums over arbitrary beams and tapers; algebra, control-flow computation. Files: ScalarProps. Theorems: `taper_override_partial` [SF], `taper_override_refuted` [SF], `H_inverse_scalar_refuted` [SF], `mixed_polarizations_refused` [SF]. Note: false of the code: the override reaches the beam integral but the delay adjustment uses self.taper; true with adjustment off.

**C40 (proved) Spectral ranges and bins of window functions.** Window functions as finite sums over pixels and channels; DFT symmetry, finite-sum algebra. Files: WinCylProps, WinProps. Theorems: `spw_range_accepts`, `update_spw_channels`, `ftbeam_accepts`, `window_frequencies` [SF], `bin_edges_exact` [SF], `bins_partition` [SF], `kpara_bins_exact` [SF].

**C41 (proved) Noise power spectrum scaling laws.** Real formulas with infinities as values; field, lra, sqrt lemmas. Files: NoiseProps. Theorems: `P_N_value` [SNF], `P_N_accepts` [SNF], `P_N_scaling` [SNF], `P_N_incoherent_average` [SNF], `P_N_components` [SNF], `P_SN_laws` [SNF], `P_SN_correction_laws` [SNCF], `P_SN_flagged` [SNF], `P_SN_monotone` [SNF], `P_SN_correction_positive` [SNF].

**C42 (proved) Frequency/redshift conversions are mutually inverse and h-scalings consistent.** Distances as Riemann integrals (Coquelicot); field, derivative of the integral. Files: ConvProps. Theorems: `z2f_f2z` [SF], `f2z_z2f` [SF], `f2z_decreasing` [SF], `z2f_decreasing` [SF], `z2f_zero` [SF], `DC_little_h` [SNF], `DM_little_h` [SNF], `DA_little_h` [SNF], `dRpara_little_h` [SNF], `X2Y_little_h` [SNF], `kperp_little_h` [SNF], `kpara_little_h` [SNF], `DM_of_DA` [SNF].

**C43 (proved) Integration time of a product and weights.** Real formulas with infinities as values; field, lra, sqrt lemmas. Files: NoiseProps. Theorems: `integration_harmonic_mean` [SF], `integration_symmetric` [SF], `integration_equal` [SF], `integration_zero` [SF], `integration_scales` [SF], `mean_nsamp_constant` [SF], `mean_nsamp_flagged` [SF], `mean_nsamp_range` [SF], `mean_nsamp_clipped` [SF].

**C44 (proved) Command-line list syntax.** String splitting; induction on strings. Files: CliProps. Theorems: `int_tuples_round_trip`, `tuple_tuples_round_trip`, `str_tuples_round_trip`, `blpair_groups_round_trip`, `mixed_formats_rejected`.

**C45 (proved) Bias correction rescales power, errors and covariance consistently.** Real formulas with infinities as values; field, lra, sqrt lemmas. Files: NoiseProps. Theorems: `bias_correction_values` [SF], `bias_correction_accepts` [S], `bias_relative_errors` [SF], `bias_copy_untouched` [S].

**C46 (partial) A failed in-place select changes nothing.** Record of a UVPSpec with row metadata and per-window arrays, _select step by step; mask/gather lemmas, invariants of well-formed objects. Files: UvpProps. Theorems: `C46_failed_select_refuted`, `C46_window_failure_harmless`, `C46_valid_select_completes`. Note: false of the code: metadata is edited before the failure is detected.

**C47 (proved) calc_blpair_reds pairs only redundant, unflagged baselines.** List processing; induction, permutation lemmas, oracle for job outcomes. Files: UtilsProps. Theorems: `C47_excluded`, `C47_drop`, `C47_pairs`, `C47_grouped`.

**C48 (proved) Redundant groups are returned in order of length below one kilometre.** List processing; induction, permutation lemmas, oracle for job outcomes. Files: UtilsProps. Theorems: `C48_ascending`. Note: the unrestricted claim is C113.

**C49 (partial) uvd_time_difference uses the requested separation.** List processing; induction, permutation lemmas, oracle for job outcomes. Files: UtilsProps. Theorems: `C49_adjacent`, `C49_requested_separation_refuted`, `C49_two_times`. Note: the requested separation is ignored except for its shape: adjacent times are always subtracted.

**C50 (proved) Spherical averaging propagates error bars above 1e-8.** Binning matrices over the reals; finite-sum algebra. Files: SphProps. Theorems: `C50_errors` [SNF]. Note: the unrestricted claim is C114.

**C51 (partial) Spherical averaging averages integration times.** Binning matrices over the reals; finite-sum algebra. Files: SphProps. Theorems: `C51_one_pair_partial` [SF], `C51_integration_refuted` [SF]. Note: true for one baseline-pair; for Nb pairs the result is Nb times too large, because the normalisation takes the trace of a non-square array.

**C52 (proved) Spherical averaging keeps times and LSTs aligned without time averaging.** Binning matrices over the reals; finite-sum algebra. Files: SphProps. Theorems: `C52_metadata`, `C52_data_rows`. Note: the unrestricted claim is C115.

**C53 (proved) Spherically averaged window functions of one baseline length stay normalised.** Binning matrices over the reals; finite-sum algebra. Files: SphProps. Theorems: `C53_window_one_length` [SNF]. Note: the unrestricted claim is C116.

**C54 (partial) Delay re-binning outside the symmetric case.** Integer slices; lia, induction on the fuel. Files: DelayBinProps. Theorems: `C54_even_refuted`, `C54_empty_kernel_refuted`, `C54_asymmetric_kernel_refuted` [SNF], `C23_average` [SNF], `C54_broadcast_weights` [SF]. Note: false of the code in all three respects; C23 is the case that holds.

**C55 (proved) Weighting matrices inside a pspec call.** Labels as strings; invariant over add calls. Files: PdProps. Theorems: `C55_window_fresh` [SNF], `C55_identity_value` [SNF], `C55_dayenu_channels` [SNF].

**C56 (proved) set_filter_extension keeps the extended window inside the data.** PSpecData as a state machine with caches; invariants over histories of calls, witnesses. Files: PdProps. Theorems: `C56_set_extension` [SNF], `set_filter_extension_spec`. Note: the unrestricted claim is C117.

**C57 (proved) A failing set_Ndlys or set_symmetric_taper changes nothing.** PSpecData as a state machine with caches; invariants over histories of calls, witnesses. Files: PdProps. Theorems: `C57_atomic` [SNF], `set_symmetric_taper_spec`. Note: the unrestricted claim is C118.

**C58 (proved) The windows of a pspec call with identity weighting do not influence each other.** PSpecData as a state machine with caches; invariants over histories of calls, witnesses. Files: PdProps. Theorems: `C58_identity_windows` [SNF]. Note: the unrestricted claim is C119.

**C59 (partial) exact_norm uses the beam of each polarization.** Loops of pspec; induction over windows, polarizations, pairs; witnesses. Files: PspecProps. Theorems: `C59_second_polarization_refuted` [SNF], `C31_one_polarization` [SNF]. Note: false of the code: the cache key lacks the polarization; true for one polarization.

**C60 (proved) The announced number of rows is the number of rows.** Loops of pspec; induction over windows, polarizations, pairs; witnesses. Files: PspecProps. Theorems: `C60_count`. Note: the unrestricted claim is C120.

**C61 (proved) E matrices reproduce q_hat.** Complex matrices as functions of their indices; finite sums, roots of unity. Files: OqePairProps. Theorems: `E_is_q_hat` [SNF], `E_swap` [SNF].

**C62 (proved) E matrices reproduce q_hat with exact_norm for diagonal weightings.** Complex matrices as functions of their indices; finite sums, roots of unity. Files: OqePairProps. Theorems: `E_exact_norm_is_q_hat_diagonal` [SNF]. Note: the unrestricted claim is C121.

**C63 (proved) The unnormalised covariance V is Hermitian.** Complex matrices as functions of their indices; finite sums, roots of unity. Files: OqePairProps. Theorems: `V_hermitian` [SF].

**C64 (proved) V^-1/2 normalisation decorrelates band powers with real covariance.** Complex matrices as functions of their indices; finite sums, roots of unity. Files: OqePairProps. Theorems: `v_half_decorrelates_real` [SNF]. Note: the unrestricted claim is C122.

**C65 (proved) Weighted covariance of visibilities.** Covariances and analytic covariance as finite complex sums; algebra. Files: CovProps. Theorems: `cov_accepts` [SF], `cov_exchange` [SF], `cov_hermitian` [SF], `cov_pseudo` [SF], `cov_unit_weights` [SF].

**C66 (proved) Every integration gets a covariance, its own unless the time shortcut is taken.** Covariances and analytic covariance as finite complex sums; algebra. Files: CovProps. Theorems: `analytic_covariance_times` [SNF], `analytic_covariance_per_time` [SNF], `analytic_covariance_uniform` [SNF]. Note: the unrestricted claim is C123.

**C67 (proved) Band-power covariance is M C M^dagger above 1e-8.** Covariances and analytic covariance as finite complex sums; algebra. Files: CovProps, OqePairProps. Theorems: `cov_p_propagates_above_threshold` [SF], `cov_p_hat_real_M` [SF]. Note: the unrestricted claim is C124.

**C68 (proved) Foreground-dependent covariance.** Covariances and analytic covariance as finite complex sums; algebra. Files: CovProps. Theorems: `foreground_term_is_trace` [SF], `clip_sn_spec` [SF].

**C69 (proved) Empirical covariances give real symmetric band-power covariances.** Covariances and analytic covariance as finite complex sums; algebra. Files: CovProps. Theorems: `general_covariance_real_symmetric` [SF], `empirical_model_consistent` [SF].

**C70 (proved) broadcast_dset_flags flags other channels only completely.** Boolean waterfalls; induction over channels and windows. Files: FlagProps. Theorems: `broadcast_outside_windows_columns`. Note: the unrestricted claim is C125.

**C71 (partial) construct_pstokes does not change its arguments.** Complex arithmetic on flat arrays; ring/field. Files: PstokesProps. Theorems: `pstokes_arguments_partial`, `pstokes_arguments_refuted` [SF]. Note: false of the code when pol_convention is unset on a one-polarization object: it is set on the caller's object; otherwise true.

**C72 (proved) trim_dset_lsts matches only LSTs within the tolerance.** Lists of times; induction, witnesses. Files: TimesProps. Theorems: `trim_matched_within_tolerance`. Note: the unrestricted claim is C126.

**C73 (partial) Command-line switches and blanks.** String splitting; induction on strings. Files: CliProps. Theorems: `bool_switch_refuted`, `str_tuples_blank_refuted`, `str_tuples_round_trip`. Note: false of the code.

**C74 (proved) Cosmological distances.** Distances as Riemann integrals (Coquelicot); field, derivative of the integral. Files: ConvProps. Theorems: `DC_zero` [SNF], `DC_derivative` [SNCF], `dRpara_is_derivative` [SNCF], `DC_increasing` [SNCF], `DM_flat` [SNF], `DM_open` [SNCF], `DM_closed` [SNCF], `X2Y_positive` [SNCF], `default_curvature` [SNF], `params_round_trip` [SF], `matter_sum` [SF], `default_cosmology` [SF].

**C75 (partial) A given matter density is split between baryons and dark matter.** Distances as Riemann integrals (Coquelicot); field, derivative of the integral. Files: ConvProps. Theorems: `matter_split_partial` [SF], `matter_split_refuted` [SF]. Note: false of the code: the test 'np.isclose(...) is False' never holds, so inconsistent parts are kept; true when the parts already add up.

**C76 (proved) Beam normalisation laws.** Scalars as trapezoidal sums over arbitrary beams and tapers; algebra, control-flow computation. Files: ScalarProps. Theorems: `scalar_little_h` [SNF], `noise_scalar_no_taper` [SF], `noise_scalar_is_density` [SF], `scalar_beam_ratio` [SF], `exact_norm_mean_X2Y` [SF], `scalar_positive` [SF], `gaussian_beam_areas` [SNCF].

**C77 (partial) The two noise scalars agree.** Scalars as trapezoidal sums over arbitrary beams and tapers; algebra, control-flow computation. Files: ScalarProps. Theorems: `noise_scalars_agree_partial` [SF], `noise_scalars_agree_refuted` [SF]. Note: false of the code: the band of Sensitivity.calc_scalar ends one channel early; proportional with the ratio of bandwidths.

**C78 (proved) PSpecBeamFromArray returns what was given.** Scalars as trapezoidal sums over arbitrary beams and tapers; algebra, control-flow computation. Files: ScalarProps. Theorems: `from_array_lookup`, `from_array_missing`, `from_array_accepts`.

**C79 (partial) PSpecBeamFromArray leaves its dictionaries alone.** Scalars as trapezoidal sums over arbitrary beams and tapers; algebra, control-flow computation. Files: ScalarProps. Theorems: `from_array_arguments_partial`, `from_array_arguments_refuted` [S]. Note: false of the code: keys are renamed in, and polarizations added to, the caller's dictionaries.

**C80 (proved) Jy_to_mK converts each dataset once.** Scalars as trapezoidal sums over arbitrary beams and tapers; algebra, control-flow computation. Files: ScalarProps. Theorems: `Jy_to_mK_once` [S], `Jy_to_mK_idempotent` [S], `jy_factor_rayleigh_jeans` [SF].

**C81 (partial) Jy_to_mK works with different numbers of polarizations.** Scalars as trapezoidal sums over arbitrary beams and tapers; algebra, control-flow computation. Files: ScalarProps. Theorems: `Jy_to_mK_partial` [S], `Jy_to_mK_ragged_refuted` [S]. Note: false of the code; true when all datasets have as many polarizations.

**C82 (proved) set_beam gives a Sensitivity and its beam one cosmology.** Scalars as trapezoidal sums over arbitrary beams and tapers; algebra, control-flow computation. Files: ScalarProps. Theorems: `sensitivity_set_beam_cosmology`, `sensitivity_params`. Note: the unrestricted claim is C127.

**C83 (proved) Noise spectra of an object.** Real formulas with infinities as values; field, lra, sqrt lemmas. Files: NoiseProps. Theorems: `noise_spectra_rows` [SNF], `noise_spectra_accepts_float` [SNF].

**C84 (partial) Noise spectra accept the documented inputs.** Real formulas with infinities as values; field, lra, sqrt lemmas. Files: NoiseProps. Theorems: `noise_spectra_dict_refuted` [SNF], `noise_spectra_missing_times_refuted` [SNF], `noise_spectra_stokes_refuted` [SNF], `noise_spectra_rows` [SNF]. Note: false of the code.

**C85 (partial) A failed or negative bias correction is harmless.** Real formulas with infinities as values; field, lra, sqrt lemmas. Files: NoiseProps. Theorems: `bias_errors_sign_refuted` [SF], `bias_failure_refuted` [SF], `bias_copy_untouched` [S]. Note: false of the code.

**C86 (proved) Approximate delay-delay covariance.** Real formulas with infinities as values; field, lra, sqrt lemmas. Files: ApproxProps. Theorems: `corr_is_correlation` [SNF], `corr_positive_semidefinite` [SNF], `approx_covariance` [SNF], `approx_covariance_accepts` [SNF].

**C87 (partial) Approximate covariance for folded objects.** Real formulas with infinities as values; field, lra, sqrt lemmas. Files: ApproxProps. Theorems: `approx_covariance_accepts` [SNF], `approx_covariance_folded_refuted` [SNF]. Note: false of the code: folded objects are refused with a shape error.

**C88 (proved) uvd_to_Tsys uses each polarization's own factor on alphabetical axes.** Real formulas with infinities as values; field, lra, sqrt lemmas. Files: ApproxProps. Theorems: `tsys_own_factor_sorted`. Note: the unrestricted claim is C128.

**C89 (proved) Exact windows use each polarization's own beam for equal or mixed-feed pairs.** Window functions as finite sums over pixels and channels; DFT symmetry, finite-sum algebra. Files: WinProps. Theorems: `window_beams_own` [SF], `uvwindow_pols_spec` [SF]. Note: the unrestricted claim is C129.

**C90 (proved) Each computed delay row is the window function of its delay.** Window functions as finite sums over pixels and channels; DFT symmetry, finite-sum algebra. Files: WinCylProps. Theorems: `cylindrical_rows_exact` [SNF]. Note: the unrestricted claim is C130.

**C91 (proved) Cylindrical window functions are normalised cross powers.** Window functions as finite sums over pixels and channels; DFT symmetry, finite-sum algebra. Files: WinCylProps. Theorems: `cross_power` [SNF], `cross_power_symmetric` [SNF], `cross_power_nonneg` [SNF], `rows_mirrored` [SF], `quarter_row_even` [SF], `quarter_row_odd` [SF], `odd_rows_exact` [SF], `cylindrical_normalised` [SF], `cylindrical_nonneg` [SNF], `cylindrical_accepts` [SF].

**C92 (proved) Spherical window functions are normalised weighted means.** Window functions as finite sums over pixels and channels; DFT symmetry, finite-sum algebra. Files: WinCylProps. Theorems: `spherical_rows_normalised` [SF], `spherical_rows_nonneg` [SF], `spherical_weights_scale` [SF], `spherical_redundant` [SF].

**C93 (proved) Default k_parallel bins include every delay but zero.** Window functions as finite sums over pixels and channels; DFT symmetry, finite-sum algebra. Files: WinCylProps. Theorems: `kpara_bins_cover_nonzero` [SF]. Note: the unrestricted claim is C131.

**C94 (partial) k bins may be given in any equivalent unit.** Window functions as finite sums over pixels and channels; DFT symmetry, finite-sum algebra. Files: WinCylProps. Theorems: `kbins_units_partial` [SF], `kbins_units_refuted` [SF]. Note: false of the code: equivalent units are accepted and the bare numbers used; true for the object's own unit.

**C95 (proved) run_and_write without clobber never touches an existing file.** Window functions as finite sums over pixels and channels; DFT symmetry, finite-sum algebra. Files: WinCylProps. Theorems: `run_and_write_outcomes`. Note: the unrestricted claim is C132.

**C96 (proved) Exact window functions of an object.** Window functions as finite sums over pixels and channels; DFT symmetry, finite-sum algebra. Files: WinCylProps. Theorems: `exact_rows_group`, `exact_windows_inplace`, `exact_windows_accepts`.

**C97 (partial) Exact window functions of folded objects.** Window functions as finite sums over pixels and channels; DFT symmetry, finite-sum algebra. Files: WinCylProps. Theorems: `exact_windows_folded_refuted`, `exact_windows_accepts`. Note: false of the code: shape error.

**C98 (partial) select_common reduces all objects to their common polarization pairs.** Record of a UVPSpec with row metadata and per-window arrays, _select step by step; mask/gather lemmas, invariants of well-formed objects. Files: UvpProps. Theorems: `C07_polpairs_refuted`, `C07_select_common`. Note: false of the code: the list is computed and then not passed; the theorem without refuted says that all polarization pairs are kept; the part that holds is C07.

**C99 (partial) Data and delay axes have the same length through all histories.** Fold as explicit slices over rationals, histories of select and fold; index arithmetic, induction over histories. Files: UvpProps. Theorems: `C09_fold_then_select_refuted`, `C09_short_window_refuted`, `C09_lengths`. Note: false of the code after select(spws=) of a folded object and for windows of fewer than three delays; the part that holds is C09.

**C100 (partial) Folding treats zero-delay covariances and estimated window functions like the data.** Fold as explicit slices over rationals, histories of select and fold; index arithmetic, induction over histories. Files: FoldProps. Theorems: `C10_covariance_zero_row_refuted`, `C10_window_identity_refuted`, `C10_fold_covariance`. Note: false of the code for every size; the part that holds is C10.

**C101 (partial) combine_uvpspec never misattributes data, whatever the internal orders.** Merge as nested gathers over keyed rows; list induction, strong induction on the number of objects, witnesses. Files: CombineProps. Theorems: `C11_unsorted_windows_refuted`, `C11_row_order_refuted`, `C11_same_first_time_refuted`, `C11_combine_aligned`. Note: false of the code for unsorted windows, different row orders and equal first times; the part that holds is C11.

**C102 (partial) PSpecContainer: a failed overwrite does not lose the stored spectrum.** Container as a state machine on a two-level dictionary with a log of writes and an oracle for failing opens; invariants over histories, refinement to a map. Files: ContainerProps. Theorems: `C15_failed_overwrite_refuted`, `C15_crash_refuted`, `C15_never_torn`. Note: false of the code: the old spectrum is deleted before the new one is checked and written; the part that holds is C15.

**C103 (partial) PSpecContainer: file closed also in SWMR read-write mode without header.** Container as a state machine on a two-level dictionary with a log of writes and an oracle for failing opens; invariants over histories, refinement to a map. Files: ContainerProps. Theorems: `C16_swmr_left_open_refuted`, `C16_closed_after_call`. Note: false of the code: the failing call leaves the file open; the part that holds is C16.

**C104 (partial) combine_psc_spectra recognises extensions for all names.** Container as a state machine on a two-level dictionary with a log of writes and an oracle for failing opens; invariants over histories, refinement to a map. Files: PscCombineProps. Theorems: `C17_substring_refuted`, `C17_underscore_label_refuted`, `C17_merge`. Note: false of the code: any name containing the output name is merged; the part that holds is C17.

**C105 (partial) Averaging in two steps, tiny error bars and exact window functions.** Averaging with real weights, at row level and at object level; algebra, permutations. Files: AvgProps. Theorems: `C18_two_steps_unequal_times_refuted` [SF], `C18_small_error_bars_refuted` [SNF], `C18_exact_window_rows_refuted` [SF]. Note: false of the code in all three respects; the part that holds is C18.

**C106 (partial) All relative baseline-pair weights are honoured.** Averaging with real weights, at row level and at object level; algebra, permutations. Files: AvgProps. Theorems: `C19_weights_refuted` [SF], `C19_underweight_dropped` [SF], `C19_unnormalised_refuted` [SF], `C19_integer_weights` [SF]. Note: false of the code: normalised weights are truncated to integers; the part that holds is C19.

**C107 (partial) Bootstrap of several objects.** Averaging with real weights, at row level and at object level; algebra, permutations. Files: GroupProps. Theorems: `C20_several_objects_refuted`, `C20_several_objects_error`. Note: false of the code: always a TypeError; the part that holds is C20.

**C108 (partial) Baseline grouping rejects a negative number of groups.** Slices of lists, shuffles as permutations; list induction. Files: GroupProps. Theorems: `C21_negative_refuted`, `C21_errors`. Note: false of the code: a negative number loses all baselines; the part that holds is C21.

**C109 (partial) job_monitor retries the failing elements of any iterator.** List processing; induction, permutation lemmas, oracle for job outcomes. Files: UtilsProps. Theorems: `C26_retry_index_refuted`, `C26_range_jobs`. Note: false of the code: retries run the index instead of the element; the part that holds is C26.

**C110 (partial) Slicing with spw_range_from_freqs gives the channels in range.** List processing; induction, permutation lemmas, oracle for job outcomes. Files: UtilsProps. Theorems: `C27_slice_refuted`, `C27_channels`. Note: false of the code: slicing with the indices always loses the last channel; the part that holds is C27.

**C111 (partial) Cached matrices stay consistent through all setters.** PSpecData as a state machine with caches; invariants over histories of calls, witnesses. Files: PdProps. Theorems: `C29_stale_refuted` [SNF], `C29_stale_dayenu_refuted` [SNF], `C29_set_spw_refuted` [SNF], `C29_same_size_refuted` [SNF], `C29_symmetric_refuted` [SNF], `C29_fresh_after_clear` [SNF]. Note: false of the code: the cache is not invalidated; the part that holds is C29.

**C112 (partial) pspec() output rows are aligned also when the first polarization pair is skipped.** Loops of pspec; induction over windows, polarizations, pairs; witnesses. Files: PspecProps. Theorems: `C30_first_invalid_refuted`, `C30_aligned`. Note: false of the code: the metadata arrays are empty; the part that holds is C30.

**C113 (partial) Redundant groups are returned in order of length.** List processing; induction, permutation lemmas, oracle for job outcomes. Files: UtilsProps. Theorems: `C48_long_baselines_refuted`, `C48_ascending`. Note: false of the code: the lengths are compared as three-digit text; the part that holds is C48.

**C114 (partial) Spherical averaging propagates error bars of every size.** Binning matrices over the reals; finite-sum algebra. Files: SphProps. Theorems: `C50_small_errors_refuted` [SNF], `C50_errors` [SNF]. Note: false of the code: results below 1e-8 are replaced by 1e40; the part that holds is C50.

**C115 (partial) Spherical averaging keeps times and LSTs aligned with the data.** Binning matrices over the reals; finite-sum algebra. Files: SphProps. Theorems: `C52_time_average_refuted`, `C52_lst_wrap_refuted`, `C52_metadata`. Note: false of the code with time averaging and when LSTs wrap; the part that holds is C52.

**C116 (partial) Spherically averaged window functions stay normalised for all lengths.** Binning matrices over the reals; finite-sum algebra. Files: SphProps. Theorems: `C53_two_lengths_refuted` [SNF], `C53_window_one_length` [SNF]. Note: false of the code for two lengths; the part that holds is C53.

**C117 (partial) The extended window stays inside the data.** PSpecData as a state machine with caches; invariants over histories of calls, witnesses. Files: PdProps. Theorems: `C56_window_after_extension_refuted` [SNF], `C56_set_extension` [SNF]. Note: false of the code when the window changes afterwards; the part that holds is C56.

**C118 (partial) A failing setter changes nothing.** PSpecData as a state machine with caches; invariants over histories of calls, witnesses. Files: PdProps. Theorems: `C57_set_spw_refuted` [SNF], `C57_set_extension_refuted` [SNF], `C57_weights_accepted_refuted` [SF], `C57_atomic` [SNF], `binary_weights` [SF]. Note: false of set_spw and set_filter_extension, and of weights; the part that holds is C57.

**C119 (partial) The windows of a pspec call do not influence each other.** PSpecData as a state machine with caches; invariants over histories of calls, witnesses. Files: PdProps. Theorems: `C58_later_windows_refuted` [SNF], `C58_one_sided_refuted` [SNF], `C58_next_call_refuted` [SNF], `C58_identity_windows` [SNF]. Note: false of the other weightings and after a failure; the part that holds is C58.

**C120 (partial) The announced number of rows is right with repeated baseline-pairs.** Loops of pspec; induction over windows, polarizations, pairs; witnesses. Files: PspecProps. Theorems: `C60_repeated_refuted`, `C60_count`. Note: false of the code with repetitions; the part that holds is C60.

**C121 (partial) E matrices reproduce q_hat with exact_norm.** Complex matrices as functions of their indices; finite sums, roots of unity. Files: OqePairProps. Theorems: `E_exact_norm_refuted` [SNF], `E_exact_norm_is_q_hat_diagonal` [SNF]. Note: false of the code: the beam factor is applied after the multiplication by R2; the part that holds is C62.

**C122 (partial) V^-1/2 normalisation decorrelates the band powers.** Complex matrices as functions of their indices; finite sums, roots of unity. Files: OqePairProps. Theorems: `v_half_complex_refuted` [SNF], `v_half_decorrelates_real` [SNF]. Note: false for complex covariances: the eigenvectors are not conjugated; the part that holds is C64.

**C123 (partial) Every integration gets its own covariance.** Covariances and analytic covariance as finite complex sums; algebra. Files: CovProps. Theorems: `analytic_covariance_shortcut_refuted` [SNF], `analytic_covariance_per_time` [SNF]. Note: false of the code: the shortcut looks only at C11; the part that holds is C66.

**C124 (partial) Band-power covariance is M C M^dagger.** Covariances and analytic covariance as finite complex sums; algebra. Files: CovProps, OqePairProps. Theorems: `cov_p_small_refuted` [SF], `cov_p_hat_refuted` [SF], `cov_p_propagates_above_threshold` [SF]. Note: false of the code for small numbers, and for complex M in cov_p_hat; the part that holds is C67.

**C125 (partial) broadcast_dset_flags leaves the other channels alone.** Boolean waterfalls; induction over channels and windows. Files: FlagProps. Theorems: `broadcast_outside_windows_refuted`, `broadcast_outside_windows_columns`. Note: false of the code: a channel over the threshold is flagged over the whole band; the part that holds is C70.

**C126 (partial) trim_dset_lsts matches LSTs iff they are within the tolerance.** Lists of times; induction, witnesses. Files: TimesProps. Theorems: `trim_tolerance_refuted`, `trim_matched_within_tolerance`. Note: false of the code: LSTs are rounded to text, and those closer than the tolerance may be separated; the part that holds is C72.

**C127 (partial) Sensitivity and its beam always share one cosmology.** Scalars as trapezoidal sums over arbitrary beams and tapers; algebra, control-flow computation. Files: ScalarProps. Theorems: `sensitivity_new_cosmology_refuted`, `sensitivity_beam_argument_refuted`, `sensitivity_set_beam_cosmology`, `sensitivity_params_refuted`. Note: false of the code: set_cosmology does not reach the beam, set_beam changes the caller's beam; the part that holds is C82.

**C128 (partial) uvd_to_Tsys uses each polarization's own factor.** Real formulas with infinities as values; field, lra, sqrt lemmas. Files: ApproxProps. Theorems: `tsys_own_factor_refuted`, `tsys_own_factor_sorted`. Note: false of the code when the polarization axis is not alphabetical, as for nn, ee; the part that holds is C88.

**C129 (partial) Exact windows use each polarization's own beam.** Window functions as finite sums over pixels and channels; DFT symmetry, finite-sum algebra. Files: WinProps. Theorems: `window_beams_refuted` [SF], `window_beams_own` [SF]. Note: false of the code: characters of the second name are compared, so that ('xx','yy') uses the xx beam twice; the part that holds is C89.

**C130 (partial) Each delay row is the window function of its delay.** Window functions as finite sums over pixels and channels; DFT symmetry, finite-sum algebra. Files: WinCylProps. Theorems: `odd_quarter_refuted` [SNF], `even_mirror_refuted` [SNF], `cylindrical_rows_exact` [SNF]. Note: false of the code: for odd channel counts the row at 3/4 is that of the delay before it; for even ones mirrored rows are those of the opposite delay; the part that holds is C90.

**C131 (partial) Default k_parallel bins include every delay.** Window functions as finite sums over pixels and channels; DFT symmetry, finite-sum algebra. Files: WinCylProps. Theorems: `kpara_bins_cover_refuted` [SF], `kpara_bins_cover_nonzero` [SF]. Note: false of the code for delay 0; the part that holds is C93.

**C132 (partial) run_and_write keeps the old file when it fails.** Window functions as finite sums over pixels and channels; DFT symmetry, finite-sum algebra. Files: WinCylProps. Theorems: `run_and_write_refuted`, `run_and_write_outcomes`. Note: false of the code: with clobber the old file is removed before the computation; the part that holds is C95.

**C133 (proved) A UVPSpec written to a file is read back.** Groups as dictionaries, names as character lists; injectivity and parsing of the dataset names, lookup lemmas by induction; counterexamples by vm_compute. Files: H5Props. Theorems: `write_succeeds`, `write_read_round_trip`, `required_parameters_stored`, `statistics_in_order`. Note: values are abstract: the encoding of attributes (byte strings, the cosmology as text) is assumed invertible; that the class's check passes is the hypothesis `complete`.

**C134 (partial) Every required parameter survives writing and reading.** Groups as dictionaries, names as character lists; injectivity and parsing of the dataset names, lookup lemmas by induction; counterexamples by vm_compute. Files: H5Props. Theorems: `symmetric_taper_stored_refuted`, `required_parameters_stored`. Note: false of the code: symmetric_taper is declared without underscore, so it is neither written nor cleared.

**C135 (proved) Reading part of a file is reading it all and selecting.** Groups as dictionaries, names as character lists; injectivity and parsing of the dataset names, lookup lemmas by induction; counterexamples by vm_compute. Files: H5Props. Theorems: `partial_read_is_select`. Note: what a selection does to the metadata is an arbitrary function here; UvpModel has the real one.

**C136 (proved) Reading only the metadata gives the metadata of the full read.** Groups as dictionaries, names as character lists; injectivity and parsing of the dataset names, lookup lemmas by induction; counterexamples by vm_compute. Files: H5Props. Theorems: `metadata_read_alone`.

**C137 (partial) Reading only the metadata gives all metadata of the full read.** Groups as dictionaries, names as character lists; injectivity and parsing of the dataset names, lookup lemmas by induction; counterexamples by vm_compute. Files: H5Props. Theorems: `metadata_same_refuted`, `metadata_read_alone`. Note: false of the code: OmegaP, OmegaPP and r_params are only selected when the arrays are loaded.

**C138 (proved) Reading leaves no trace of the object that is overwritten.** Groups as dictionaries, names as character lists; injectivity and parsing of the dataset names, lookup lemmas by induction; counterexamples by vm_compute. Files: H5Props. Theorems: `read_replaces`.

**C139 (partial) Reading replaces every required parameter.** Groups as dictionaries, names as character lists; injectivity and parsing of the dataset names, lookup lemmas by induction; counterexamples by vm_compute. Files: H5Props. Theorems: `read_replaces_all_refuted`, `read_replaces`. Note: false of the code: symmetric_taper of the old object survives.

**C140 (proved) write_hdf5 does not touch an existing file unless told to.** Groups as dictionaries, names as character lists; injectivity and parsing of the dataset names, lookup lemmas by induction; counterexamples by vm_compute. Files: H5Props. Theorems: `existing_file_kept`.

**C141 (partial) A failing overwrite keeps the old file.** Groups as dictionaries, names as character lists; injectivity and parsing of the dataset names, lookup lemmas by induction; counterexamples by vm_compute. Files: H5Props. Theorems: `overwrite_is_safe_refuted`, `existing_file_kept`. Note: false of the code: the old file is removed before the object is checked.

**C142 (proved) Selecting keeps the filter parameters of the selected baselines.** Compression model of C04 extended by the filter; lookups through compression. Files: RSelectProps. Theorems: `select_keeps_r_params`, `r_params_read_back`. Note: JSON is assumed to preserve values.

**C143 (partial) The filter parameters used by pspec are recorded.** Compression model of C04 extended by the filter; lookups through compression. Files: RSelectProps. Theorems: `r_params_recorded_refuted`, `select_drops_dataset_keys`, `pspec_needs_r_params`. Note: false of the code: pspec wants keys that start with the dataset, _select keeps only keys without.

**C144 (proved) Equality of UVPSpec objects is reflexive and implies closeness.** Rational arrays; induction over parameters; counterexamples by vm_compute. Files: EqProps. Theorems: `eq_reflexive`, `eq_within_tolerance`, `eq_broadcast`, `compared_parameters`. Note: rational numbers, one-dimensional arrays.

**C145 (partial) Equality of UVPSpec objects is an equivalence that sees every difference.** Rational arrays; induction over parameters; counterexamples by vm_compute. Files: EqProps. Theorems: `eq_symmetric_refuted`, `eq_total_refuted`, `eq_same_shape_refuted`, `eq_same_windows_refuted`, `eq_distinguishes_nights_refuted`, `eq_sees_parameter_refuted`, `eq_nan_refuted`, `eq_within_tolerance`, `eq_missing_in_both`, `eq_needs_data`. Note: false of the code in each part; what does hold is C144.

**C146 (proved) Spherical averaging propagates covariances.** Real sums over modes. Files: SphProps. Theorems: `sph_covariance` [SNF]. Note: real arithmetic.

**C147 (proved) Setting a cosmology renormalises the spectra.** Real-valued objects as functions of window, row, delay, polarization; the double loop as a fold over pairs without repetition, pointwise invariant; counterexamples in a universe where all integrals are explicit (E(z) constant). Files: CosmoProps. Theorems: `set_cosmology_renormalizes` [SNF], `set_cosmology_guarded` [SNF], `set_cosmology_without_beam` [SNF], `set_cosmology_last_wins` [SNF], `set_cosmology_back` [SNF]. Note: real arithmetic; scalars non-zero; polarization pairs without duplicates.

**C148 (partial) After setting a cosmology the stated units are right.** Real-valued objects as functions of window, row, delay, polarization; the double loop as a fold over pairs without repetition, pointwise invariant; counterexamples in a universe where all integrals are explicit (E(z) constant). Files: CosmoProps. Theorems: `set_cosmology_units` [SNF], `set_cosmology_units_refuted` [SNF], `contains_spec`. Note: false of the code: h^-3 volumes are used whatever the units, and units that contain Mpc are kept.

**C149 (partial) Setting a cosmology keeps relative errors.** Real-valued objects as functions of window, row, delay, polarization; the double loop as a fold over pairs without repetition, pointwise invariant; counterexamples in a universe where all integrals are explicit (E(z) constant). Files: CosmoProps. Theorems: `set_cosmology_errors_refuted` [SNF], `set_cosmology_relative_errors_refuted` [SNF]. Note: false of the code: only data_array is rescaled.

**C150 (partial) Setting the cosmology that the object has does not change it.** Real-valued objects as functions of window, row, delay, polarization; the double loop as a fold over pairs without repetition, pointwise invariant; counterexamples in a universe where all integrals are explicit (E(z) constant). Files: CosmoProps. Theorems: `set_cosmology_back` [SNF], `set_cosmology_exact_norm_refuted` [SNF]. Note: false of the code for exact_norm=True, which the object does not record; proved for scalars computed as set_cosmology does (pspec itself integrates with 2000 steps, not 1000).

**C151 (proved) Conversion to Delta^2.** Real-valued objects as functions of window, row, delay, polarization; the double loop as a fold over pairs without repetition, pointwise invariant; counterexamples in a universe where all integrals are explicit (E(z) constant). Files: CosmoProps. Theorems: `deltasq_values` [SNF], `deltasq_unit_free` [SNF], `deltasq_needs_cosmology` [SNF]. Note: real arithmetic.

**C152 (partial) Delta^2 stays Delta^2.** Real-valued objects as functions of window, row, delay, polarization; the double loop as a fold over pairs without repetition, pointwise invariant; counterexamples in a universe where all integrals are explicit (E(z) constant). Files: CosmoProps. Theorems: `deltasq_twice_refuted` [SNF], `deltasq_then_cosmology_refuted` [SNF]. Note: false of the code in both cases.

**C153 (proved) Trimming to common LSTs checks the grids.** Grid test in integers (doubled medians); uniform grids by induction. Files: TimesProps. Theorems: `trim_same_spacing_accepted`, `trim_other_spacing_refused`, `trim_accepts`, `trim_rounds_to_nearest`, `lst_spacing_is_median`. Note: lst_tol=6, LSTs in units of 1e-9 radians.

**C154 (partial) Trimming works for datasets of any length.** Grid test in integers (doubled medians); uniform grids by induction. Files: TimesProps. Theorems: `trim_single_lst_refuted`, `trim_accepts`. Note: false of the code: the median of no differences is nan.

**C155 (proved) pspec refuses what it cannot pair.** Induction over the three loops of C30. Files: PspecProps. Theorems: `C30_refuses`, `C30_errors`. Note: the class of the error is not part of the claim.

**C156 (proved) Subtraction of matching spectra.** Objects as lists of rows, cells looked up by window and polarization pair; the three loops as a fold over a duplicate-free list of keys with the invariant that untreated views are the original ones. Files: SubProps. Theorems: `subtract_matches` [SNF]. Note: real arithmetic; hypotheses spelled out in `subtractable`.

**C157 (proved) Weights of a difference.** Objects as lists of rows, cells looked up by window and polarization pair; the three loops as a fold over a duplicate-free list of keys with the invariant that untreated views are the original ones. Files: SubProps. Theorems: `subtract_weights` [SNF]. Note: numpy: 1/0 = inf, 1/inf = 0, 0/0 = nan.

**C158 (partial) Subtraction matches LSTs.** Objects as lists of rows, cells looked up by window and polarization pair; the three loops as a fold over a duplicate-free list of keys with the invariant that untreated views are the original ones. Files: SubProps. Theorems: `subtract_by_lst_refuted` [SNF], `subtract_row_order_refuted` [SNF], `subtract_matches` [SNF]. Note: false of the code: baseline-pairs and LSTs are selected independently and the rows are then paired by position.

**C159 (partial) Covariance of a difference.** Objects as lists of rows, cells looked up by window and polarization pair; the three loops as a fold over a duplicate-free list of keys with the invariant that untreated views are the original ones. Files: SubProps. Theorems: `subtract_covariance_refuted` [SNF], `subtract_covariance_stale_refuted` [SNF], `subtract_arrays` [SNF]. Note: false of the code: sqrt(cov1^2+cov2^2) is stored, and without statistics the covariance of the first object is kept.

**C160 (partial) Window functions of a difference.** Objects as lists of rows, cells looked up by window and polarization pair; the three loops as a fold over a duplicate-free list of keys with the invariant that untreated views are the original ones. Files: SubProps. Theorems: `subtract_window_refuted` [SNF]. Note: false of the code: sqrt(w1^2+w2^2) is stored.

**C161 (partial) Subtraction removes what does not overlap.** Objects as lists of rows, cells looked up by window and polarization pair; the three loops as a fold over a duplicate-free list of keys with the invariant that untreated views are the original ones. Files: SubProps. Theorems: `subtract_polpairs_refuted` [SNF], `subtract_folded_refuted` [SNF]. Note: false of the code: every such call ends in an error (proved for all inputs).

**C162 (proved) Dataset and baseline keys.** Keys as lists of elements; labels by position; case analysis. Files: DsetProps. Theorems: `blkey_spellings`, `blkey_parts`, `blkey_label`, `blkey_errors`.

**C163 (partial) Malformed keys are refused.** Keys as lists of elements; labels by position; case analysis. Files: DsetProps. Theorems: `blkey_unchecked_refuted`. Note: false of the code: neither is checked.

**C164 (proved) Validation of datasets.** Records of the compared attributes; boolean loop vs logical specification; counterexamples with three datasets and at LST 2 pi. Files: DsetProps. Theorems: `validate_accepts` [SF], `validate_warns` [SF]. Note: exact arithmetic.

**C165 (partial) Validation finds every misalignment.** Records of the compared attributes; boolean loop vs logical specification; counterexamples with three datasets and at LST 2 pi. Files: DsetProps. Theorems: `validate_pairwise_refuted` [SF], `validate_wrap_refuted` [SNCF]. Note: false of the code: comparison with the first dataset only, and not modulo 2 pi.

**C166 (proved) Rephasing turns the phases only.** State (datasets) and result; loop with early exit; phase factor a parameter; counterexamples with two or three one-sample datasets. Files: DsetProps. Theorems: `rephase_values` [SNF], `rephase_amplitudes` [SNF], `rephase_pol_slots` [SNF]. Note: the phase factor itself (utils.lst_rephase of hera_cal) is a parameter, exp(i(angle(lst_ref) - angle(lst))).

**C167 (partial) Rephasing is done once.** State (datasets) and result; loop with early exit; phase factor a parameter; counterexamples with two or three one-sample datasets. Files: DsetProps. Theorems: `rephase_skips_refuted` [SNF], `rephase_twice_refuted` [SNF]. Note: false of the code: the guard warns and then goes on, and a second call turns the phases again.

**C168 (partial) Rephasing keeps polarizations apart.** State (datasets) and result; loop with early exit; phase factor a parameter; counterexamples with two or three one-sample datasets. Files: DsetProps. Theorems: `rephase_pol_order_refuted` [SNF]. Note: false of the code: data are written back in the order of the reference's polarizations.

**C169 (partial) A failed rephasing changes nothing.** State (datasets) and result; loop with early exit; phase factor a parameter; counterexamples with two or three one-sample datasets. Files: DsetProps. Theorems: `rephase_failure_refuted` [SNF]. Note: false of the code: datasets before the failing one stay rephased.

**C170 (proved) Covariance of bandpowers over times.** Entrywise complex matrices with nan as None; fold over pairs of keys. Files: CovqProps. Theorems: `covq_single` [SF], `covq_many` [SF], `covq_times` [SF], `covq_keys` [SF]. Note: exact arithmetic; division by zero is nan.

**C171 (partial) Times beyond the data are refused.** Entrywise complex matrices with nan as None; fold over pairs of keys. Files: CovqProps. Theorems: `covq_time_range_refuted` [SF], `covq_times` [SF], `covq_time_at_end` [SF]. Note: false of the code at the boundary: the number of times itself is accepted.

**C172 (partial) Covariance of an inverse-variance average.** Entrywise complex matrices with nan as None; fold over pairs of keys. Files: CovqProps. Theorems: `covq_inverse_weights_refuted` [SF], `covq_model_refuted` [SF]. Note: false of the code: harmonic mean not divided by n; unknown models give nan throughout.

**C173 (proved) Noise variance from autocorrelations.** Real-valued lists; median by insertion sort, bounded by its arguments. Files: CovqProps. Theorems: `autos_nsamples` [SF], `autos_variance` [SNF], `autos_symmetric` [SNF]. Note: exact arithmetic.

**C174 (partial) Noise variance uses the baseline's integration time.** Real-valued lists; median by insertion sort, bounded by its arguments. Files: CovqProps. Theorems: `autos_integration_refuted` [SNF], `autos_variance` [SNF]. Note: false of the code: median over all baselines.

**C175 (proved) Bootstrap files hold, for every spectrum, its average and resamples.** A container as an association list from (group, name) to objects, the averaging and the random state parameters; induction over the groups and names, frame invariant; counterexamples by computation. Files: RunProps. Theorems: `bootstrap_names_distinct`, `bootstrap_run_outputs`. Note: hypothesis: no chosen spectrum is named like an output of a chosen spectrum.

**C176 (proved) Bootstrap runs never damage the file.** A container as an association list from (group, name) to objects, the averaging and the random state parameters; induction over the groups and names, frame invariant; counterexamples by computation. Files: RunProps. Theorems: `bootstrap_run_safe`, `bootstrap_run_nothing`.

**C177 (partial) Bootstrap reports missing spectra.** A container as an association list from (group, name) to objects, the averaging and the random state parameters; induction over the groups and names, frame invariant; counterexamples by computation. Files: RunProps. Theorems: `bootstrap_run_missing_refuted`, `bootstrap_run_nothing`. Note: false of the code: missing spectra are skipped; only a list without any existing spectrum is an error.

**C178 (partial) Bootstrap runs can be repeated.** A container as an association list from (group, name) to objects, the averaging and the random state parameters; induction over the groups and names, frame invariant; counterexamples by computation. Files: RunProps. Theorems: `bootstrap_run_twice_refuted`, `bootstrap_run_inputs_refuted`, `bootstrap_run_failure_refuted`, `bootstrap_run_safe`. Note: false of the code: outputs are processed again by the next run, an input named like an output is replaced before it is processed, and a failed run leaves the outputs made so far.

**C179 (proved) pspec_run: which pairs are used.** The same container; pairs of datasets as a list; pspec() a parameter that may fail; invariant of the loop; counterexamples by computation. Files: PrunProps. Theorems: `run_pairs_default`, `run_blpairs_fed`.

**C180 (proved) pspec_run stores each pair's spectrum under its own name.** The same container; pairs of datasets as a list; pspec() a parameter that may fail; invariant of the loop; counterexamples by computation. Files: PrunProps. Theorems: `pspec_run_outputs`, `pspec_run_safe`, `pspec_run_refuses`, `default_group_distinct`.

**C181 (partial) pspec_run keeps the spectra of all pairs apart.** The same container; pairs of datasets as a list; pspec() a parameter that may fail; invariant of the loop; counterexamples by computation. Files: PrunProps. Theorems: `pspec_run_same_labels_refuted`, `pspec_run_outputs`. Note: false of the code: equal labels are accepted and with overwrite the last pair wins.

**C182 (partial) pspec_run is all or nothing.** The same container; pairs of datasets as a list; pspec() a parameter that may fail; invariant of the loop; counterexamples by computation. Files: PrunProps. Theorems: `pspec_run_failure_refuted`, `pspec_run_safe`. Note: false of the code: the spectra of earlier pairs stay.

**C183 (proved) Statistics are stored where they belong.** Statistics as functions of window, row, delay, polarization with nan as None and a flag for the data type; case analysis, induction over windows and baseline-pairs. Files: StatProps. Theorems: `stats_set_get` [S], `stats_shape` [S].

**C184 (partial) Statistics of any type are kept.** Statistics as functions of window, row, delay, polarization with nan as None and a flag for the data type; case analysis, induction over windows and baseline-pairs. Files: StatProps. Theorems: `stats_set_get_refuted` [SF], `stats_set_get` [S]. Note: false of the code: an array that was first set with real values drops imaginary parts.

**C185 (proved) set_stats_slice sets the side of a line in delay.** Statistics as functions of window, row, delay, polarization with nan as None and a flag for the data type; case analysis, induction over windows and baseline-pairs. Files: StatProps. Theorems: `stats_slice` [SF].

**C186 (proved) Bootstrap standard errors.** Sorted real lists, linear interpolation; algebra and induction on lists. Files: StatProps. Theorems: `std_zero` [SNF], `std_affine` [SNF]. Note: exact arithmetic.

**C187 (proved) Bootstrap percentiles.** Sorted real lists, linear interpolation; algebra and induction on lists. Files: StatProps. Theorems: `percentile_mono` [SF], `percentile_ends` [SF], `percentile_median` [SF], `cinterval_names` [SF]. Note: exact arithmetic.

**C188 (partial) All requested intervals are stored.** Sorted real lists, linear interpolation; algebra and induction on lists. Files: StatProps. Theorems: `cinterval_names_refuted` [SF], `cinterval_names` [SF]. Note: false of the code: names are rounded to hundredths of a percent and collide.

**C189 (proved) Circular averages.** arctan2 and reduction modulo 2 pi over Coq's reals; polar form; monotonicity of atan for the arc. Files: CircProps. Theorems: `circular_average_unique` [SNCF], `circular_average_turns` [SNCF], `circular_average_order` [SNCF], `circular_average_rotate` [SNCF], `circular_average_arc` [SNCF], `circular_average_two` [SNCF]. Note: exact arithmetic.

**C190 (partial) Away from the wrap, circular averages are arithmetic means.** arctan2 and reduction modulo 2 pi over Coq's reals; polar form; monotonicity of atan for the arc. Files: CircProps. Theorems: `circular_average_arithmetic_refuted` [SNCF], `circular_average_two` [SNCF]. Note: false of the code (and stated by its documentation): 0, 0 and 90 degrees average to 26.6 degrees; holds for two angles.

**C191 (proved) Baseline angles.** Real vectors; case analysis on the quadrants; counterexamples with explicit vectors. Files: GeomProps. Theorems: `bl_ang_direction` [SNCF], `bl_ang_conjugate` [SNCF]. Note: exact arithmetic, no signed zeros.

**C192 (partial) Redundant and conjugated baselines have similar angles.** Real vectors; case analysis on the quadrants; counterexamples with explicit vectors. Files: GeomProps. Theorems: `bl_ang_conjugate_refuted` [SNCF], `bl_ang_redundant_refuted` [SNCF], `bl_ang_conjugate` [SNCF]. Note: false of the code around east-west baselines that point west.

**C193 (proved) Redundancy check of baseline-pairs.** Real positions; Cauchy-Schwarz and triangle inequality. Files: GeomProps. Theorems: `validate_exact` [SNF], `validate_silent` [SNF]. Note: exact arithmetic.

**C194 (partial) No warning means redundant.** Real positions; Cauchy-Schwarz and triangle inequality. Files: GeomProps. Theorems: `validate_silent_refuted` [SNF], `validate_silent` [SNF]. Note: false of the code: positions of the second dataset replace those of the first.

**C195 (proved) Redshift ranges to channel ranges.** Channel masks over the reals; monotonicity of redshift in frequency. Files: GeomProps. Theorems: `spw_range_z_spec` [SF], `spw_range_z_bounds` [SF]. Note: exact arithmetic.

**C196 (partial) Documented bounds of redshift ranges.** Channel masks over the reals; monotonicity of redshift in frequency. Files: GeomProps. Theorems: `spw_range_z_docs_refuted` [SF], `spw_range_z_spec` [SF]. Note: the documentation has the bounds the wrong way around.

**C197 (proved) Configuration of power spectrum runs.** Found files a parameter; dictionaries as association lists; membership lemmas; counterexamples by computation. Files: GeomProps. Theorems: `config_groupings`, `config_succeeds`.

**C198 (partial) Configuration honours exclusions and partial file sets.** Found files a parameter; dictionaries as association lists; membership lemmas; counterexamples by computation. Files: GeomProps. Theorems: `config_exclude_refuted`, `config_read_refuted`, `config_groupings`. Note: false of the code: combinations are collected before the exclusion, and the first name is read with the first combination.

**C199 (proved) Ranges of spectral windows.** Windows as lists of real frequencies; median of constant differences; nan is None; counterexamples. Files: GetProps. Theorems: `spw_range_uniform` [SF], `spw_lookup` [SF]. Note: exact arithmetic.

**C200 (partial) Frequencies from the range of any window.** Windows as lists of real frequencies; median of constant differences; nan is None; counterexamples. Files: GetProps. Theorems: `spw_range_freqs_refuted` [SF], `spw_range_uniform` [SF]. Note: false for gaps and for single channels (nan).

**C201 (partial) One centre frequency per window.** Windows as lists of real frequencies; median of constant differences; nan is None; counterexamples. Files: GetProps. Theorems: `spw_centre_refuted` [SF], `spw_centre` [SF]. Note: false: half a channel higher.

**C202 (proved) Rows at a time.** np.isclose over the rationals; characterisation of the row mask. Files: GetProps. Theorems: `time_indices_spec`. Note: exact arithmetic.

**C203 (partial) Times are told apart.** np.isclose over the rationals; characterisation of the row mask. Files: GetProps. Theorems: `time_indices_refuted`, `time_indices_spec`. Note: false: at Julian dates the tolerance is over 20 s.

**C204 (proved) Baseline-pairs of baseline groups.** Masks over blpair_array; membership and order lemmas; counterexamples by computation. Files: GetProps. Theorems: `blpair_groups_spec`.

**C205 (partial) One output group per baseline group.** Masks over blpair_array; membership and order lemmas; counterexamples by computation. Files: GetProps. Theorems: `blpair_groups_refuted`, `blpair_groups_spec`. Note: false of the code.

**C206 (proved) Separations of baseline-pairs.** Loop over baseline-pairs as in the code; invariant of the loop. Files: GetProps. Theorems: `blpair_seps_spec` [SNF], `blpair_seps_missing` [SNF]. Note: the rotation to the local frame is a parameter that keeps lengths.

**C207 (proved) Vectors of baseline-pairs.** Loop over baseline-pairs as in the code; invariant of the loop. Files: GetProps. Theorems: `blpair_blvecs_spec`.

**C208 (proved) Baseline-pairs given to plots.** Python values as a tree; induction on the list; first offending entry. Files: PlotProps. Theorems: `normalize_blpairs_spec` [SNCF].

**C209 (proved) Wedge draws the component asked for.** Samples with missing real part; minimum over the plotted values. Files: PlotProps. Theorems: `wedge_component_spec` [SNF]. Note: exact arithmetic.

**C210 (partial) Waterfall draws the component asked for.** Samples with missing real part; minimum over the plotted values. Files: PlotProps. Theorems: `waterfall_component_refuted` [SNF], `waterfall_component_partial` [SNF]. Note: false: abs-imag draws the real part; flagged imaginary parts are drawn as 0.

**C211 (proved) Negative values on logarithmic scales.** Samples with missing real part; minimum over the plotted values. Files: PlotProps. Theorems: `fix_neg_spec` [SF], `waterfall_values` [SNF]. Note: exact arithmetic.

**C212 (partial) Negative values are shown below positive ones.** Samples with missing real part; minimum over the plotted values. Files: PlotProps. Theorems: `fix_neg_refuted` [SF], `fix_neg_spec` [SF]. Note: false: with a flagged integration negative values become nan; the substitute is above data below 1e-10.

**C213 (proved) Titles and labels of delay spectra.** Metadata records; title and labels as strings; unique decomposition at the first letter l. Files: PlotProps. Theorems: `auto_title_spec` [SNF], `auto_labels_distinguish` [SNF], `lst_hours_spec` [SNF]. Note: the number format is a parameter.

**C214 (partial) Labels tell spectra apart.** Metadata records; title and labels as strings; unique decomposition at the first letter l. Files: PlotProps. Theorems: `auto_labels_distinguish_refuted` [SNF], `auto_labels_distinguish` [SNF]. Note: false: equal LSTs on different days.

**C215 (partial) Limit on the number of spectra.** Counting of spectra and subplots; positions of pixels over the reals. Files: PlotProps. Theorems: `plot_size_refuted`, `plot_size_partial`. Note: false: counts groups, not spectra; holds for averaged groups and for single baseline-pairs.

**C216 (partial) Label says Delta^2 only for Delta^2.** Counting of spectra and subplots; positions of pixels over the reals. Files: PlotProps. Theorems: `deltasq_label_refuted` [SF], `deltasq_label_partial`. Note: false with delay=True.

**C217 (proved) Subplots of waterfalls.** Counting of spectra and subplots; positions of pixels over the reals. Files: PlotProps. Theorems: `nside_spec` [SNF], `subplots_spec`.

**C218 (partial) All keys are drawn.** Counting of spectra and subplots; positions of pixels over the reals. Files: PlotProps. Theorems: `subplots_refuted`, `subplots_spec`. Note: false for given axes that are too few.

**C219 (partial) Pixels of waterfalls.** Counting of spectra and subplots; positions of pixels over the reals. Files: PlotProps. Theorems: `pixel_refuted` [SF], `pixel_offset` [SF]. Note: the first half holds; the second only in the middle of the axis.

**C220 (proved) Wedge rows against separation.** np.argsort is any sorting permutation; edges over the reals. Files: PlotProps. Theorems: `wedge_delay_aligned` [SF]. Note: np.argsort: any sorting permutation.

**C221 (partial) Wedge rows against k_perp.** np.argsort is any sorting permutation; edges over the reals. Files: PlotProps. Theorems: `wedge_kperp_aligned_refuted` [SF], `wedge_kperp_aligned_partial` [SF], `horizon_slope` [SNF]. Note: false unless the rows are in order of length.

**C222 (proved) Bins of wedges.** np.argsort is any sorting permutation; edges over the reals. Files: PlotProps. Theorems: `edges_spec` [SF], `wedge_rotate`. Note: exact arithmetic.

**C223 (partial) Wedge of selected baseline-pairs.** np.argsort is any sorting permutation; edges over the reals. Files: PlotProps. Theorems: `wedge_select_refuted`, `wedge_select_partial`. Note: false unless times are given as well.

**C224 (proved) Distinct files of waterfall plots.** File names as character lists; Flocq floor, ceiling and nearest integer; powers of ten. Files: PlotProps. Theorems: `file_names_distinct`, `file_name_spec`. Note: formats of at least two letters.

**C225 (partial) File names that have their extension.** File names as character lists; Flocq floor, ceiling and nearest integer; powers of ten. Files: PlotProps. Theorems: `file_name_refuted`, `file_name_spec`, `file_name_one_letter`. Note: false: one character is compared with the whole format.

**C226 (proved) Significant figures.** File names as character lists; Flocq floor, ceiling and nearest integer; powers of ten. Files: PlotProps. Theorems: `round_sigfig_spec` [SNCF], `tick_spec` [SNCF]. Note: exact arithmetic.

**C227 (proved) Grid of Fourier modes around a baseline.** Grids over the reals; np.arange by Flocq's ceiling; bilinear interpolation on a regular grid. Files: WinGridProps. Theorems: `kgrid_spec` [SNF], `kgrid_spacing` [SNF]. Note: exact arithmetic.

**C228 (partial) The grid covers all frequencies of the window.** Grids over the reals; np.arange by Flocq's ceiling; bilinear interpolation on a regular grid. Files: WinGridProps. Theorems: `kgrid_covers_refuted` [SNF], `kgrid_covers_partial` [SNF]. Note: false: the width is fixed, so long baselines leave the grid.

**C229 (proved) k_perp of the pixels of a Fourier beam.** Grids over the reals; np.arange by Flocq's ceiling; bilinear interpolation on a regular grid. Files: WinGridProps. Theorems: `kperp4bl_spec` [SNF]. Note: exact arithmetic.

**C230 (partial) The centre of the beam is at the baseline.** Grids over the reals; np.arange by Flocq's ceiling; bilinear interpolation on a regular grid. Files: WinGridProps. Theorems: `beam_centre_even_refuted` [SNF], `beam_centre_odd_partial` [SNF]. Note: false for even numbers of pixels: one pixel off.

**C231 (partial) Interpolation of the Fourier beam.** Grids over the reals; np.arange by Flocq's ceiling; bilinear interpolation on a regular grid. Files: WinGridProps. Theorems: `interp_ft_refuted` [SF], `interp_ft_partial` [S], `rgi_nodes` [SF], `rgi_outside` [SF]. Note: false: only the diagonal is evaluated and repeated in each row.

**C232 (proved) Default k_perp bins hold every baseline.** Grids over the reals; np.arange by Flocq's ceiling; bilinear interpolation on a regular grid. Files: WinGridProps. Theorems: `kperp_bins_spec` [SNF]. Note: exact arithmetic.

**C233 (partial) Default k_perp bins exist for every set of baselines.** Grids over the reals; np.arange by Flocq's ceiling; bilinear interpolation on a regular grid. Files: WinGridProps. Theorems: `kperp_bins_refuted` [SNF], `kperp_bins_spec` [SNF]. Note: false with autocorrelations.

**C234 (proved) Matching of autocorrelations to spectra.** Autocorrelations as real-valued functions; weighted means; nearest-neighbour interpolation by sorting. Files: NerrProps. Theorems: `match_time_spec` [SF], `spw_start_spec` [SF].

**C235 (proved) System temperature of a spectrum.** Autocorrelations as real-valued functions; weighted means; nearest-neighbour interpolation by sorting. Files: NerrProps. Theorems: `temperature_rows` [SNF], `meanT_bounds` [SNF], `row_noise_value` [SNF]. Note: exact arithmetic; nearest-neighbour interpolation modelled as scipy does it.

**C236 (proved) Fully flagged spectra have infinite errors.** Autocorrelations as real-valued functions; weighted means; nearest-neighbour interpolation by sorting. Files: NerrProps. Theorems: `temperature_flagged` [SNF], `flagged_noise_infinite` [SNF].

**C237 (partial) Flagged integrations do not lower the noise.** Autocorrelations as real-valued functions; weighted means; nearest-neighbour interpolation by sorting. Files: NerrProps. Theorems: `single_integration_refuted` [SNF], `temperature_rows` [SNF]. Note: false with a single unflagged integration; holds with two or more.

**C238 (partial) Autocorrelations of several nights.** Autocorrelations as real-valued functions; weighted means; nearest-neighbour interpolation by sorting. Files: NerrProps. Theorems: `repeated_lsts_refuted` [SNF], `common_lsts_partial` [SF]. Note: false when LSTs repeat; holds for common, distinct LSTs.

**C239 (proved) Both noise errors are stored.** Statistics as association lists; loop over keys by induction; extended reals of NoiseModel. Files: NerrProps. Theorems: `noise_error_both` [SNF].

**C240 (partial) A precomputed noise replaces the temperatures.** Statistics as association lists; loop over keys by induction; extended reals of NoiseModel. Files: NerrProps. Theorems: `precomp_needs_autos_refuted`, `precomp_partial` [SNF]. Note: false: the frequencies of the temperatures are read in any case.

**C241 (partial) P_SN alone.** Statistics as association lists; loop over keys by induction; extended reals of NoiseModel. Files: NerrProps. Theorems: `psn_alone_refuted` [SNF], `noise_error_both` [SNF]. Note: false: needs P_N among the statistics and uses a stale one.

**C242 (proved) Objects accepted by check.** Objects as association lists over the parameter lists of H5Model; casts are arbitrary functions. Files: CheckProps. Theorems: `check_sound`, `check_types`, `check_windows_when`. Note: casts give values of the type and leave values of the type alone (hypothesis).

**C243 (proved) check is idempotent.** Objects as association lists over the parameter lists of H5Model; casts are arbitrary functions. Files: CheckProps. Theorems: `check_idempotent`. Note: same hypothesis.

**C244 (partial) check finds every malformed object.** Objects as association lists over the parameter lists of H5Model; casts are arbitrary functions. Files: CheckProps. Theorems: `check_shapes_refuted`, `check_required_refuted`, `check_spw_refuted`, `check_sound`. Note: false: shapes, time_2_array, symmetric_taper and repeated windows are not checked.

**C245 (partial) A failed check.** Objects as association lists over the parameter lists of H5Model; casts are arbitrary functions. Files: CheckProps. Theorems: `check_error_refuted`, `check_failure_refuted`, `check_idempotent`, `names_sorted`. Note: false: other exceptions, and earlier casts stay.

**C246 (proved) Group and window arguments.** Arguments as an inductive type; case analysis. Files: CheckProps. Theorems: `normalize_nested_spec`, `normalize_spws_spec`.

**C247 (proved) Configuration files.** YAML values as an inductive type; paths through dictionaries as an inductive relation. Files: CheckProps. Theorems: `load_config_spec`, `load_config_idempotent`.

**C248 (partial) Configuration files, everywhere.** YAML values as an inductive type; paths through dictionaries as an inductive relation. Files: CheckProps. Theorems: `load_config_refuted`, `load_config_spec`. Note: false inside lists.

**C249 (proved) Getters without flagged integrations.** Arrays with shapes and index functions; masks of rows; key forms as an inductive type. Files: AccessProps. Theorems: `omit_flags_rows` [SF].

**C250 (proved) Forms of keys.** Arrays with shapes and index functions; masks of rows; key forms as an inductive type. Files: AccessProps. Theorems: `key_forms` [SNCF], `key_distinct` [SNCF]. Note: polarization strings are numbered by pyuvdata (arbitrary function); antennas below 900 for baseline-pair integers.

**C251 (proved) Covariance getter.** Arrays with shapes and index functions; masks of rows; key forms as an inductive type. Files: AccessProps. Theorems: `get_cov_spec` [SF], `get_cov_errors` [SF].

**C252 (proved) Window function getter.** Arrays with shapes and index functions; masks of rows; key forms as an inductive type. Files: AccessProps. Theorems: `window_function_spec` [SF], `exact_window_function_spec` [SF].

**C253 (partial) Exact window functions of folded objects.** Same model; refuted by concrete objects, with the part that holds proved. Files: AccessProps. Theorems: `exact_window_folded` [SF], `exact_window_folded_refuted` [SF]. Note: false: the slices and the polarization index are taken on the wrong axes.

**C254 (partial) Statistics with the shape of the data.** Same model; refuted by concrete objects, with the part that holds proved. Files: AccessProps. Theorems: `set_stats_shape` [S], `set_stats_folded_refuted` [S], `folded_width` [SF]. Note: false for folded objects.

**C255 (proved) Delay adjustment with identity weighting.** Row sums of G and H through orthogonality of the Fourier modes modulo N_dlys; sinc positive on (-1,1). Files: AdjProps. Theorems: `adjustment_identity` [SNCF], `adjustment_full` [SNCF], `adjustment_bounds` [SNCF], `adjustment_flagged` [SNF], `adjustment_error` [SF]. Note: exact arithmetic; unit filter extension 0.

**C256 (proved) Delay adjustment with other weightings.** Row sums of G and H through orthogonality of the Fourier modes modulo N_dlys; sinc positive on (-1,1). Files: AdjProps. Theorems: `adjustment_weighted` [SF], `adjustment_no_response` [SF].

**C257 (proved) Exact spherical window functions are distributions.** Edges with their aliasing; modes and cells as lists; the row order from AvgModel. Files: SphWfProps. Theorems: `sphwf_distribution` [SNF], `sphwf_windows` [SNF], `sphwf_refusals` [SNF], `sphwf_accepts` [SNF]. Note: from the averaged object on.

**C258 (partial) Exact spherical windows of a time.** Edges with their aliasing; modes and cells as lists; the row order from AvgModel. Files: SphWfProps. Theorems: `sphwf_times_partial` [SNF], `sphwf_times_refuted` [SNF], `sphwf_row_order`. Note: false for several groups and times: the rows are group-major, the code reads them time-major.

**C259 (partial) Exact spherical windows of several polarizations.** Edges with their aliasing; modes and cells as lists; the row order from AvgModel. Files: SphWfProps. Theorems: `sphwf_pols_refuted` [SNF], `sphwf_distribution` [SNF]. Note: false: always ValueError; holds with one polarization pair.

**C260 (partial) Rows without theory bins.** Edges with their aliasing; modes and cells as lists; the row order from AvgModel. Files: SphWfProps. Theorems: `sphwf_uninitialised_refuted` [SNF], `sphwf_distribution` [SNF]. Note: false when no theory bin receives weight: np.divide with where and without out.

**C261 (proved) Units of the bin edges.** Edges with their aliasing; modes and cells as lists; the row order from AvgModel. Files: SphWfProps. Theorems: `edge_units_converted` [SF].

**C262 (partial) Caller's bin edges.** Edges with their aliasing; modes and cells as lists; the row order from AvgModel. Files: SphWfProps. Theorems: `edge_args_kept_refuted` [SF], `edge_same_array_refuted` [SF], `edge_units_converted` [SF]. Note: false: in-place conversion of the caller's float arrays.

**C263 (proved) Flagged channels and weighting.** On the state machine of PdModel; the Penrose conditions force zero rows and columns. Files: RmatProps. Theorems: `flagged_channels` [SNF], `flagged_data` [SNF]. Note: np.linalg.pinv is any function with the Penrose conditions 2-4 on square matrices.

**C264 (proved) Delays of a window.** fftfreq and fftshift by index arithmetic; the response by the phases of OqeProofs. Files: DlyProps. Theorems: `delays_values` [SF], `delays_order` [SF], `delays_pspecdata` [SF].

**C265 (proved) Physical and dimensionless response matrices.** fftfreq and fftshift by index arithmetic; the response by the phases of OqeProofs. Files: DlyProps. Theorems: `get_Q_even` [SNF], `get_Q_shape` [SNF].

**C266 (partial) Modes outside the range of delays.** fftfreq and fftshift by index arithmetic; the response by the phases of OqeProofs. Files: DlyProps. Theorems: `get_Q_range` [SNF], `get_Q_negative` [SNF], `get_Q_negative_refuted` [SNF]. Note: false for negative modes, which count from the end.

**C267 (proved) Beam integral of two channels.** Pixel sums; Cauchy-Schwarz proved for them. Files: FtbProps. Theorems: `integral_beam_spec` [SNF], `integral_beam_positive` [SNF], `integral_beam_bounds` [SNF], `integral_beam_errors` [SNF]. Note: interpolation in frequency (pyuvdata) is an arbitrary function.

**C268 (partial) Beam integral of an unknown polarization.** Pixel sums; Cauchy-Schwarz proved for them. Files: FtbProps. Theorems: `integral_beam_unknown_refuted` [SNF], `integral_beam_errors` [SNF]. Note: false: ValueError; only beams without a response matrix give ones.

**C269 (proved) Gaussian Fourier beams.** Maps as functions of pixels; paths as character lists; WinModel's FTBeam. Files: FtbProps. Theorems: `gaussian_values` [SNF], `gaussian_shape` [SNCF], `gaussian_errors` [SNF].

**C270 (partial) One width for all frequencies.** Maps as functions of pixels; paths as character lists; WinModel's FTBeam. Files: FtbProps. Theorems: `gaussian_one_width_refuted` [SNF], `gaussian_errors` [SNF]. Note: false: ValueError.

**C271 (proved) Fourier beams from files.** Maps as functions of pixels; paths as character lists; WinModel's FTBeam. Files: FtbProps. Theorems: `file_pol_spec`, `from_file_window`, `from_file_contents`. Note: str(Path(p)) is taken to be p.

**C272 (proved) Clearing chosen cache entries.** KcovModel: the covariance caches as dictionaries, operations as a transition system; matrices abstract. Files: KcovProps. Theorems: `clear_cache_keys`.

**C273 (proved) Which covariance is returned.** KcovModel: the covariance caches as dictionaries, operations as a transition system; matrices abstract. Files: KcovProps. Theorems: `C_model_precedence`, `C_model_computed`, `C_model_unknown_name`, `C_model_needs_time`, `C_model_frame`. Note: matrices and their computation are arbitrary.

**C274 (proved) A known covariance stays.** KcovModel: the covariance caches as dictionaries, operations as a transition system; matrices abstract. Files: KcovProps. Theorems: `known_cov_stays`.

**C275 (proved) Empirical covariances ignore the time.** KcovModel: the covariance caches as dictionaries, operations as a transition system; matrices abstract. Files: KcovProps. Theorems: `empirical_ignores_time`.

**C276 (proved) Cross covariance models.** KcovModel: the covariance caches as dictionaries, operations as a transition system; matrices abstract. Files: KcovProps. Theorems: `cross_covar_spec`, `cross_covar_noise_models`.

**C277 (partial) Known empirical cross covariances.** KcovModel: the covariance caches as dictionaries, operations as a transition system; matrices abstract. Files: KcovProps. Theorems: `known_cross_covariance_used_refuted`, `cross_covar_spec`. Note: false: cross_covar_model looks for the key with the time of the call.

**C278 (partial) Documented keys of known covariances.** KcovModel: the covariance caches as dictionaries, operations as a transition system; matrices abstract. Files: KcovProps. Theorems: `documented_key_used_refuted`, `documented_key_never_read`. Note: false: keys have six components.

**C279 (proved) The inverse follows the covariance.** KcovModel: the covariance caches as dictionaries, operations as a transition system; matrices abstract. Files: KcovProps. Theorems: `inverse_follows_covariance`. Note: without set_iC; inversion is one function of the matrix.

**C280 (partial) The inverse of an empirical covariance with a time.** KcovModel: the covariance caches as dictionaries, operations as a transition system; matrices abstract. Files: KcovProps. Theorems: `inverse_empirical_time_refuted`, `inverse_follows_covariance`. Note: false: the cached inverse keeps the time in its key and is not dropped by set_C of the covariance.

**C281 (proved) Covariances set by hand and R.** KcovModel: the covariance caches as dictionaries, operations as a transition system; matrices abstract. Files: KcovProps. Theorems: `set_C_used_by_R`, `R_ignores_later_set_C`, `clear_cache_forgets_set_C`.

**C282 (partial) set_C refreshes R.** KcovModel: the covariance caches as dictionaries, operations as a transition system; matrices abstract. Files: KcovProps. Theorems: `set_C_refreshes_R_refuted`, `R_ignores_later_set_C`. Note: false: R is cached.

**C283 (proved) Filter extensions and default weights.** KcovModel: the covariance caches as dictionaries, operations as a transition system; matrices abstract. Files: KcovProps. Theorems: `include_extension_no_effect`, `weights_default_to_flags`.

**C284 (proved) Redundant groups.** RedsModel: lists of groups with lengths and angles of GeomModel; polarization notations as sums. Files: RedsProps. Theorems: `get_reds_exact` [SNCF], `get_reds_fails` [SNCF]. Note: the groups of hera_cal's get_pos_reds are arbitrary.

**C285 (partial) Autocorrelations only.** RedsModel: lists of groups with lengths and angles of GeomModel; polarization notations as sums. Files: RedsProps. Theorems: `autos_only_refuted` [SNCF], `autos_only_needs_add_autos` [SNCF]. Note: false without add_autos.

**C286 (partial) Autocorrelations of one antenna.** RedsModel: lists of groups with lengths and angles of GeomModel; polarization notations as sums. Files: RedsProps. Theorems: `single_antenna_refuted` [SNCF], `get_reds_fails` [SNCF]. Note: false: IndexError.

**C287 (proved) East-west cut.** RedsModel: lists of groups with lengths and angles of GeomModel; polarization notations as sums. Files: RedsProps. Theorems: `ew_cut_is_east` [SNCF], `ew_cut_at_least_east` [SNCF].

**C288 (partial) East-west cut of inclined baselines.** RedsModel: lists of groups with lengths and angles of GeomModel; polarization notations as sums. Files: RedsProps. Theorems: `ew_cut_refuted` [SNCF], `ew_cut_at_least_east` [SNCF], `ew_cut_is_east` [SNCF]. Note: false with vertical components: the length is three-dimensional.

**C289 (proved) Beam integrals of several polarizations.** RedsModel: lists of groups with lengths and angles of GeomModel; polarization notations as sums. Files: RedsProps. Theorems: `get_Omegas_columns`, `get_Omegas_refuses`, `get_Omegas_single`. Note: beam integrals are arbitrary functions of the polarization.

**C290 (proved) Polarization validation.** RedsModel: lists of groups with lengths and angles of GeomModel; polarization notations as sums. Files: RedsProps. Theorems: `validate_pol_spec`.

**C291 (partial) Polarization validation with own orientation.** RedsModel: lists of groups with lengths and angles of GeomModel; polarization notations as sums. Files: RedsProps. Theorems: `validate_pol_own_orientation_refuted`, `validate_pol_spec`. Note: false: the orientation of the first dataset is used for both.

**C292 (proved) Units of a power spectrum.** RedsModel: lists of groups with lengths and angles of GeomModel; polarization notations as sums. Files: RedsProps. Theorems: `units_spec`.

**C293 (partial) Units of several datasets.** RedsModel: lists of groups with lengths and angles of GeomModel; polarization notations as sums. Files: RedsProps. Theorems: `units_mixed_refuted`, `units_spec`. Note: false for datasets of different units.

**C294 (proved) Edges of spherical k bins.** WsphModel: bins and entries of WinModel with the checks around them. Files: WsphProps. Theorems: `spherical_edges` [SF], `linear_bins_accepted` [SF], `uneven_bins_refused` [SF], `even_bins_accepted` [SF]. Note: exact arithmetic (np.arange).

**C295 (partial) Descending k bins.** WsphModel: bins and entries of WinModel with the checks around them. Files: WsphProps. Theorems: `descending_bins_refuted` [SF], `spherical_edges` [SF]. Note: false for descending bins, which the documentation excludes.

**C296 (proved) What cylindrical_to_spherical accepts.** WsphModel: bins and entries of WinModel with the checks around them. Files: WsphProps. Theorems: `spherical_accepts` [SF].

**C297 (proved) Rows of spherical window functions.** WsphModel: bins and entries of WinModel with the checks around them. Files: WsphProps. Theorems: `spherical_rows` [SF], `spherical_value` [SF].

**C298 (proved) Mean k of a bin.** WsphModel: bins and entries of WinModel with the checks around them. Files: WsphProps. Theorems: `mean_k_in_bin` [SF].

**C299 (partial) Weighted k modes.** WsphModel: bins and entries of WinModel with the checks around them. Files: WsphProps. Theorems: `weighted_k_refuted` [SF], `weighted_k_ignores_weights` [SF]. Note: false: an unweighted mean.

**C300 (proved) Warning on empty bins.** WsphModel: bins and entries of WinModel with the checks around them. Files: WsphProps. Theorems: `empty_bin_warns` [SF].

**C301 (partial) Warning on bins with modes.** WsphModel: bins and entries of WinModel with the checks around them. Files: WsphProps. Theorems: `empty_warning_refuted` [SF], `empty_bin_warns` [SF], `warning_exact` [SF]. Note: false: weights are added to an array of integers, so that total weights below one count as zero.

**C302 (proved) Spherical window functions of sets of baselines.** WsphModel: bins and entries of WinModel with the checks around them. Files: WsphProps. Theorems: `spherical_order` [SNF], `spherical_weight_counts` [SNF], `get_spherical_refuses` [SNF], `given_bins_used` [SNF]. Note: the default kperp bins depend on the greatest length only (hypothesis: equal for the two lists).

**C303 (proved) Level of simulated noise.** SimModel: testing.py with an abstract random number generator state; UVData as rows. Files: SimProps. Theorems: `noise_sim_values` [SNF]. Note: random deviates are arbitrary.

**C304 (partial) Noise in Jy.** SimModel: testing.py with an abstract random number generator state; UVData as rows. Files: SimProps. Theorems: `noise_conversion_refuted` [SNF], `noise_conversion` [SNF]. Note: false for pseudo-Stokes polarizations: the factor sqrt(2) is applied twice.

**C305 (proved) Reproducible noise.** SimModel: testing.py with an abstract random number generator state; UVData as rows. Files: SimProps. Theorems: `noise_seed` [SNF].

**C306 (proved) Noise and the caller's object.** SimModel: testing.py with an abstract random number generator state; UVData as rows. Files: SimProps. Theorems: `noise_not_inplace` [SNF], `noise_inplace` [SNF].

**C307 (partial) In-place noise with extension.** SimModel: testing.py with an abstract random number generator state; UVData as rows. Files: SimProps. Theorems: `noise_inplace_refuted` [SNF], `noise_inplace_extended` [SNF], `noise_inplace` [SNF]. Note: false with Nextend > 0: the extended copy receives the noise and is dropped.

**C308 (proved) Extension in time.** SimModel: testing.py with an abstract random number generator state; UVData as rows. Files: SimProps. Theorems: `extended_times` [SNF], `extended_once` [SNF], `extended_rows` [SNF]. Note: times after pyuvdata's sum; exact arithmetic.

**C309 (partial) Contiguous extension.** SimModel: testing.py with an abstract random number generator state; UVData as rows. Files: SimProps. Theorems: `extended_contiguous_refuted` [SNF], `extended_times` [SNF], `extended_once` [SNF]. Note: false for two or more extensions: shifts accumulate.

**C310 (proved) Gaussian foregrounds.** SimModel: testing.py with an abstract random number generator state; UVData as rows. Files: SimProps. Theorems: `gauss_cov_shape` [SNCF], `gauss_fg_rows` [SNF].

**C311 (proved) Radiometer equation of simulated noise.** SimModel: testing.py with an abstract random number generator state; UVData as rows. Files: SimProps. Theorems: `jy_radiometer` [SNF].

**C312 (proved) Sky and noise simulation.** SimModel: testing.py with an abstract random number generator state; UVData as rows. Files: SimProps. Theorems: `sky_sim_values` [SNF], `sky_sim_refuses` [SNF], `sky_sim_accepts` [SNF]. Note: polarizations abstract.

**C313 (proved) Reproducible sky simulation per baseline.** SimModel: testing.py with an abstract random number generator state; UVData as rows. Files: SimProps. Theorems: `sky_sim_seed` [SNF].

**C314 (partial) Reproducible sky simulation.** SimModel: testing.py with an abstract random number generator state; UVData as rows. Files: SimProps. Theorems: `sky_seed_refuted` [SNF], `sky_sim_seed` [SNF]. Note: false if the signal is common to all baselines.

**C315 (proved) Baseline-pairs of uvpspec_from_data.** SimModel: testing.py with an abstract random number generator state; UVData as rows. Files: SimProps. Theorems: `from_data_pairs`, `from_data_flat`, `from_data_refuses`.

**C316 (proved) Selections combine.** LawModel only defines equality of objects; the laws are about select, fold_uvp and average_spectra of UvpModel, FoldModel and AvgModel. Files: LawProps. Theorems: `select_twice_is_once`, `select_once_is_twice`, `select_order_irrelevant`, `bls_and_blpairs_one_call_refuted`. Note: objects are compared attribute by attribute, the order of dictionary entries aside; the alternative/condition difference of bls and blpairs is shown by an object.

**C317 (proved) Selections can be repeated.** LawModel only defines equality of objects; the laws are about select, fold_uvp and average_spectra of UvpModel, FoldModel and AvgModel. Files: LawProps. Theorems: `select_idempotent`, `select_windows_twice_refuted`.

**C318 (proved) Selecting and folding commute.** LawModel only defines equality of objects; the laws are about select, fold_uvp and average_spectra of UvpModel, FoldModel and AvgModel. Files: LawProps. Theorems: `select_fold_commute`, `select_windows_fold_refuted`.

**C319 (proved) No cross-talk in averages.** LawModel only defines equality of objects; the laws are about select, fold_uvp and average_spectra of UvpModel, FoldModel and AvgModel. Files: LawAvg. Theorems: `average_no_crosstalk` [SNF]. Note: as read by the getters of the averaged objects.

**C320 (proved) Selecting and averaging commute.** LawModel only defines equality of objects; the laws are about select, fold_uvp and average_spectra of UvpModel, FoldModel and AvgModel. Files: LawAvg. Theorems: `average_select_commute` [SNF]. Note: weights from integration times; unfolded object or no windows named.

**C321 (proved) Folding and averaging commute.** LawModel only defines equality of objects; the laws are about select, fold_uvp and average_spectra of UvpModel, FoldModel and AvgModel. Files: LawFoldAvg. Theorems: `average_fold_commute` [SNF]. Note: weights from integration times, equal weights of the members; real arithmetic.

**C322 (proved) Splitting by rows can be undone.** SplitBridge.to_c views an object of UvpModel as one of CombineModel (same arrays; times, frequencies and delays mapped to integers); SplitProofs proves that combine_objs inverts a partition along one axis. Files: SplitProps. Theorems: `split_rows_combine`. Note: objects whose windows, rows and polarization pairs are stored once; times as integers.

**C323 (proved) Splitting by polarization-pairs can be undone.** SplitBridge.to_c views an object of UvpModel as one of CombineModel (same arrays; times, frequencies and delays mapped to integers); SplitProofs proves that combine_objs inverts a partition along one axis. Files: SplitProps. Theorems: `split_pols_combine`. Note: as C322, rounded times unique.

**C324 (proved) Splitting by windows can be undone.** SplitBridge.to_c views an object of UvpModel as one of CombineModel (same arrays; times, frequencies and delays mapped to integers); SplitProofs proves that combine_objs inverts a partition along one axis. Files: SplitProps. Theorems: `split_windows_combine`, `split_folded_windows_refuted`. Note: as C323, unfolded objects; the refuted theorem is the exception the statement mentions.

**C325 (proved) set_R persists.** RsetModel adds set_R to the state machine of PdModel; VanillaModel is testing.build_vanilla_uvpspec on UvpModel's objects; MiscModel has log, _load_dsets, _load_cals, _ordered_unique (np.unique with first indices) and pspecdata_time_difference. Files: RsetProps. Theorems: `set_R_persists` [SNF], `set_R_only` [SNF]. Note: Keys of the form R looks up; a key of another form is never read..

**C326 (proved) Weighting parameters belong to the weighting selected at the call.** RsetModel adds set_R to the state machine of PdModel; VanillaModel is testing.build_vanilla_uvpspec on UvpModel's objects; MiscModel has log, _load_dsets, _load_cals, _ordered_unique (np.unique with first indices) and pspecdata_time_difference. Files: RsetProps. Theorems: `r_params_last` [SNF], `r_params_needed` [SNF].

**C327 (proved) The synthetic object.** RsetModel adds set_R to the state machine of PdModel; VanillaModel is testing.build_vanilla_uvpspec on UvpModel's objects; MiscModel has log, _load_dsets, _load_cals, _ordered_unique (np.unique with first indices) and pspecdata_time_difference. Files: VanillaProps. Theorems: `tile_combinations`, `tile_common_factor`, `vanilla_valid`, `vanilla_rows`, `vanilla_usual`, `vanilla_axes`, `vanilla_units`. Note: Exact arithmetic; beam arrays not modelled..

**C328 (proved) The log file.** RsetModel adds set_R to the state machine of PdModel; VanillaModel is testing.build_vanilla_uvpspec on UvpModel's objects; MiscModel has log, _load_dsets, _load_cals, _ordered_unique (np.unique with first indices) and pspecdata_time_difference. Files: MiscProps. Theorems: `log_line`, `log_contents`, `log_lines_refuted`. Note: json.dumps of a message that is not a string is not expanded..

**C329 (proved) Loading files.** RsetModel adds set_R to the state machine of PdModel; VanillaModel is testing.build_vanilla_uvpspec on UvpModel's objects; MiscModel has log, _load_dsets, _load_cals, _ordered_unique (np.unique with first indices) and pspecdata_time_difference. Files: MiscProps. Theorems: `load_dsets_spec`, `load_cals_spec`, `load_cals_record_refuted`. Note: glob and pyuvdata's readers are arbitrary functions..

**C330 (proved) Distinct values in order of appearance.** RsetModel adds set_R to the state machine of PdModel; VanillaModel is testing.build_vanilla_uvpspec on UvpModel's objects; MiscModel has log, _load_dsets, _load_cals, _ordered_unique (np.unique with first indices) and pspecdata_time_difference. Files: MiscProps. Theorems: `ordered_unique_places`, `np_ordered_unique_correct`.

**C331 (proved) Time differences of a pair of datasets.** RsetModel adds set_R to the state machine of PdModel; VanillaModel is testing.build_vanilla_uvpspec on UvpModel's objects; MiscModel has log, _load_dsets, _load_cals, _ordered_unique (np.unique with first indices) and pspecdata_time_difference. Files: MiscProps. Theorems: `time_difference_spec`, `time_difference_errors`.

**C332 (proved) Averaged covariances are propagated.** average_spectra beyond the spectra: AvgCovModel.v. Covariances, frequency weights and error bars are lists over the integrations and members of a group; proved by exchanging finite sums. Files: AvgCovProps. Theorems: `covariance_propagates` [SF], `covariance_propagates_in_time` [SF]. Note: Real and imaginary parts alike..

**C333 (proved) Averaged covariances stay covariances.** average_spectra beyond the spectra: AvgCovModel.v. Covariances, frequency weights and error bars are lists over the integrations and members of a group; proved by exchanging finite sums. Files: AvgCovProps. Theorems: `covariance_symmetric_positive` [SF], `covariance_diagonal` [SNF].

**C334 (partial) The covariance of a bootstrap draw.** average_spectra beyond the spectra: AvgCovModel.v. Covariances, frequency weights and error bars are lists over the integrations and members of a group; proved by exchanging finite sums. Files: AvgCovProps. Theorems: `covariance_repeated_refuted` [SF], `covariance_of_copies` [SF]. Note: false of the code: k copies divide the covariance by k, as if they were independent.

**C335 (proved) Frequency weights are averaged.** average_spectra beyond the spectra: AvgCovModel.v. Covariances, frequency weights and error bars are lists over the integrations and members of a group; proved by exchanging finite sums. Files: AvgCovProps. Theorems: `weights_averaged` [SF], `weights_averaged_in_two_steps` [SF].

**C336 (partial) Error bars of all sizes survive time averaging.** average_spectra beyond the spectra: AvgCovModel.v. Covariances, frequency weights and error bars are lists over the integrations and members of a group; proved by exchanging finite sums. Files: AvgCovProps. Theorems: `time_averaged_errors_refuted` [SNF], `time_averaged_errors` [SNF], `time_averaged_small_errors` [SNF]. Note: false of the code: a baseline-pair whose time-averaged variance is at most 1e-8 gets the error 1e20; holds above.

**C337 (proved) Baselines of the averaged object.** average_spectra beyond the spectra: AvgCovModel.v. Covariances, frequency weights and error bars are lists over the integrations and members of a group; proved by exchanging finite sums. Files: AvgCovProps. Theorems: `averaged_baselines`, `averaged_baseline_vectors`.

**C338 (partial) Time pairs within the tolerance are counted once.** average_spectra beyond the spectra: AvgCovModel.v. Covariances, frequency weights and error bars are lists over the integrations and members of a group; proved by exchanging finite sums. Files: AvgCovProps. Theorems: `time_pairs_tolerance_refuted` [SF], `time_pairs_counted` [SF]. Note: false of the code: times are rounded, so that two times closer than the tolerance may be separated; those further apart always are, equal ones never.

**C339 (proved) SWMR containers take no new spectra.** SWMR checks of the container: ContainerTree.v, over the state machine of C14-C16; the tree of an open file is a function of the file, so that the check reads exactly what is stored. Files: ContainerTree. Theorems: `swmr_no_new_spectra`, `swmr_existing_spectra`. Note: the check of set_pspec; restrictions of h5py itself in SWMR mode are not modelled.

**C340 (proved) Statistics of averaged spectra.** average_spectra's statistics: AvgStatModel.v. The dictionaries of statistics and the loops over names are folds of updates; proved: a fold applies the step of a name as often as the name occurs. Optimality of inverse-variance weights: sum (w e - l/e)^2 >= 0 with l = (sum w)/(sum e^-2). Files: AvgStatProps. Theorems: `averaged_statistics` [SNF], `averaged_statistics_refused` [SNF].

**C341 (proved) Each statistic is averaged on its own.** average_spectra's statistics: AvgStatModel.v. The dictionaries of statistics and the loops over names are folds of updates; proved: a fold applies the step of a name as often as the name occurs. Optimality of inverse-variance weights: sum (w e - l/e)^2 >= 0 with l = (sum w)/(sum e^-2). Files: AvgStatProps. Theorems: `statistics_independent` [SNF], `statistics_averaged` [SNF], `single_row_statistic` [SF].

**C342 (partial) Repeated names of statistics.** average_spectra's statistics: AvgStatModel.v. The dictionaries of statistics and the loops over names are folds of updates; proved: a fold applies the step of a name as often as the name occurs. Optimality of inverse-variance weights: sum (w e - l/e)^2 >= 0 with l = (sum w)/(sum e^-2). Files: AvgStatProps. Theorems: `repeated_statistic_refuted` [SNF], `repeated_statistic_shape` [SNF]. Note: false of the code: a name given n times gives n times the rows and n times the polarizations, and wrong values.

**C343 (proved) Averaging with error_weights is optimal.** average_spectra's statistics: AvgStatModel.v. The dictionaries of statistics and the loops over names are folds of updates; proved: a fold applies the step of a name as often as the name occurs. Optimality of inverse-variance weights: sum (w e - l/e)^2 >= 0 with l = (sum w)/(sum e^-2). Files: AvgStatProps. Theorems: `inverse_variance_error` [SNF], `inverse_variance_optimal` [SNF]. Note: for averaged variances above 1e-8, below which error bars become infinite (C105).

**C344 (partial) Weights of baseline-pairs in no group.** average_spectra's statistics: AvgStatModel.v. The dictionaries of statistics and the loops over names are folds of updates; proved: a fold applies the step of a name as often as the name occurs. Optimality of inverse-variance weights: sum (w e - l/e)^2 >= 0 with l = (sum w)/(sum e^-2). Files: AvgStatProps. Theorems: `left_over_weights_refuted` [SF], `left_over_weights` [S]. Note: false of the code when there are more lists of weights than groups: the surplus lists are used for the baseline-pairs in no group; holds when there is one list per group.

**C345 (proved) Pseudo-Stokes files from the command line.** The scripts: ScriptModel.v. A Python call is a function from parameters, positional and keyword arguments to values; loops over containers and files by induction; polarization objects of PstokesModel. Files: ScriptProps. Theorems: `generate_pstokes_list` [SCF], `generate_pstokes_atomic` [SF].

**C346 (partial) Default pseudo-Stokes parameter.** The scripts: ScriptModel.v. A Python call is a function from parameters, positional and keyword arguments to values; loops over containers and files by induction; polarization objects of PstokesModel. Files: ScriptProps. Theorems: `generate_pstokes_default_refuted` [SF]. Note: false of the code: the default is the text 'pI', whose letters are taken one by one; always an error, and no file is written.

**C347 (partial) Default output of generate_pstokes_run.** The scripts: ScriptModel.v. A Python call is a function from parameters, positional and keyword arguments to values; loops over containers and files by induction; polarization objects of PstokesModel. Files: ScriptProps. Theorems: `generate_pstokes_inplace_refuted` [SF], `generate_pstokes_keeps_refuted` [SCF]. Note: false of the code: without --clobber nothing is written, without --keep_vispols the linear polarizations are lost; with both, C345.

**C348 (proved) Error bars from the command line.** The scripts: ScriptModel.v. A Python call is a function from parameters, positional and keyword arguments to values; loops over containers and files by induction; polarization objects of PstokesModel. Files: ScriptCalls. Theorems: `auto_noise_all`, `auto_noise_failure`.

**C349 (partial) The option --spectra of auto_noise_run.** The scripts: ScriptModel.v. A Python call is a function from parameters, positional and keyword arguments to values; loops over containers and files by induction; polarization objects of PstokesModel. Files: ScriptCalls. Theorems: `auto_noise_spectra_refuted`. Note: false of the code: always an UnboundLocalError; nothing changes.

**C350 (proved) Options reach bootstrap_run and pspec_run.** The scripts: ScriptModel.v. A Python call is a function from parameters, positional and keyword arguments to values; loops over containers and files by induction; polarization objects of PstokesModel. Files: ScriptCalls, ScriptProps. Theorems: `bootstrap_script_call`, `pspec_script_call`, `call_arguments`. Note: the names of options, parameters and defaults are transcribed from the sources; the rule for calls is Python's (call_arguments).

**C351 (partial) Options that bootstrap_run does not know.** The scripts: ScriptModel.v. A Python call is a function from parameters, positional and keyword arguments to values; loops over containers and files by induction; polarization objects of PstokesModel. Files: ScriptCalls. Theorems: `bootstrap_script_extra_refuted`. Note: false of the code: a TypeError; holds without added names (C350).

**C352 (partial) Defaults on the command line.** The scripts: ScriptModel.v. A Python call is a function from parameters, positional and keyword arguments to values; loops over containers and files by induction; polarization objects of PstokesModel. Files: ScriptCalls. Theorems: `bootstrap_defaults_refuted`, `pspec_defaults_refuted`. Note: false of the code in three and seven parameters, which the theorems list; the others agree.

**C353 (partial) Merging spectra from the command line.** The scripts: ScriptModel.v. A Python call is a function from parameters, positional and keyword arguments to values; loops over containers and files by induction; polarization objects of PstokesModel. Files: ScriptCalls. Theorems: `merge_script_refuted`. Note: false of the code: the parser it asks for does not exist, nor does the option uvp_split_str, nor the parameter of that name.

**C354 (partial) Redundant pipeline.** The scripts: ScriptModel.v. A Python call is a function from parameters, positional and keyword arguments to values; loops over containers and files by induction; polarization objects of PstokesModel. Files: ScriptCalls. Theorems: `pspec_red_refuted`, `broadcast_spec`. Note: false of the code: every call of pspec() is a TypeError (no parameter avg_group), and the conversion a ValueError; nothing is ever stored.

**C355 (proved) Datasets, weights, error sets and labels of a PSpecData stay aligned.** PSpecData's constructor and add: AddModel.v (every form of argument), specification of what a call means AddSpec.v. Proved: the checks accept exactly the calls that mean something (by cases on the forms; dicts by induction on the keys), then histories by induction; labels through the label model of C28. Files: AddProps. Theorems: `C355_history`, `C355_accepted_iff`, `C355_add_appends`, `C355_accepted_only`. Note: what a call means is specified in AddSpec.v on the arguments alone; calibration is any function of the contents.

**C356 (proved) A dict of datasets is the lists of its values.** PSpecData's constructor and add: AddModel.v (every form of argument), specification of what a call means AddSpec.v. Proved: the checks accept exactly the calls that mean something (by cases on the forms; dicts by induction on the keys), then histories by induction; labels through the label model of C28. Files: AddProps. Theorems: `C356_dict_is_lists`.

**C357 (partial) A refused add changes nothing.** PSpecData's constructor and add: AddModel.v (every form of argument), specification of what a call means AddSpec.v. Proved: the checks accept exactly the calls that mean something (by cases on the forms; dicts by induction on the keys), then histories by induction; labels through the label model of C28. Files: AddMore, AddProps. Theorems: `C357_refused_changes_nothing`, `C361_failed_calibration_refuted`. Note: the object is never changed, nor the contents unless a calibration raises; then the datasets calibrated before stay calibrated: false of the code in that case (C361_failed_calibration_refuted).

**C358 (proved) Adding datasets starts the channel range over.** PSpecData's constructor and add: AddModel.v (every form of argument), specification of what a call means AddSpec.v. Proved: the checks accept exactly the calls that mean something (by cases on the forms; dicts by induction on the keys), then histories by induction; labels through the label model of C28. Files: AddProps. Theorems: `C358_add_resets_range`.

**C359 (partial) Weights may be left out.** PSpecData's constructor and add: AddModel.v (every form of argument), specification of what a call means AddSpec.v. Proved: the checks accept exactly the calls that mean something (by cases on the forms; dicts by induction on the keys), then histories by induction; labels through the label model of C28. Files: AddMore. Theorems: `C359_no_weights_one`, `C359_no_weights_dict`, `C359_constructor_list`, `C359_no_weights_list_refuted`, `C359_constructor_dict_refuted`. Note: holds of one dataset and of dicts given to add and of lists given to the constructor; false of lists of other lengths given to add and of dicts given to the constructor.

**C360 (partial) Given error sets are kept.** PSpecData's constructor and add: AddModel.v (every form of argument), specification of what a call means AddSpec.v. Proved: the checks accept exactly the calls that mean something (by cases on the forms; dicts by induction on the keys), then histories by induction; labels through the label model of C28. Files: AddMore. Theorems: `C360_add_keeps_stds`, `C360_constructor_drops_stds_refuted`. Note: holds of add; the constructor drops every error set when one is missing.

**C361 (partial) Calibrations are applied once, one per dataset or one for all.** PSpecData's constructor and add: AddModel.v (every form of argument), specification of what a call means AddSpec.v. Proved: the checks accept exactly the calls that mean something (by cases on the forms; dicts by induction on the keys), then histories by induction; labels through the label model of C28. Files: AddMore. Theorems: `C361_calibrated_once`, `C361_dset_idx`, `C361_one_for_all_refuted`. Note: one calibration for several datasets, as the constructor's documentation allows, is refused; a dataset that occurs twice in a call is calibrated twice.

**C362 (proved) Spectra drawn by delay_spectrum.** delay_spectrum from object to artists: DspecModel.v. Lists of spectra by induction over groups, baseline-pairs and integrations; artists of one spectrum by cases on lines, markers and scale. Files: DspecProps. Theorems: `spectra_drawn` [SNF], `spectra_accepted` [SNF].

**C363 (proved) Statistics and error bars in plots.** delay_spectrum from object to artists: DspecModel.v. Lists of spectra by induction over groups, baseline-pairs and integrations; artists of one spectrum by cases on lines, markers and scale. Files: DspecProps. Theorems: `stats_drawn` [SNF], `unknown_statistics` [SNF].

**C364 (partial) Plots of averages with error bars.** delay_spectrum from object to artists: DspecModel.v. Lists of spectra by induction over groups, baseline-pairs and integrations; artists of one spectrum by cases on lines, markers and scale. Files: DspecProps. Theorems: `average_errors_keyerror` [SNF], `time_average_errors_keyerror` [SNF], `average_errors_refuted` [SNF], `average_stats_refuted` [SNF]. Note: the claim is refuted: the average that is plotted never has statistics, so error is always a KeyError and plot_stats an AttributeError.

**C365 (partial) Unknown components.** delay_spectrum from object to artists: DspecModel.v. Lists of spectra by induction over groups, baseline-pairs and integrations; artists of one spectrum by cases on lines, markers and scale. Files: DspecProps. Theorems: `unknown_component_refuted` [SNF]. Note: refuted: it is an UnboundLocalError at the first spectrum, and nothing when there is none.

**C366 (partial) Markers tell signs.** delay_spectrum from object to artists: DspecModel.v. Lists of spectra by induction over groups, baseline-pairs and integrations; artists of one spectrum by cases on lines, markers and scale. Files: DspecProps. Theorems: `log_markers` [SF], `linear_markers_refuted` [SF]. Note: holds on a logarithmic scale; on a linear scale all markers are filled.

**C367 (proved) Lines on a logarithmic scale.** delay_spectrum from object to artists: DspecModel.v. Lists of spectra by induction over groups, baseline-pairs and integrations; artists of one spectrum by cases on lines, markers and scale. Files: DspecProps. Theorems: `log_line_sign` [SF], `linear_line_sign` [SF].

**C368 (proved) One legend entry per spectrum.** delay_spectrum from object to artists: DspecModel.v. Lists of spectra by induction over groups, baseline-pairs and integrations; artists of one spectrum by cases on lines, markers and scale. Files: DspecProps. Theorems: `one_label` [SF], `legend_in_order` [SF], `legend_lost` [SF], `manual_labels_spec`. Note: with neither lines nor markers no spectrum has an entry (legend_lost).

**C369 (proved) Baseline vectors in the local frame.** get_ENU_bl_vecs: EnuModel.v. The rotation is written out; orthonormality of east, north and up by trigonometry, the rest by linear algebra; separations through get_blpair_seps (C206). Files: EnuProps. Theorems: `enu_components` [SNF], `enu_isometry` [SNF], `enu_axes` [SNF], `enu_linear` [SNF], `horizontal_length` [SNF].

**C370 (proved) Separations do not depend on the location.** get_ENU_bl_vecs: EnuModel.v. The rotation is written out; orthonormality of east, north and up by trigonometry, the rest by linear algebra; separations through get_blpair_seps (C206). Files: EnuProps. Theorems: `seps_from_stored_vectors` [SNF].

**C371 (proved) Spectra made by uvpspec_from_data.** uvpspec_from_data and check_key_in_dset: FromDataModel.v. Argument binding of ScriptModel.v, constructor of AddModel.v, pairs of SimModel.v. Files: FromDataProps. Theorems: `from_data_call`, `from_data_accepts`, `from_data_constructs`, `from_data_beam`, `from_data_group_pairs`, `from_data_no_pols`.

**C372 (partial) Further options of uvpspec_from_data.** uvpspec_from_data and check_key_in_dset: FromDataModel.v. Argument binding of ScriptModel.v, constructor of AddModel.v, pairs of SimModel.v. Files: FromDataProps. Theorems: `from_data_kwargs_refuted`, `from_data_accepts`. Note: refuted: store_cov, cov_model and input_data_weight are TypeErrors; holds for the other optional parameters of pspec.

**C373 (proved) Data of uvpspec_from_data.** uvpspec_from_data and check_key_in_dset: FromDataModel.v. Argument binding of ScriptModel.v, constructor of AddModel.v, pairs of SimModel.v. Files: FromDataProps. Theorems: `from_data_other`. Note: by an UnboundLocalError.

**C374 (proved) Keys of datasets.** uvpspec_from_data and check_key_in_dset: FromDataModel.v. Argument binding of ScriptModel.v, constructor of AddModel.v, pairs of SimModel.v. Files: FromDataProps. Theorems: `check_key_spec`, `check_key_refuses`, `check_key_index`. Note: labels, which other methods accept, are a TypeError.

**C375 (proved) Groups by antenna numbers or by integers.** the Python value given as blpair_groups (PlotModel.pv) read as average_spectra reads it (AvgArgsModel.v), with the codec in binary64; equal to the groups of AvgModel.effective_groups; the errors by induction over the position of the offending group Files: AvgArgsProps. Theorems: `groups_by_antennas` [SNCF], `groups_by_integers` [SNCF], `groups_not_given` [SNCF].

**C376 (proved) Every baseline-pair of the object is averaged once.** the Python value given as blpair_groups (PlotModel.pv) read as average_spectra reads it (AvgArgsModel.v), with the codec in binary64; equal to the groups of AvgModel.effective_groups; the errors by induction over the position of the offending group Files: AvgArgsProps. Theorems: `groups_partition` [SNCF].

**C377 (proved) Groups that are refused.** the Python value given as blpair_groups (PlotModel.pv) read as average_spectra reads it (AvgArgsModel.v), with the codec in binary64; equal to the groups of AvgModel.effective_groups; the errors by induction over the position of the offending group Files: AvgArgsProps, AvgProps. Theorems: `groups_refused` [SNCF], `C18_no_groups`, `entries_refused` [SNCF].

**C378 (partial) Mixing antenna numbers and integers in groups.** the Python value given as blpair_groups (PlotModel.pv) read as average_spectra reads it (AvgArgsModel.v), with the codec in binary64; equal to the groups of AvgModel.effective_groups; the errors by induction over the position of the offending group Files: AvgArgsProps. Theorems: `groups_mixed_refuted` [SNCF]. Note: false of the code: only the first baseline-pair of the first group is looked at. If it is a tuple, an integer elsewhere is a TypeError; if it is an integer, a later group that starts with a tuple is a ValueError, and a baseline-pair written as a tuple elsewhere is averaged into its group and again as a group of its own.

**C379 (proved) The beam of a PSpecBeamUV.** PSpecBeamUV's constructor on a heap of UVBeam objects: BeamObjModel.v. pyuvdata's conversions are parameters that may fail. Files: BeamObjProps. Theorems: `beam_uv_spec`, `beam_uv_response` [SNF]. Note: what efield_to_power and peak_normalize promise is a hypothesis (pyuvdata).

**C380 (partial) The caller's UVBeam.** PSpecBeamUV's constructor on a heap of UVBeam objects: BeamObjModel.v. pyuvdata's conversions are parameters that may fail. Files: BeamObjProps. Theorems: `beam_uv_caller_refuted`, `beam_uv_again`. Note: false of the code for E-field beams, which are converted and normalised in place; a power beam is unchanged, and the second PSpecBeamUV of one object shares its beam and changes nothing.

**C381 (proved) Bins of spherical_average.** the conversion of the two arguments by outcome (number, 0-dimensional array, list, deeper, not convertible; nan is None) and the overlap check over the reals: SphArgsModel.v, with SphModel.v's bins; overlaps of far bins by induction over their distance Files: SphArgsProps. Theorems: `bins_read` [SF], `one_width_for_all` [SF], `bins_refused` [SF], `bins_units` [SF], `scaled_bin` [SF], `bins_nonvacuous` [SF]. Note: rounding is not modelled; a numpy integer as the width is accepted for one bin only.

**C382 (partial) No wavenumber in two bins.** the conversion of the two arguments by outcome (number, 0-dimensional array, list, deeper, not convertible; nan is None) and the overlap check over the reals: SphArgsModel.v, with SphModel.v's bins; overlaps of far bins by induction over their distance Files: SphArgsProps. Theorems: `overlap_small` [SF], `no_overlap_partial` [SF], `overlap_accepted` [SF]. Note: false of the code: overlaps below 1e-6 are accepted, and with a negative width any overlap is; proved: without negative widths, a wavenumber in bins i<j is within (j-i) 1e-6 of the edge, and if edges do not overlap no wavenumber is in two bins.

**C383 (partial) Bins that are not numbers.** the conversion of the two arguments by outcome (number, 0-dimensional array, list, deeper, not convertible; nan is None) and the overlap check over the reals: SphArgsModel.v, with SphModel.v's bins; overlaps of far bins by induction over their distance Files: SphArgsProps. Theorems: `nan_refused_partial` [SF], `nan_accepted` [SF], `bins_refused` [SF]. Note: false of the code for one bin: None, which numpy reads as nan, makes a bin with no edges; refused when there are two or more bins.

**C384 (partial) Printing a PSpecData object.** the text as a list of characters, with PyStr.v's printing of integers; parsed back from the left Files: SummaryProps. Theorems: `summary_inj_partial`, `summary_count`, `summary_lines`, `summary_refuted`, `summary_text`. Note: false of the code for labels with quotes and line ends; proved for labels without quotes, and for the number of datasets with any labels.

**C385 (proved) One waterfall picture for each antenna pair and polarization.** the files saved in order by plot_uvdata_waterfalls, with PlotModel.v's names, and what is on the disk after: WaterModel.v; by induction over the keys Files: WaterProps. Theorems: `waterfalls_saved` [S], `waterfalls_default_names` [S], `waterfalls_files` [S], `waterfalls_lost` [S], `waterfalls_refused` [S], `waterfalls_nonvacuous` [S]. Note: for other basenames the hypothesis is that the names of different keys differ (waterfalls_files); drawing itself is uvtools'.

**C386 (proved) Colours of waterfall pictures.** the files saved in order by plot_uvdata_waterfalls, with PlotModel.v's names, and what is on the disk after: WaterModel.v; by induction over the keys Files: WaterProps. Theorems: `waterfalls_colours` [SF]. Note: how uvtools.plot.waterfall reads mx and drng is a definition (colour_range), not code of the repository.

**C387 (partial) Counters of old files.** the counters of rows in read_from_group for files of both formats, with the attribute Nblpairts that _clear does not clear: OldFileModel.v; selections by the rows they match Files: OldFileProps. Theorems: `old_file_read` [SF], `old_file_selected` [SF], `old_file_nonvacuous` [S], `rows_asked_for`. Note: false of the code with selections: Nbltpairs is that of the whole file after a selection by baselines, and a selection by baseline-pairs or times alone is an AttributeError; proved for whole files.

**C388 (partial) What an object held before does not matter for reading.** the counters of rows in read_from_group for files of both formats, with the attribute Nblpairts that _clear does not clear: OldFileModel.v; selections by the rows they match Files: OldFileProps. Theorems: `new_file_read_partial` [SF], `read_after_failure_refuted` [SF], `old_file_nonvacuous` [S], `rows_asked_for`, `new_file_counters` [SF]. Note: false of the code for an object left by a failed read of an old file, whose Nblpairts is not cleared; proved for objects without Nblpairts and files of the present format.

**C389 (proved) Polarizations of older files.** pol_array, polpair_array and exact_windows of a file: OldPolModel.v, with the codec of PolPairModel.v Files: OldPolProps. Theorems: `old_polarizations`, `new_polarizations`, `old_exact_windows`, `old_polarizations_case`. Note: before the selection of rows and pairs.

