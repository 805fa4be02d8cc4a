{"id": "C01", "title": "Baseline(-pair) integer codec round-trips", "statement": "For antenna numbers in 0..899, converting a baseline or baseline-pair to its integer and back returns the same antenna numbers, also with the double-precision divisions, subtractions and floors the code performs; distinct (pairs of) baselines get distinct integers; conjugation helpers are the tuple reversals and are involutions; the baseline-pair integer splits into the two baseline integers.", "quantifier": "all antenna quadruples with each number in 0..899 (about 6.5e11 values), all roundings to nearest of each operation", "why_tests_cant": "6.5e11 inputs, and the code uses floating-point division on 12-digit integers, so a single bad rounding anywhere would be invisible to sampled tests", "anchors": ["src/hera_pspec/uvpspec_utils.py::_blpair_to_antnums", "src/hera_pspec/uvpspec_utils.py::_antnums_to_blpair", "src/hera_pspec/uvpspec_utils.py::_bl_to_antnums", "src/hera_pspec/uvpspec_utils.py::_antnums_to_bl", "src/hera_pspec/uvpspec_utils.py::_blpair_to_bls", "src/hera_pspec/uvpspec_utils.py::_conj_blpair_int", "src/hera_pspec/uvpspec_utils.py::_conj_bl_int", "src/hera_pspec/uvpspec_utils.py::_conj_blpair"]}
{"id": "C02", "title": "Baseline-pair integers stay unique for any array size", "statement": "Two different baseline-pairs never share a baseline-pair integer, whatever the (non-negative) antenna numbers are.", "quantifier": "all pairs of antenna quadruples of non-negative integers", "why_tests_cant": "collisions appear only for antenna numbers the test data never contains (>= 900)", "anchors": ["src/hera_pspec/uvpspec_utils.py::_antnums_to_blpair", "src/hera_pspec/uvpspec_utils.py::_blpair_to_antnums"]}
{"id": "C03", "title": "Polarization-pair integer codec round-trips", "statement": "Every pair of valid polarization integers (-8..4) encodes to an integer that decodes to exactly that pair, encodings are distinct, and every integer whose decoding is outside the valid range is rejected with an error rather than decoded.", "quantifier": "all integers and all pairs of polarization numbers", "why_tests_cant": "decoding slices the decimal string; the claim is about every integer including short and negative ones", "anchors": ["src/hera_pspec/uvpspec_utils.py::polpair_int2tuple", "src/hera_pspec/uvpspec_utils.py::polpair_tuple2int"]}
{"id": "C04", "title": "r_params compression is lossless", "statement": "compress_r_params followed by decompress_r_params (what UVPSpec.get_r_params does) gives back every baseline key with its parameter dictionary and no others, for dictionaries without a field called 'baselines'; identical parameter sets are stored once.", "quantifier": "all dictionaries of baseline keys to parameter dictionaries", "why_tests_cant": "unbounded number of keys and sharing patterns between parameter dictionaries", "anchors": ["src/hera_pspec/uvpspec_utils.py::compress_r_params", "src/hera_pspec/uvpspec_utils.py::decompress_r_params", "src/hera_pspec/uvpspec.py::UVPSpec.get_r_params"]}
{"id": "C05", "title": "select keeps exactly the requested blpair-times, spws and polpairs, with data aligned", "statement": "After UVPSpec.select, the surviving (baseline-pair, time) rows are exactly those that match the requested baselines OR baseline-pairs AND times/lsts, in their original order, the surviving spectral windows are renumbered 0..n-1 in order, and for every surviving (spw, row, polpair) the spectrum, weights, integration and nsample read are the ones that (spw,row,polpair) had before; a request for an unknown window, or one that matches no row or no polarization pair, is an error, and these are the only errors besides empty baseline/pair lists and giving both times and LSTs.", "quantifier": "all UVPSpec contents, all selection arguments", "why_tests_cant": "every combination of axes, orders and duplicates of the selection lists", "anchors": ["src/hera_pspec/uvpspec_utils.py::_select", "src/hera_pspec/uvpspec.py::UVPSpec.select"]}
{"id": "C06", "title": "select keeps every per-spectrum array aligned, including labels", "statement": "After select, the label arrays (which dataset each spectrum came from) have one entry per surviving (spw, blpair-time, polpair), namely the entry it had before.", "quantifier": "all UVPSpec contents and selections that drop at least one spw, row or polpair", "why_tests_cant": "the label arrays are only consulted when spectra are later combined, after arbitrary histories of selects", "anchors": ["src/hera_pspec/uvpspec_utils.py::_select", "src/hera_pspec/uvpspec.py::combine_uvpspec"]}
{"id": "C07", "title": "select_common reduces all objects to their common windows, baseline-pairs and times", "statement": "select_common(uvp_list, spws, blpairs, times/lsts) without polpairs leaves every object with exactly the intersection of the requested axes; an empty intersection is a ValueError.", "quantifier": "all lists of UVPSpec objects and all flags other than polpairs", "why_tests_cant": "arbitrary overlap patterns between arbitrarily many objects", "anchors": ["src/hera_pspec/uvpspec_utils.py::select_common"]}
{"id": "C08", "title": "Key lookups address the right spectra", "statement": "get_data / get_integrations / get_nsamples / get_wgts for key (spw, blpair, polpair) return exactly the rows whose blpair equals the key's blpair, in storage order, in the column of that polpair and the window of that spw; an unknown spw, blpair or polpair is an error; get_all_keys lists every combination exactly once.", "quantifier": "all UVPSpec objects and keys", "why_tests_cant": "quantifies over all row orders, including non-contiguous repeats of one baseline-pair", "anchors": ["src/hera_pspec/uvpspec.py::UVPSpec.key_to_indices", "src/hera_pspec/uvpspec.py::UVPSpec.blpair_to_indices", "src/hera_pspec/uvpspec.py::UVPSpec.polpair_to_indices", "src/hera_pspec/uvpspec.py::UVPSpec.get_data", "src/hera_pspec/uvpspec.py::UVPSpec.get_all_keys"]}
{"id": "C09", "title": "Data and delay axes have the same length when windows are selected before folding", "statement": "For every history of selects and folds in which windows are selected before folding, and windows of at least three delays, a spectrum returned by get_data has as many bins as get_dlys returns for the same spw.", "quantifier": "all delay-axis lengths and all histories of fold and select calls", "why_tests_cant": "needs all lengths (even, odd, very short) and operation sequences", "anchors": ["src/hera_pspec/uvpspec.py::UVPSpec.get_data", "src/hera_pspec/uvpspec.py::UVPSpec.get_dlys", "src/hera_pspec/uvpspec.py::UVPSpec.fold_spectra", "src/hera_pspec/grouping.py::fold_spectra", "src/hera_pspec/uvpspec_utils.py::_select"]}
{"id": "C10", "title": "fold_spectra averages +/- delays", "statement": "Folding replaces each positive-delay bin at +n by the mean of bins +n and -n (matching |delay|), leaves zero delay unchanged, zeroes or drops the negative bins, doubles nsample, combines error bars in quadrature, refuses to fold twice, and drops the unpaired most-negative bin for an even number of delays; covariances between non-zero delays are those of the means, and exact window functions keep row sums of one.", "quantifier": "all numbers of delays (even and odd), all data", "why_tests_cant": "index arithmetic with reversed slices must be right for every length", "anchors": ["src/hera_pspec/grouping.py::fold_spectra"]}
{"id": "C11", "title": "combine_uvpspec concatenates spectra of aligned objects without misattributing data", "statement": "Combining UVPSpec objects that differ along one axis, whose windows are in increasing order and, when windows or polarization pairs are concatenated, whose rows are in the same order with distinct first times, yields an object in which, for every input object and every (spw, blpair, time, polpair) in it, looking up that key gives the input's spectrum, and nothing else is present; the order of the list does not matter.", "quantifier": "all lists of combinable UVPSpec objects, in every order and with every internal ordering of spws, rows and polpairs", "why_tests_cant": "correctness depends on relative orderings of three axes across arbitrarily many objects", "anchors": ["src/hera_pspec/uvpspec.py::combine_uvpspec", "src/hera_pspec/uvpspec.py::get_uvp_overlap"]}
{"id": "C12", "title": "get_uvp_overlap accepts exactly single-axis differences", "statement": "The overlap check returns the concatenation axis only if every pair of objects agrees on two of the three axes and is disjoint on the third, the same third axis for all pairs; everything else (identical objects, partial overlaps, several differing axes) is rejected.", "quantifier": "all lists of objects and all axis contents", "why_tests_cant": "all pairs among arbitrarily many objects and arbitrary partial overlaps", "anchors": ["src/hera_pspec/uvpspec.py::get_uvp_overlap"]}
{"id": "C13", "title": "recursive_combine_uvpspec merges every object exactly once", "statement": "The recursive midpoint merge terminates for every non-empty list, performs exactly n-1 pairwise combinations, uses every input exactly once and in order, and for an associative merge equals the left-to-right fold; an empty list is an error. The batched command-line merge, for every batch size >= 1, gives the same result as the unbatched one.", "quantifier": "all list lengths and batch sizes", "why_tests_cant": "unbounded list lengths and batch sizes, including non-dividing ones", "anchors": ["src/hera_pspec/uvpspec.py::recursive_combine_uvpspec", "src/hera_pspec/cli.py::fast_merge_baselines"]}
{"id": "C14", "title": "PSpecContainer: read your writes, isolation, listing", "statement": "After a successful set_pspec(group, name, x), get_pspec(group, name) returns x, spectra(group) lists name, groups() lists group, and no other (group, name) changes; without overwrite an existing spectrum is never changed; in mode 'r' no operation ever changes the file.", "quantifier": "all histories of container operations", "why_tests_cant": "holds for every interleaving of sets, saves and reads on one file", "anchors": ["src/hera_pspec/container.py::PSpecContainer.set_pspec", "src/hera_pspec/container.py::PSpecContainer.get_pspec", "src/hera_pspec/container.py::PSpecContainer.spectra", "src/hera_pspec/container.py::PSpecContainer.groups", "src/hera_pspec/container.py::PSpecContainer._store_pspec"]}
{"id": "C15", "title": "PSpecContainer: no torn spectrum is ever readable", "statement": "Whatever happens during set_pspec(..., overwrite=True), no half-written spectrum can be read as a spectrum, the other spectra are unaffected, and the entry can be written again.", "quantifier": "all failure points of an overwrite", "why_tests_cant": "quantifies over crash points inside one call", "anchors": ["src/hera_pspec/container.py::PSpecContainer.set_pspec", "src/hera_pspec/container.py::PSpecContainer._store_pspec", "src/hera_pspec/uvpspec.py::UVPSpec.write_to_group"]}
{"id": "C16", "title": "PSpecContainer: file handle discipline and bounded retries", "statement": "In transactional (keep_open=False) mode the file is closed after every public operation whether it returns or raises, also for nested calls, for containers that are not SWMR, are read-only or have their header; opening retries a bounded number of times and either ends with an open file or raises the error.", "quantifier": "all histories of operations, all failure patterns of the operating system's open", "why_tests_cant": "quantifies over schedules of open failures and operation nesting", "anchors": ["src/hera_pspec/container.py::transactional", "src/hera_pspec/container.py::PSpecContainer._open", "src/hera_pspec/container.py::PSpecContainer._close"]}
{"id": "C17", "title": "combine_psc_spectra merges only the extensions of each spectrum name", "statement": "For spectra whose output names are substrings only of their own extensions, combine_psc_spectra merges into each output dset1_x_dset2 exactly the spectra named dset1_x_dset2 plus an extension suffix, and leaves other spectra alone; it needs a container kept open.", "quantifier": "all sets of spectrum names in a group", "why_tests_cant": "name matching must be right for all names, including names that are prefixes of each other", "anchors": ["src/hera_pspec/container.py::combine_psc_spectra"]}
{"id": "C18", "title": "Averaging spectra is the weighted mean", "statement": "average_spectra over times and/or groups of baseline-pairs returns, for every bin, sum(w d)/sum(w) over the contributing spectra with w given by integration time and nsample; nsample adds up, the average lies between the smallest and largest input, averaging in two steps with recomputed weights equals averaging at once when each step has equal integration times, error bars above 1e-4 propagate as standard errors, rows of estimated window functions keep their sums, and the order of baseline-pairs in a group does not matter.", "quantifier": "all groups, weights, data", "why_tests_cant": "all group sizes and weights; algebraic identities over reals", "anchors": ["src/hera_pspec/grouping.py::average_spectra", "src/hera_pspec/uvpspec.py::UVPSpec.average_spectra"]}
{"id": "C19", "title": "Equal and integer baseline-pair weights are honoured", "statement": "average_spectra(blpair_groups, blpair_weights) weights each baseline-pair in proportion to the weight given for it when the normalised weights are equal or integers; non-positive totals are rejected.", "quantifier": "all weight lists with integer normalised values", "why_tests_cant": "only non-integer normalised weights reveal it", "anchors": ["src/hera_pspec/grouping.py::average_spectra"]}
{"id": "C20", "title": "Bootstrap draws preserve group size; the bootstrap is an average with integer multiplicities", "statement": "bootstrap_average_blpairs of one object draws each group with replacement, producing multiplicities that sum to the group size, only over members of the group, and the resulting weights are used exactly; a group with an unknown pair is an error.", "quantifier": "all group sizes and all random draws", "why_tests_cant": "must hold for every random draw", "anchors": ["src/hera_pspec/grouping.py::bootstrap_average_blpairs", "src/hera_pspec/grouping.py::sample_baselines", "src/hera_pspec/grouping.py::group_baselines"]}
{"id": "C21", "title": "Baseline grouping is a partition", "statement": "group_baselines with a positive number of groups splits the list into that number of groups: sizes differ by at most one remainder rule, every baseline is in at most one group, with keep_remainder every one is in exactly one, order or randomisation aside.", "quantifier": "all list lengths, group counts and permutations", "why_tests_cant": "all lengths including non-dividing ones", "anchors": ["src/hera_pspec/grouping.py::group_baselines"]}
{"id": "C22", "title": "Spherical averaging bins every (kperp,kpara) cell at most once and takes the weighted mean", "statement": "Each cylindrical mode contributes to at most one spherical k bin, the one whose interval contains its |k|, and modes outside all bins to none; with diagonal covariances the binned power is the inverse-variance weighted mean of the modes in the bin and has unit response to a constant spectrum.", "quantifier": "all bin edges, modes and weights; bins with more than 1e-15 of the largest total weight (others are set to 0)", "why_tests_cant": "real-valued edges and boundary ties; all configurations", "anchors": ["src/hera_pspec/grouping.py::spherical_average"]}
{"id": "C23", "title": "Delay-bin slices tile the delay axis symmetrically", "statement": "The delay re-binning slices are contiguous, disjoint, of the requested width, in range, with zero delay alone in the middle and the negative side mirroring the positive side.", "quantifier": "all odd numbers of delays about a single zero, all positive bin widths, all odd zero bins that fit", "why_tests_cant": "all parities and remainders", "anchors": ["src/hera_pspec/grouping.py::_get_delay_slices", "src/hera_pspec/grouping.py::average_in_delay_bins"]}
{"id": "C24", "title": "construct_blpairs enumerates exactly the requested baseline pairs", "statement": "For a redundant group, the pairs produced are all ordered pairs (or unordered, with exclude_permutations), with autos and/or crosses excluded as asked, each exactly once; grouping splits them without loss.", "quantifier": "all lists of distinct baselines, option combinations and positive numbers of groups", "why_tests_cant": "combinatorial claim over all list lengths", "anchors": ["src/hera_pspec/utils.py::construct_blpairs"]}
{"id": "C25", "title": "Redundant grouping puts each baseline in exactly one group", "statement": "get_blvec_reds puts every baseline in exactly one group, within tolerance of the group's reference baseline; returned lengths, angles and tags align with groups.", "quantifier": "all baseline-vector sets and positive tolerances", "why_tests_cant": "greedy algorithm over arbitrary geometric configurations", "anchors": ["src/hera_pspec/utils.py::get_blvec_reds", "src/hera_pspec/uvpspec_utils.py::_get_red_bls", "src/hera_pspec/uvpspec_utils.py::_get_red_blpairs"]}
{"id": "C26", "title": "job_monitor runs every job index and retries only failures", "statement": "For jobs given as the indices 0..n-1, job_monitor runs every element once, re-runs only failing elements at most maxiter more times, stops when all succeed, returns exactly the still-failing ones, and raises if every job failed in the first round. For every iterator the first round runs every element once.", "quantifier": "all job lists, all failure behaviours", "why_tests_cant": "quantifies over arbitrary failure schedules", "anchors": ["src/hera_pspec/utils.py::job_monitor"]}
{"id": "C27", "title": "Frequency-range to channel-range conversion finds the channels in range", "statement": "spw_range_from_freqs returns the indices of the first and of the last channel whose frequencies lie in the requested range; out-of-range requests are errors, a range between two channels gives None.", "quantifier": "all ascending frequency arrays and bounds", "why_tests_cant": "boundary cases for every array and bound", "anchors": ["src/hera_pspec/utils.py::spw_range_from_freqs", "src/hera_pspec/utils.py::spw_range_from_redshifts"]}
{"id": "C28", "title": "Dataset labels are unique and resolve to their dataset", "statement": "After any sequence of PSpecData.add calls, labels are pairwise distinct, already-assigned labels never change, and dset_idx(label) is that dataset's index; an unknown label is an error.", "quantifier": "all histories of add calls with arbitrary labels, of fewer than 100000 datasets in total", "why_tests_cant": "label de-duplication by suffix may itself collide; must hold for all histories", "anchors": ["src/hera_pspec/pspecdata.py::PSpecData.add", "src/hera_pspec/pspecdata.py::PSpecData.dset_idx"]}
{"id": "C29", "title": "Cached matrices are right after clear_cache while the window is kept", "statement": "After clear_cache and any history of calls that keep the window, extension, symmetric taper, data and filter parameters (tapers, weightings and numbers of delays may change), the weighting matrix returned by R(key) is the one for the current settings.", "quantifier": "all histories of setter and matrix calls", "why_tests_cant": "stateful cache; history-dependence is invisible to single-call tests", "anchors": ["src/hera_pspec/pspecdata.py::PSpecData.R", "src/hera_pspec/pspecdata.py::PSpecData.Y", "src/hera_pspec/pspecdata.py::PSpecData.set_spw", "src/hera_pspec/pspecdata.py::PSpecData.set_filter_extension", "src/hera_pspec/pspecdata.py::PSpecData.set_symmetric_taper", "src/hera_pspec/pspecdata.py::PSpecData.get_spw", "src/hera_pspec/pspecdata.py::PSpecData.clear_cache"]}
{"id": "C30", "title": "pspec() output rows are aligned with their metadata", "statement": "When the first polarization pair asked for is in the data, in the UVPSpec that pspec returns, for every spw and polpair there is exactly one spectrum per (baseline-pair, time) in blpair-major order, and blpair_array/time arrays have the same length and order, whichever other polarization pairs were skipped as invalid.", "quantifier": "all baseline-pair lists, time counts, polpair lists and spw lists", "why_tests_cant": "depends on which polarization pairs are invalid and on counts on three axes", "anchors": ["src/hera_pspec/pspecdata.py::PSpecData.pspec", "src/hera_pspec/pspecdata.py::PSpecData.validate_pol"]}
{"id": "C31", "title": "The identity-weighting normalisation cache is transparent", "statement": "Within a window, reusing G and H for baseline-pairs with the same flagging pattern gives the same matrices as recomputing them for every baseline-pair and polarization; with exact_norm, for one polarization.", "quantifier": "all sequences of baseline-pairs, polarizations and flag patterns", "why_tests_cant": "depends on the order in which keys with equal flags are visited", "anchors": ["src/hera_pspec/pspecdata.py::PSpecData.pspec", "src/hera_pspec/pspecdata.py::PSpecData.get_G", "src/hera_pspec/pspecdata.py::PSpecData.get_H"]}
{"id": "C32", "title": "FFT and matrix forms of the estimator agree", "statement": "q_hat computed by FFT equals q_hat computed with the Q_alt matrices, for every mode and number of channels; Q_alt is Hermitian, rank one, and independent of the method chosen; modes outside range are errors.", "quantifier": "all data vectors, channel counts and modes", "why_tests_cant": "algebraic identity over complex numbers, all sizes", "anchors": ["src/hera_pspec/pspecdata.py::PSpecData.q_hat", "src/hera_pspec/utils.py::get_Q_alt", "src/hera_pspec/utils.py::get_Q_alt_tensor"]}
{"id": "C33", "title": "Normalisation: unweighted estimator is unbiased and window rows sum to one", "statement": "With identity weighting, no taper and as many delays as channels, G is N^2/2 times the identity so p_hat is the squared delay transform over N^2 times the scalar; for every H with non-zero row sums the window matrix rows sum to one in modes I, H^-1 and V^-1/2.", "quantifier": "all sizes and response matrices", "why_tests_cant": "algebraic identity for all N", "anchors": ["src/hera_pspec/pspecdata.py::PSpecData.get_G", "src/hera_pspec/pspecdata.py::PSpecData.get_MW", "src/hera_pspec/pspecdata.py::PSpecData.p_hat"]}
{"id": "C34", "title": "Swapping the two baselines conjugates the estimate", "statement": "For data-independent weights, the band powers of (bl2, bl1) are the complex conjugates of those of (bl1, bl2), auto-pairs give real non-negative q_hat, and q_hat is linear in the right-hand and anti-linear in the left-hand visibilities.", "quantifier": "all data and modes", "why_tests_cant": "algebraic identity over all complex data", "anchors": ["src/hera_pspec/pspecdata.py::PSpecData.q_hat"]}
{"id": "C35", "title": "Reported noise covariances are the covariances of the estimates", "statement": "For independent, circular, channel-uncorrelated noise in the two datasets, the covariance of the real (imaginary) parts of q that get_analytic_covariance reports with model 'dsets' or 'autos' is the ensemble covariance of the real (imaginary) parts of the quadratic estimates; it is real, symmetric, positive semi-definite and equal for the two parts, and so is the covariance of p, for every normalisation M.", "quantifier": "all noise ensembles, estimator matrices, sizes and normalisations", "why_tests_cant": "a statement about ensembles: a test compares with one finite simulation", "anchors": ["src/hera_pspec/pspecdata.py::PSpecData.get_analytic_covariance", "src/hera_pspec/pspecdata.py::PSpecData.get_unnormed_E"]}
{"id": "C36", "title": "broadcast_dset_flags makes flags separable and only adds flags", "statement": "After broadcast_dset_flags, in each of the (disjoint) selected windows the flags of each baseline and polarization factor into a flagged-channel set and a flagged-time set; with one window a sample is flagged iff it was, or its channel exceeds the time threshold, or its integration has a flag left in the window outside those channels; no flag is removed; unflag=True clears exactly the selected windows; every dataset is treated the same way; a second whole-band call changes nothing.", "quantifier": "all flag patterns, thresholds and disjoint window lists", "why_tests_cant": "all boolean waterfalls", "anchors": ["src/hera_pspec/pspecdata.py::PSpecData.broadcast_dset_flags"]}
{"id": "C37", "title": "Pseudo-Stokes combination", "statement": "construct_pstokes gives the documented linear combinations for pI,pQ,pU,pV under both conventions, inverts back to the linear visibilities, flags the union of flags and every sample lacking nsamples in either input, and sets nsamples to 4/(1/n1+1/n2) where both are positive and 0 elsewhere.", "quantifier": "all visibilities, flags and nsamples", "why_tests_cant": "elementwise over all values and flag patterns", "anchors": ["src/hera_pspec/pstokes.py::_combine_pol_arrays", "src/hera_pspec/pstokes.py::construct_pstokes"]}
{"id": "C38", "title": "Time interleaving and LST trimming", "statement": "interleave_times splits the sorted times into two disjoint sets of equal size alternating in time, dropping only the last time of an odd number; trim_dset_lsts leaves every dataset with exactly the LSTs common to all.", "quantifier": "all numbers of times, all LST sets", "why_tests_cant": "all lengths and overlap patterns", "anchors": ["src/hera_pspec/pspecdata.py::pspec_run", "src/hera_pspec/pspecdata.py::PSpecData.trim_dset_lsts"]}
{"id": "C39", "title": "scalar honours the taper override", "statement": "PSpecData.scalar(taper_override=t) computes the normalisation with taper t whatever self.taper is.", "quantifier": "all taper states and overrides", "why_tests_cant": "both taper values must differ in state for it to show", "anchors": ["src/hera_pspec/pspecdata.py::PSpecData.scalar"]}
{"id": "C40", "title": "Spectral ranges and bins of window functions", "statement": "A spectral range is accepted iff it is a pair 0 <= start < stop <= Nfreqs; update_spw keeps exactly those channels; FTBeam accepts exactly the documented polarizations and shapes; from_uvpspec selects the channels of the beam that hold the object's frequencies; linearly spaced bins are half-open, centred on the given centres, and every k between the outer edges lies in exactly one bin.", "quantifier": "all ranges, beams, bins and values", "why_tests_cant": "boundary conditions for all inputs", "anchors": ["src/hera_pspec/uvwindow.py::check_spw_range", "src/hera_pspec/uvwindow.py::FTBeam.__init__", "src/hera_pspec/uvwindow.py::FTBeam.update_spw", "src/hera_pspec/uvwindow.py::UVWindow.from_uvpspec", "src/hera_pspec/uvwindow.py::UVWindow.get_kpara_bins"]}
{"id": "C41", "title": "Noise power spectrum scaling laws", "statement": "P_N scales as scalar*Tsys^2, inversely with integration time, as 1/sqrt(Nincoherent), 1/sqrt(2) for single component; the signal+noise error satisfies P_SN >= P_N with equality when there is no signal, and its bias-corrected version stays positive and below.", "quantifier": "all positive parameters", "why_tests_cant": "real-analytic inequalities", "anchors": ["src/hera_pspec/noise.py::calc_P_N", "src/hera_pspec/utils.py::uvp_noise_error", "src/hera_pspec/utils.py::apply_P_SN_correction"]}
{"id": "C42", "title": "Frequency/redshift conversions are mutually inverse and h-scalings consistent", "statement": "f2z and z2f are inverse and strictly decreasing; X2Y, kperp and kpara conversions with and without little h differ by the documented power of h.", "quantifier": "all positive frequencies/redshifts and cosmologies", "why_tests_cant": "real-analytic identity", "anchors": ["src/hera_pspec/conversions.py::Cosmo_Conversions.f2z", "src/hera_pspec/conversions.py::Cosmo_Conversions.z2f", "src/hera_pspec/conversions.py::Cosmo_Conversions.X2Y", "src/hera_pspec/conversions.py::Cosmo_Conversions.bl_to_kperp", "src/hera_pspec/conversions.py::Cosmo_Conversions.tau_to_kpara"]}
{"id": "C43", "title": "Integration time of a product and weights", "statement": "The integration time stored for a baseline-pair is the harmonic mean of the two baselines' effective integration times, lies between them, is symmetric, and is 0 when either is 0.", "quantifier": "all non-negative integration times", "why_tests_cant": "all reals", "anchors": ["src/hera_pspec/pspecdata.py::PSpecData.pspec"]}
{"id": "C44", "title": "Command-line list syntax", "statement": "The '~' and blank separated list formats parse to the same lists of tuples, and writing a list in either format then parsing it is the identity (integers, antenna quadruples, strings, blpair groups); a text mixing both formats is rejected.", "quantifier": "all lists of tuples of integers or words", "why_tests_cant": "all strings", "anchors": ["src/hera_pspec/pspecdata.py::get_pspec_run_argparser"]}
{"id": "C45", "title": "Bias correction rescales power, errors and covariance consistently", "statement": "apply_bias_correction multiplies power by the correction, covariance by its square and error bars by the correction per spw, so that relative errors are unchanged by a positive correction; the data-only correction changes power only; it succeeds iff every window has a correction; a copy leaves the argument unchanged.", "quantifier": "all correction factors and data", "why_tests_cant": "all reals, all spws", "anchors": ["src/hera_pspec/loss.py::apply_bias_correction"]}
{"id": "C46", "title": "A failed in-place select changes nothing", "statement": "If select raises (for example because no row matches the requested times), the object it was called on is left as it was.", "quantifier": "all objects and all selections that fail", "why_tests_cant": "depends on where inside the call the failure happens; tests only assert that an exception is raised", "anchors": ["src/hera_pspec/uvpspec_utils.py::_select", "src/hera_pspec/uvpspec.py::UVPSpec.select"]}
{"id": "C47", "title": "calc_blpair_reds pairs only redundant, unflagged baselines", "statement": "The baseline pairs calc_blpair_reds returns are exactly the requested pairs inside one redundant group, each once, both baselines present in the data; no antenna that is flagged on all of its counted baselines appears; the group numbers (and groups of pairs) are aligned with the pairs.", "quantifier": "all redundant groups, flag patterns and option combinations", "why_tests_cant": "combinatorial claim over all group structures", "anchors": ["src/hera_pspec/utils.py::calc_blpair_reds"]}
{"id": "C48", "title": "Redundant groups are returned in order of length below one kilometre", "statement": "get_blvec_reds returns its groups in order of ascending baseline length, for baselines shorter than 1000 m.", "quantifier": "all array layouts with baselines below 1000 m", "why_tests_cant": "the order is that of a zero-padded string; only long baselines show whether this agrees with the numeric order", "anchors": ["src/hera_pspec/utils.py::get_blvec_reds"]}
{"id": "C49", "title": "uvd_time_difference uses the requested separation", "statement": "uvd_time_difference with a time_diff subtracts samples separated by that time difference and has one time fewer per unit of separation.", "quantifier": "all time grids and requested separations", "why_tests_cant": "tests use one separation on one file", "anchors": ["src/hera_pspec/utils.py::uvd_time_difference"]}
{"id": "C50", "title": "Spherical averaging propagates error bars above 1e-8", "statement": "The error of a spherical bin is the root of the weighted sum of squared errors; weighting by the errors themselves gives 1/sqrt(sum 1/err^2).", "quantifier": "all error bars whose result exceeds 1e-8", "why_tests_cant": "the scale of the numbers decides: only tiny errors show the flaw", "anchors": ["src/hera_pspec/grouping.py::spherical_average"]}
{"id": "C51", "title": "Spherical averaging averages integration times", "statement": "The integration time of the spherically averaged spectrum is the weighted mean of those of the baseline-pairs.", "quantifier": "all numbers of baseline-pairs and weights", "why_tests_cant": "tests compare only the power", "anchors": ["src/hera_pspec/grouping.py::spherical_average"]}
{"id": "C52", "title": "Spherical averaging keeps times and LSTs aligned without time averaging", "statement": "Without time averaging, when every baseline-pair has the times of the first one and times and LSTs increase, entry i of the time and LST arrays of the averaged object describes row i of its data.", "quantifier": "all increasing time and LST sequences", "why_tests_cant": "needs LST wrap-around or time averaging", "anchors": ["src/hera_pspec/grouping.py::spherical_average"]}
{"id": "C53", "title": "Spherically averaged window functions of one baseline length stay normalised", "statement": "For baseline-pairs of one length, window functions whose rows sum to one still do after spherical averaging, when the theory bins cover all modes.", "quantifier": "all numbers of baseline-pairs, bins and weights", "why_tests_cant": "all configurations of baseline lengths", "anchors": ["src/hera_pspec/grouping.py::spherical_average"]}
{"id": "C54", "title": "Delay re-binning outside the symmetric case", "statement": "With an even number of delays the extra negative delay is ignored; the new delays are symmetric for every accepted kernel; the call always terminates.", "quantifier": "all numbers of delays and kernels", "why_tests_cant": "all parities, remainders and kernels", "anchors": ["src/hera_pspec/grouping.py::_get_delay_slices", "src/hera_pspec/grouping.py::average_in_delay_bins"]}
{"id": "C55", "title": "Weighting matrices inside a pspec call", "statement": "In every state, after the calls that pspec makes for each window (set_spw, set_filter_extension, clear_cache), R(key) is what recomputing it would give; with identity weighting it has one row per channel of the window and multiplies each channel by the taper and by that channel's flag weight, whatever the filter extension.", "quantifier": "all earlier histories, windows inside the data, extensions, tapers and 0/1 weights", "why_tests_cant": "all histories, and an identity for all windows and data vectors", "anchors": ["src/hera_pspec/pspecdata.py::PSpecData.R", "src/hera_pspec/pspecdata.py::PSpecData.Y", "src/hera_pspec/pspecdata.py::PSpecData.I", "src/hera_pspec/pspecdata.py::PSpecData.pspec"]}
{"id": "C56", "title": "set_filter_extension keeps the extended window inside the data", "statement": "Right after set_filter_extension the window with its filter extension lies inside the channels of the data, and the extension is at most the one asked for.", "quantifier": "all states and arguments", "why_tests_cant": "depends on the order of calls", "anchors": ["src/hera_pspec/pspecdata.py::PSpecData.set_filter_extension", "src/hera_pspec/pspecdata.py::PSpecData.set_spw", "src/hera_pspec/pspecdata.py::PSpecData.get_spw"]}
{"id": "C57", "title": "A failing set_Ndlys or set_symmetric_taper changes nothing", "statement": "When set_Ndlys or set_symmetric_taper raises, the object is unchanged.", "quantifier": "all states and arguments", "why_tests_cant": "the state after an exception is rarely inspected", "anchors": ["src/hera_pspec/pspecdata.py::PSpecData.set_spw", "src/hera_pspec/pspecdata.py::PSpecData.set_filter_extension", "src/hera_pspec/pspecdata.py::PSpecData.set_symmetric_taper", "src/hera_pspec/pspecdata.py::PSpecData.Y"]}
{"id": "C58", "title": "The windows of a pspec call with identity weighting do not influence each other", "statement": "With identity weighting and an accepted combination of taper and extension, the weights that a window's data get do not depend on which windows and extensions were processed before it, nor on an earlier call.", "quantifier": "all lists of windows and extensions, all earlier calls", "why_tests_cant": "needs several windows with different extensions, or a failure followed by another call", "anchors": ["src/hera_pspec/pspecdata.py::PSpecData.pspec", "src/hera_pspec/pspecdata.py::PSpecData.set_filter_extension", "src/hera_pspec/pspecdata.py::PSpecData.set_symmetric_taper"]}
{"id": "C59", "title": "exact_norm uses the beam of each polarization", "statement": "With exact_norm, the normalisation of every polarization is computed with that polarization's beam, also when several polarizations are processed in one pspec call.", "quantifier": "all lists of polarizations and flag patterns", "why_tests_cant": "needs two polarizations with different beams and equal flags in one call", "anchors": ["src/hera_pspec/pspecdata.py::PSpecData.pspec", "src/hera_pspec/pspecdata.py::PSpecData.get_G", "src/hera_pspec/pspecdata.py::PSpecData.get_H"]}
{"id": "C60", "title": "The announced number of rows is the number of rows", "statement": "Without repeated baseline-pairs, Nbltpairs of the object that pspec returns, which sizes the label arrays, is the number of rows of its data.", "quantifier": "all lists of distinct baseline-pairs", "why_tests_cant": "needs a repeated baseline-pair", "anchors": ["src/hera_pspec/pspecdata.py::PSpecData.pspec"]}
{"id": "C61", "title": "E matrices reproduce q_hat", "statement": "For every pair of weightings, the quadratic form of the matrices that get_unnormed_E returns, evaluated on the two data vectors, is q_hat, by the FFT as by the matrix method; exchanging the weightings conjugate-transposes the matrices.", "quantifier": "all weightings (also with filter extensions), data, modes and sizes", "why_tests_cant": "an identity between two independent code paths, for all data", "anchors": ["src/hera_pspec/pspecdata.py::PSpecData.get_unnormed_E", "src/hera_pspec/pspecdata.py::PSpecData.q_hat"]}
{"id": "C62", "title": "E matrices reproduce q_hat with exact_norm for diagonal weightings", "statement": "With exact_norm=True, where the beam integral weights every channel pair, the E matrices reproduce q_hat when the second weighting is diagonal.", "quantifier": "all first weightings, diagonal second weightings, beams, data and modes", "why_tests_cant": "needs a non-diagonal weighting together with exact_norm", "anchors": ["src/hera_pspec/pspecdata.py::PSpecData.get_unnormed_E", "src/hera_pspec/pspecdata.py::PSpecData.q_hat"]}
{"id": "C63", "title": "The unnormalised covariance V is Hermitian", "statement": "get_unnormed_V is Hermitian for every pair of Hermitian input covariances and every pseudo-covariance consistent with its conjugate.", "quantifier": "all covariance models and E matrices", "why_tests_cant": "for all matrices", "anchors": ["src/hera_pspec/pspecdata.py::PSpecData.get_unnormed_V"]}
{"id": "C64", "title": "V^-1/2 normalisation decorrelates band powers with real covariance", "statement": "With mode V^-1/2 and real eigenvectors, the covariance M V M^dagger of the normalised band powers is diagonal.", "quantifier": "all positive definite covariances with real eigenvectors", "why_tests_cant": "tests use real covariances", "anchors": ["src/hera_pspec/pspecdata.py::PSpecData.get_MW"]}
{"id": "C65", "title": "Weighted covariance of visibilities", "statement": "utils.cov accepts exactly the non-negative weights; exchanging its arguments conjugate-transposes the result, the auto-covariance is Hermitian, the pseudo-covariances of x and of its conjugate are conjugate to each other, and unit weights give the usual sample covariance.", "quantifier": "all data and weights", "why_tests_cant": "for all data and weights", "anchors": ["src/hera_pspec/utils.py::cov"]}
{"id": "C66", "title": "Every integration gets a covariance, its own unless the time shortcut is taken", "statement": "get_analytic_covariance returns one matrix per integration; it is the one computed from the covariance model and the normalisation of that integration when C11 differs between the first and last integration, for the foreground model, or when nothing depends on time.", "quantifier": "all time dependences of covariances and normalisations", "why_tests_cant": "needs time-dependent flags or covariances", "anchors": ["src/hera_pspec/pspecdata.py::PSpecData.get_analytic_covariance"]}
{"id": "C67", "title": "Band-power covariance is M C M^dagger above 1e-8", "statement": "The covariance of the normalised band powers from get_analytic_covariance is M C M^dagger for the covariance C of the unnormalised ones whenever some second moment exceeds 1e-8, and from cov_p_hat it is so for real M.", "quantifier": "all normalisations and covariances", "why_tests_cant": "the scale of the numbers and the phases of M decide", "anchors": ["src/hera_pspec/pspecdata.py::PSpecData.get_analytic_covariance", "src/hera_pspec/pspecdata.py::PSpecData.cov_p_hat"]}
{"id": "C68", "title": "Foreground-dependent covariance", "statement": "For diagonal noise covariances the signal-noise term added by model 'foreground_dependent' is tr(E Cs E^dagger Cn) + tr(E Cn E^dagger Cs) with the symmetrised signal covariance Cs; rows and columns with non-positive variance are set to zero and the others kept, which preserves Hermiticity and leaves no negative variance.", "quantifier": "all data vectors, E matrices and diagonal noise covariances", "why_tests_cant": "an identity for all matrices", "anchors": ["src/hera_pspec/pspecdata.py::PSpecData.get_analytic_covariance"]}
{"id": "C69", "title": "Empirical covariances give real symmetric band-power covariances", "statement": "With the 'empirical' model, or any Hermitian-consistent model with cross- and pseudo-covariances, all four matrices returned by get_analytic_covariance are real and symmetric, for every complex normalisation.", "quantifier": "all data, weights, E matrices and normalisations", "why_tests_cant": "for all matrices", "anchors": ["src/hera_pspec/pspecdata.py::PSpecData.get_analytic_covariance", "src/hera_pspec/pspecdata.py::PSpecData.cross_covar_model"]}
{"id": "C70", "title": "broadcast_dset_flags flags other channels only completely", "statement": "Outside the selected spectral ranges, broadcast_dset_flags(spw_ranges=...) leaves each channel of a baseline either untouched or flagged at all times.", "quantifier": "all flag patterns, thresholds and window lists", "why_tests_cant": "all boolean waterfalls", "anchors": ["src/hera_pspec/pspecdata.py::PSpecData.broadcast_dset_flags"]}
{"id": "C71", "title": "construct_pstokes does not change its arguments", "statement": "The two UVData objects passed to construct_pstokes are the same after the call.", "quantifier": "all pairs of visibility objects", "why_tests_cant": "the change is confined to one attribute and one kind of input", "anchors": ["src/hera_pspec/pstokes.py::construct_pstokes", "src/hera_pspec/pstokes.py::_combine_pol"]}
{"id": "C72", "title": "trim_dset_lsts matches only LSTs within the tolerance", "statement": "Two integrations that trim_dset_lsts matches have LSTs that agree to within the tolerance.", "quantifier": "all LST values", "why_tests_cant": "depends on where rounding boundaries fall between real numbers", "anchors": ["src/hera_pspec/pspecdata.py::PSpecData.trim_dset_lsts"]}
{"id": "C73", "title": "Command-line switches and blanks", "statement": "Boolean options given as 'False' or '0' on the command line are false, and blanks after the separating commas do not matter.", "quantifier": "all option texts", "why_tests_cant": "all strings", "anchors": ["src/hera_pspec/pspecdata.py::get_pspec_run_argparser"]}
{"id": "C74", "title": "Cosmological distances", "statement": "The comoving distance is 0 at z = 0, strictly increasing, and has derivative c/H(z); the comoving line-of-sight size per unit frequency is its derivative along frequency; the transverse comoving distance equals it in flat space, exceeds it in open space and falls below it in closed space; X2Y is positive; parameters read back from an object rebuild it.", "quantifier": "all cosmologies with an expanding history and all redshifts", "why_tests_cant": "real analysis for all parameters", "anchors": ["src/hera_pspec/conversions.py::Cosmo_Conversions.DC", "src/hera_pspec/conversions.py::Cosmo_Conversions.DM", "src/hera_pspec/conversions.py::Cosmo_Conversions.dRpara_df", "src/hera_pspec/conversions.py::Cosmo_Conversions.X2Y", "src/hera_pspec/conversions.py::Cosmo_Conversions.get_params"]}
{"id": "C75", "title": "A given matter density is split between baryons and dark matter", "statement": "If the total matter density Om_M passed to Cosmo_Conversions differs from Om_b + Om_c, the two parts are rescaled to add up to it, as documented.", "quantifier": "all density parameters", "why_tests_cant": "for all parameter values", "anchors": ["src/hera_pspec/conversions.py::Cosmo_Conversions.__init__"]}
{"id": "C76", "title": "Beam normalisation laws", "statement": "compute_pspec_scalar scales as the documented power of little h; without taper the signal and noise scalars agree; the noise scalar is X2Y-averaged bandwidth-normalised; changing the beam multiplies by the ratio of areas; the scalar is positive; a Gaussian beam has the analytic areas.", "quantifier": "all beams, frequency ranges and tapers", "why_tests_cant": "real analysis for all inputs", "anchors": ["src/hera_pspec/pspecbeam.py::_compute_pspec_scalar", "src/hera_pspec/pspecbeam.py::PSpecBeamBase.compute_pspec_scalar", "src/hera_pspec/pspecbeam.py::PSpecBeamGauss.power_beam_int"]}
{"id": "C77", "title": "The two noise scalars agree", "statement": "The scalar computed by Sensitivity.calc_scalar is the noise scalar of the same beam over the given frequencies.", "quantifier": "all beams and frequency arrays", "why_tests_cant": "depends on the last channel of every frequency array", "anchors": ["src/hera_pspec/noise.py::Sensitivity.calc_scalar", "src/hera_pspec/pspecbeam.py::PSpecBeamBase.compute_pspec_scalar"]}
{"id": "C78", "title": "PSpecBeamFromArray returns what was given", "statement": "power_beam_int(pol) and power_beam_sq_int(pol) return exactly the arrays given for that polarization, name or number; a polarization not given is refused; construction succeeds iff both dictionaries have the same polarizations and arrays of the length of the frequencies.", "quantifier": "all sets of polarizations and arrays, and all orders of add_pol", "why_tests_cant": "all dictionaries and histories", "anchors": ["src/hera_pspec/pspecbeam.py::PSpecBeamFromArray.__init__", "src/hera_pspec/pspecbeam.py::PSpecBeamFromArray.add_pol", "src/hera_pspec/pspecbeam.py::PSpecBeamFromArray.power_beam_int"]}
{"id": "C79", "title": "PSpecBeamFromArray leaves its dictionaries alone", "statement": "Building a PSpecBeamFromArray and adding polarizations to it does not change the dictionaries passed to it.", "quantifier": "all dictionaries and histories", "why_tests_cant": "aliasing shows only with particular keys", "anchors": ["src/hera_pspec/pspecbeam.py::PSpecBeamFromArray.__init__", "src/hera_pspec/pspecbeam.py::PSpecBeamFromArray.add_pol"]}
{"id": "C80", "title": "Jy_to_mK converts each dataset once", "statement": "Jy_to_mK multiplies the data of each dataset in Jy by the Rayleigh-Jeans factor of its own polarization and channel, marks it as mK, leaves datasets in other units alone, and a second call changes nothing.", "quantifier": "all datasets and units", "why_tests_cant": "all histories of calls", "anchors": ["src/hera_pspec/pspecdata.py::PSpecData.Jy_to_mK", "src/hera_pspec/pspecbeam.py::PSpecBeamBase.Jy_to_mK"]}
{"id": "C81", "title": "Jy_to_mK works with different numbers of polarizations", "statement": "Jy_to_mK converts datasets that have different numbers of polarizations.", "quantifier": "all lists of datasets", "why_tests_cant": "needs a particular combination of datasets", "anchors": ["src/hera_pspec/pspecdata.py::PSpecData.Jy_to_mK"]}
{"id": "C82", "title": "set_beam gives a Sensitivity and its beam one cosmology", "statement": "After set_beam the beam has the cosmology of the Sensitivity object (taken from the beam if the object had none), a cosmology already set is kept, other beams are untouched and the scalar is computed with that cosmology.", "quantifier": "all states", "why_tests_cant": "all histories", "anchors": ["src/hera_pspec/noise.py::Sensitivity.set_cosmology", "src/hera_pspec/noise.py::Sensitivity.set_beam"]}
{"id": "C83", "title": "Noise spectra of an object", "statement": "generate_noise_spectra returns for every requested baseline-pair one row per integration of that pair, in order, holding the radiometer noise of that row's integration time and number of samples (times k^3/2pi^2 for DelSq); with one temperature it accepts exactly the known baseline-pairs.", "quantifier": "all objects, baseline-pairs and temperatures", "why_tests_cant": "for all objects", "anchors": ["src/hera_pspec/uvpspec.py::UVPSpec.generate_noise_spectra", "src/hera_pspec/noise.py::calc_P_N"]}
{"id": "C84", "title": "Noise spectra accept the documented inputs", "statement": "generate_noise_spectra accepts dictionaries of numbers and one temperature per integration of a baseline-pair, and applies the documented factor for pseudo-Stokes polarizations.", "quantifier": "all temperatures and polarizations", "why_tests_cant": "for all combinations of input types", "anchors": ["src/hera_pspec/uvpspec.py::UVPSpec.generate_noise_spectra"]}
{"id": "C85", "title": "A failed or negative bias correction is harmless", "statement": "Error bars stay non-negative after apply_bias_correction, and a call that fails leaves the object unchanged.", "quantifier": "all corrections and failure points", "why_tests_cant": "all failure points", "anchors": ["src/hera_pspec/loss.py::apply_bias_correction"]}
{"id": "C86", "title": "Approximate delay-delay covariance", "statement": "The matrix stored by add_approximate_covariance has the squared error bars on its diagonal and P_i P_j times the squared correlation of the two delay modes of tapered white noise elsewhere; it is symmetric, positive semi-definite and bounded by the error bars.", "quantifier": "all tapers and error bars", "why_tests_cant": "for all tapers", "anchors": ["src/hera_pspec/noise.py::get_approximate_delay_delay_corr_matrix", "src/hera_pspec/uvpspec.py::UVPSpec.add_approximate_covariance"]}
{"id": "C87", "title": "Approximate covariance for folded objects", "statement": "add_approximate_covariance works for every object with error bars, folded or not.", "quantifier": "all objects", "why_tests_cant": "for all objects", "anchors": ["src/hera_pspec/uvpspec.py::UVPSpec.add_approximate_covariance"]}
{"id": "C88", "title": "uvd_to_Tsys uses each polarization's own factor on alphabetical axes", "statement": "uvd_to_Tsys multiplies the auto-correlations of each polarization by the Jy to K factor of that polarization when the polarization axis is in alphabetical order.", "quantifier": "all alphabetical polarization axes", "why_tests_cant": "all polarization orders and x orientations", "anchors": ["src/hera_pspec/utils.py::uvd_to_Tsys"]}
{"id": "C89", "title": "Exact windows use each polarization's own beam for equal or mixed-feed pairs", "statement": "UVWindow.from_uvpspec with a file root uses, for each polarization of the pair, the beam file of that polarization, when the two are equal or the name of the second has two different characters.", "quantifier": "all polarization pairs", "why_tests_cant": "string comparisons for all polarization names", "anchors": ["src/hera_pspec/uvwindow.py::UVWindow.from_uvpspec"]}
{"id": "C90", "title": "Each computed delay row is the window function of its delay", "statement": "Row i of get_cylindrical_wf is the window function computed for delay i, for odd channel counts except the row at three quarters, for even channel counts for delays up to zero and the row at three quarters.", "quantifier": "all channel counts, beams and tapers", "why_tests_cant": "index arithmetic must hold for every parity", "anchors": ["src/hera_pspec/uvwindow.py::UVWindow.get_cylindrical_wf"]}
{"id": "C91", "title": "Cylindrical window functions are normalised cross powers", "statement": "The array averaged over the sky plane is the cross power of the two tapered beams at each signed frequency, even in the frequency, and non-negative for one beam; rows of positive delay are those of the opposite delay, the row at three quarters excepted; each row sums to one unless its sum is zero; at least four channels are needed.", "quantifier": "all beams, tapers, bins and channel counts", "why_tests_cant": "for all beams and parities", "anchors": ["src/hera_pspec/uvwindow.py::UVWindow._take_freq_FT", "src/hera_pspec/uvwindow.py::UVWindow._get_wf_for_tau", "src/hera_pspec/uvwindow.py::UVWindow.get_cylindrical_wf"]}
{"id": "C92", "title": "Spherical window functions are normalised weighted means", "statement": "Each row of cylindrical_to_spherical sums to one or to zero, is non-negative (and then a distribution or zero) for non-negative inputs, does not change when all weights are multiplied by a number, and a weight w1 + w2 equals listing the baseline twice with w1 and w2.", "quantifier": "all window functions, weights and bins", "why_tests_cant": "for all weights", "anchors": ["src/hera_pspec/uvwindow.py::UVWindow.cylindrical_to_spherical"]}
{"id": "C93", "title": "Default k_parallel bins include every delay but zero", "statement": "Every non-zero delay of the spectral window falls into a bin of get_kpara_bins, centred on it.", "quantifier": "all channel counts and delays", "why_tests_cant": "all channel counts", "anchors": ["src/hera_pspec/uvwindow.py::UVWindow.get_kpara_bins"]}
{"id": "C94", "title": "k bins may be given in any equivalent unit", "statement": "k bins in a unit accepted by check_kunits are converted to the unit of the object.", "quantifier": "all units and values", "why_tests_cant": "all units", "anchors": ["src/hera_pspec/uvwindow.py::UVWindow.check_kunits", "src/hera_pspec/uvwindow.py::UVWindow.get_spherical_wf"]}
{"id": "C95", "title": "run_and_write without clobber never touches an existing file", "statement": "A run_and_write that succeeds leaves the new content; without clobber an existing file is never touched; a failure where there was no file leaves none.", "quantifier": "all failure points and file states", "why_tests_cant": "all crash points", "anchors": ["src/hera_pspec/uvwindow.py::UVWindow.run_and_write"]}
{"id": "C96", "title": "Exact window functions of an object", "statement": "get_exact_window_functions stores for every row the window function of the baseline length of its redundant group, modifies the object iff all its spectral windows are asked for in order, and works iff there are as many delays as channels.", "quantifier": "all groups, lengths and row orders", "why_tests_cant": "for all objects", "anchors": ["src/hera_pspec/uvpspec.py::UVPSpec.get_exact_window_functions"]}
{"id": "C97", "title": "Exact window functions of folded objects", "statement": "get_exact_window_functions works for folded objects.", "quantifier": "all objects", "why_tests_cant": "for all channel counts", "anchors": ["src/hera_pspec/uvpspec.py::UVPSpec.get_exact_window_functions"]}
{"id": "C98", "title": "select_common reduces all objects to their common polarization pairs", "statement": "With polpairs=True, select_common leaves every object with exactly the common polarization pairs.", "quantifier": "all lists of at least two UVPSpec objects and all flags", "why_tests_cant": "arbitrary overlap patterns between arbitrarily many objects", "anchors": ["src/hera_pspec/uvpspec_utils.py::select_common"]}
{"id": "C99", "title": "Data and delay axes have the same length through all histories", "statement": "For every reachable UVPSpec, a spectrum returned by get_data has as many bins as get_dlys returns for the same spw: before folding, after fold_spectra, and after any later select.", "quantifier": "all delay-axis lengths and all histories of fold and select calls", "why_tests_cant": "needs all lengths (even, odd, very short) and operation sequences", "anchors": ["src/hera_pspec/uvpspec.py::UVPSpec.get_data", "src/hera_pspec/uvpspec.py::UVPSpec.get_dlys", "src/hera_pspec/uvpspec.py::UVPSpec.fold_spectra", "src/hera_pspec/grouping.py::fold_spectra", "src/hera_pspec/uvpspec_utils.py::_select"]}
{"id": "C100", "title": "Folding treats zero-delay covariances and estimated window functions like the data", "statement": "The folded covariance between zero delay and a folded delay is the covariance of the folded band powers, and folding the identity window function gives the identity.", "quantifier": "all numbers of delays (even and odd), all data", "why_tests_cant": "index arithmetic with reversed slices must be right for every length", "anchors": ["src/hera_pspec/grouping.py::fold_spectra"]}
{"id": "C101", "title": "combine_uvpspec never misattributes data, whatever the internal orders", "statement": "Combining UVPSpec objects that differ along one axis yields an object in which, for every input object and every (spw, blpair, time, polpair) in it, looking up that key gives the input's spectrum, and nothing else is present.", "quantifier": "all lists of combinable UVPSpec objects, in every order and with every internal ordering of spws, rows and polpairs", "why_tests_cant": "correctness depends on relative orderings of three axes across arbitrarily many objects", "anchors": ["src/hera_pspec/uvpspec.py::combine_uvpspec", "src/hera_pspec/uvpspec.py::get_uvp_overlap"]}
{"id": "C102", "title": "PSpecContainer: a failed overwrite does not lose the stored spectrum", "statement": "If set_pspec(..., overwrite=True) fails (the new object is invalid, or the process dies while writing), the container still holds either the old spectrum or the new one, and the entry stays usable.", "quantifier": "all failure points of an overwrite", "why_tests_cant": "quantifies over crash points inside one call", "anchors": ["src/hera_pspec/container.py::PSpecContainer.set_pspec", "src/hera_pspec/container.py::PSpecContainer._store_pspec", "src/hera_pspec/uvpspec.py::UVPSpec.write_to_group"]}
{"id": "C103", "title": "PSpecContainer: file closed also in SWMR read-write mode without header", "statement": "The same for SWMR read-write containers on files without header.", "quantifier": "all histories of operations, all failure patterns of the operating system's open", "why_tests_cant": "quantifies over schedules of open failures and operation nesting", "anchors": ["src/hera_pspec/container.py::transactional", "src/hera_pspec/container.py::PSpecContainer._open", "src/hera_pspec/container.py::PSpecContainer._close"]}
{"id": "C104", "title": "combine_psc_spectra recognises extensions for all names", "statement": "combine_psc_spectra merges into each output dset1_x_dset2 exactly the spectra named dset1_x_dset2 plus an extension suffix, and leaves other spectra alone.", "quantifier": "all sets of spectrum names in a group", "why_tests_cant": "name matching must be right for all names, including names that are prefixes of each other", "anchors": ["src/hera_pspec/container.py::combine_psc_spectra"]}
{"id": "C105", "title": "Averaging in two steps, tiny error bars and exact window functions", "statement": "average_spectra in two steps equals averaging at once for unequal integration times, propagates error bars of every size, and averages exact window functions.", "quantifier": "all groups, weights, data", "why_tests_cant": "all group sizes and weights; algebraic identities over reals", "anchors": ["src/hera_pspec/grouping.py::average_spectra", "src/hera_pspec/uvpspec.py::UVPSpec.average_spectra"]}
{"id": "C106", "title": "All relative baseline-pair weights are honoured", "statement": "average_spectra(blpair_groups, blpair_weights) weights each baseline-pair in proportion to the weight given for it.", "quantifier": "all positive weight lists", "why_tests_cant": "only non-integer normalised weights reveal it", "anchors": ["src/hera_pspec/grouping.py::average_spectra"]}
{"id": "C107", "title": "Bootstrap of several objects", "statement": "bootstrap_average_blpairs given several UVPSpec objects bootstraps over their common axes.", "quantifier": "all group sizes and all random draws", "why_tests_cant": "must hold for every random draw", "anchors": ["src/hera_pspec/grouping.py::bootstrap_average_blpairs", "src/hera_pspec/grouping.py::sample_baselines", "src/hera_pspec/grouping.py::group_baselines"]}
{"id": "C108", "title": "Baseline grouping rejects a negative number of groups", "statement": "group_baselines never loses baselines silently, whatever the number of groups.", "quantifier": "all list lengths, group counts and permutations", "why_tests_cant": "all lengths including non-dividing ones", "anchors": ["src/hera_pspec/grouping.py::group_baselines"]}
{"id": "C109", "title": "job_monitor retries the failing elements of any iterator", "statement": "job_monitor runs every element once, re-runs only failing elements at most maxiter more times, stops when all succeed, returns exactly the still-failing ones, and raises if every job failed in the first round.", "quantifier": "all job lists, all failure behaviours", "why_tests_cant": "quantifies over arbitrary failure schedules", "anchors": ["src/hera_pspec/utils.py::job_monitor"]}
{"id": "C110", "title": "Slicing with spw_range_from_freqs gives the channels in range", "statement": "spw_range_from_freqs returns a channel range (start, stop) such that slicing the frequency array with it gives exactly the channels whose frequencies lie in the requested range; out-of-range requests are errors.", "quantifier": "all ascending frequency arrays and bounds", "why_tests_cant": "boundary cases for every array and bound", "anchors": ["src/hera_pspec/utils.py::spw_range_from_freqs", "src/hera_pspec/utils.py::spw_range_from_redshifts"]}
{"id": "C111", "title": "Cached matrices stay consistent through all setters", "statement": "Whatever setters (set_spw, set_Ndlys, set_filter_extension, set_symmetric_taper, set_taper, set_weighting) were called before, the weighting matrix returned by R(key) is the one for the current window, extension, taper, weighting and filter parameters.", "quantifier": "all histories of setter and matrix calls", "why_tests_cant": "stateful cache; history-dependence is invisible to single-call tests", "anchors": ["src/hera_pspec/pspecdata.py::PSpecData.R", "src/hera_pspec/pspecdata.py::PSpecData.Y", "src/hera_pspec/pspecdata.py::PSpecData.set_spw", "src/hera_pspec/pspecdata.py::PSpecData.set_filter_extension", "src/hera_pspec/pspecdata.py::PSpecData.set_symmetric_taper", "src/hera_pspec/pspecdata.py::PSpecData.get_spw", "src/hera_pspec/pspecdata.py::PSpecData.clear_cache"]}
{"id": "C112", "title": "pspec() output rows are aligned also when the first polarization pair is skipped", "statement": "In the UVPSpec that pspec returns, for every spw and polpair there is exactly one spectrum per (baseline-pair, time) in blpair-major order, and blpair_array/time arrays have the same length and order, whichever polarization pairs were skipped as invalid.", "quantifier": "all baseline-pair lists, time counts, polpair lists and spw lists", "why_tests_cant": "depends on which polarization pairs are invalid and on counts on three axes", "anchors": ["src/hera_pspec/pspecdata.py::PSpecData.pspec", "src/hera_pspec/pspecdata.py::PSpecData.validate_pol"]}
{"id": "C113", "title": "Redundant groups are returned in order of length", "statement": "get_blvec_reds returns its groups in order of ascending baseline length.", "quantifier": "all array layouts", "why_tests_cant": "the order is that of a zero-padded string; only long baselines show whether this agrees with the numeric order", "anchors": ["src/hera_pspec/utils.py::get_blvec_reds"]}
{"id": "C114", "title": "Spherical averaging propagates error bars of every size", "statement": "The error of a spherical bin is the root of the weighted sum of squared errors; weighting by the errors themselves gives 1/sqrt(sum 1/err^2).", "quantifier": "all positive error bars", "why_tests_cant": "the scale of the numbers decides: only tiny errors show the flaw", "anchors": ["src/hera_pspec/grouping.py::spherical_average"]}
{"id": "C115", "title": "Spherical averaging keeps times and LSTs aligned with the data", "statement": "Entry i of the time and LST arrays of the averaged object describes row i of its data, with and without time averaging.", "quantifier": "all time and LST sequences", "why_tests_cant": "needs LST wrap-around or time averaging", "anchors": ["src/hera_pspec/grouping.py::spherical_average"]}
{"id": "C116", "title": "Spherically averaged window functions stay normalised for all lengths", "statement": "Window functions whose rows sum to one still do after spherical averaging, when the theory bins cover all modes.", "quantifier": "all sets of baseline lengths, bins and weights", "why_tests_cant": "all configurations of baseline lengths", "anchors": ["src/hera_pspec/grouping.py::spherical_average"]}
{"id": "C117", "title": "The extended window stays inside the data", "statement": "Whatever the order of calls of set_spw, set_filter_extension and add, the window with its filter extension lies inside the channels of the data.", "quantifier": "all histories of setter calls", "why_tests_cant": "depends on the order of calls", "anchors": ["src/hera_pspec/pspecdata.py::PSpecData.set_filter_extension", "src/hera_pspec/pspecdata.py::PSpecData.set_spw", "src/hera_pspec/pspecdata.py::PSpecData.get_spw"]}
{"id": "C118", "title": "A failing setter changes nothing", "statement": "When set_spw, set_Ndlys, set_filter_extension or set_symmetric_taper raises, the object is unchanged; weights other than 0 and 1 are always rejected.", "quantifier": "all states and arguments", "why_tests_cant": "the state after an exception is rarely inspected", "anchors": ["src/hera_pspec/pspecdata.py::PSpecData.set_spw", "src/hera_pspec/pspecdata.py::PSpecData.set_filter_extension", "src/hera_pspec/pspecdata.py::PSpecData.set_symmetric_taper", "src/hera_pspec/pspecdata.py::PSpecData.Y"]}
{"id": "C119", "title": "The windows of a pspec call do not influence each other", "statement": "The weights used for a window do not depend on which windows and extensions were processed before it, nor on an earlier pspec call that failed.", "quantifier": "all lists of windows and extensions, all earlier calls", "why_tests_cant": "needs several windows with different extensions, or a failure followed by another call", "anchors": ["src/hera_pspec/pspecdata.py::PSpecData.pspec", "src/hera_pspec/pspecdata.py::PSpecData.set_filter_extension", "src/hera_pspec/pspecdata.py::PSpecData.set_symmetric_taper"]}
{"id": "C120", "title": "The announced number of rows is right with repeated baseline-pairs", "statement": "Nbltpairs of the object that pspec returns, which sizes the label arrays, is the number of rows of its data.", "quantifier": "all lists of baseline-pairs, with repetitions", "why_tests_cant": "needs a repeated baseline-pair", "anchors": ["src/hera_pspec/pspecdata.py::PSpecData.pspec"]}
{"id": "C121", "title": "E matrices reproduce q_hat with exact_norm", "statement": "The same with exact_norm=True, where the beam integral weights every channel pair.", "quantifier": "all weightings, beams, data and modes", "why_tests_cant": "needs a non-diagonal weighting together with exact_norm", "anchors": ["src/hera_pspec/pspecdata.py::PSpecData.get_unnormed_E", "src/hera_pspec/pspecdata.py::PSpecData.q_hat"]}
{"id": "C122", "title": "V^-1/2 normalisation decorrelates the band powers", "statement": "With mode V^-1/2, the covariance M V M^dagger of the normalised band powers is diagonal.", "quantifier": "all positive definite Hermitian covariances", "why_tests_cant": "tests use real covariances", "anchors": ["src/hera_pspec/pspecdata.py::PSpecData.get_MW"]}
{"id": "C123", "title": "Every integration gets its own covariance", "statement": "get_analytic_covariance returns one matrix per integration, computed from the covariance model and the normalisation of that integration.", "quantifier": "all time dependences of covariances and normalisations", "why_tests_cant": "needs time-dependent flags or covariances", "anchors": ["src/hera_pspec/pspecdata.py::PSpecData.get_analytic_covariance"]}
{"id": "C124", "title": "Band-power covariance is M C M^dagger", "statement": "The covariance of the normalised band powers, from get_analytic_covariance and from cov_p_hat, is M C M^dagger for the covariance C of the unnormalised ones, at every scale of the numbers.", "quantifier": "all normalisations and covariances", "why_tests_cant": "the scale of the numbers and the phases of M decide", "anchors": ["src/hera_pspec/pspecdata.py::PSpecData.get_analytic_covariance", "src/hera_pspec/pspecdata.py::PSpecData.cov_p_hat"]}
{"id": "C125", "title": "broadcast_dset_flags leaves the other channels alone", "statement": "broadcast_dset_flags(spw_ranges=...) changes no flag outside the selected spectral ranges.", "quantifier": "all flag patterns, thresholds and window lists", "why_tests_cant": "all boolean waterfalls", "anchors": ["src/hera_pspec/pspecdata.py::PSpecData.broadcast_dset_flags"]}
{"id": "C126", "title": "trim_dset_lsts matches LSTs iff they are within the tolerance", "statement": "Two integrations of two datasets are matched iff their LSTs agree to within the requested tolerance.", "quantifier": "all LST values", "why_tests_cant": "depends on where rounding boundaries fall between real numbers", "anchors": ["src/hera_pspec/pspecdata.py::PSpecData.trim_dset_lsts"]}
{"id": "C127", "title": "Sensitivity and its beam always share one cosmology", "statement": "After any sequence of set_cosmology and set_beam the beam of a Sensitivity object has the cosmology of the object, and objects passed by the caller are not changed.", "quantifier": "all histories of calls", "why_tests_cant": "all histories", "anchors": ["src/hera_pspec/noise.py::Sensitivity.set_cosmology", "src/hera_pspec/noise.py::Sensitivity.set_beam"]}
{"id": "C128", "title": "uvd_to_Tsys uses each polarization's own factor", "statement": "uvd_to_Tsys multiplies the auto-correlations of each polarization by the Jy to K factor of that polarization, whatever the order of the polarization axis.", "quantifier": "all orders of the polarization axis", "why_tests_cant": "all polarization orders and x orientations", "anchors": ["src/hera_pspec/utils.py::uvd_to_Tsys"]}
{"id": "C129", "title": "Exact windows use each polarization's own beam", "statement": "UVWindow.from_uvpspec with a file root uses, for each polarization of the pair, the beam file of that polarization.", "quantifier": "all polarization pairs", "why_tests_cant": "string comparisons for all polarization names", "anchors": ["src/hera_pspec/uvwindow.py::UVWindow.from_uvpspec"]}
{"id": "C130", "title": "Each delay row is the window function of its delay", "statement": "Row i of get_cylindrical_wf is the window function computed for delay i, for every number of channels.", "quantifier": "all channel counts, beams and tapers", "why_tests_cant": "index arithmetic must hold for every parity", "anchors": ["src/hera_pspec/uvwindow.py::UVWindow.get_cylindrical_wf"]}
{"id": "C131", "title": "Default k_parallel bins include every delay", "statement": "Every delay of the spectral window falls into a bin of get_kpara_bins, centred on it.", "quantifier": "all channel counts and delays", "why_tests_cant": "all channel counts", "anchors": ["src/hera_pspec/uvwindow.py::UVWindow.get_kpara_bins"]}
{"id": "C132", "title": "run_and_write keeps the old file when it fails", "statement": "A run_and_write that fails leaves the file that was there before; one that succeeds leaves the new content; without clobber an existing file is never touched.", "quantifier": "all failure points and file states", "why_tests_cant": "all crash points", "anchors": ["src/hera_pspec/uvwindow.py::UVWindow.run_and_write"]}
{"id": "C133", "title": "A UVPSpec written to a file is read back", "statement": "Writing a UVPSpec that passes its check to an HDF5 group succeeds, and reading the group gives, for every parameter of the class except symmetric_taper, the value written: metadata, every array of every window (data, weights, integration times, samples, window functions, covariances) and every statistic, whatever object it is read into; parameters the object lacks are absent.", "quantifier": "all objects with complete windows, any statistics with any names, any object read into", "why_tests_cant": "arrays are stored under names built from parameter, statistic and window number, and found again by parsing those names; the claim is about every set of statistics and windows", "anchors": ["src/hera_pspec/uvpspec.py::UVPSpec.write_to_group", "src/hera_pspec/uvpspec.py::UVPSpec.read_from_group", "src/hera_pspec/uvpspec_utils.py::_select"]}
{"id": "C134", "title": "Every required parameter survives writing and reading", "statement": "Reading back a written UVPSpec gives the same value of every required parameter, symmetric_taper included.", "quantifier": "all objects with complete windows", "why_tests_cant": "the parameter lists are derived from attribute names at run time", "anchors": ["src/hera_pspec/uvpspec.py::UVPSpec.__init__", "src/hera_pspec/uvpspec.py::UVPSpec.write_to_group", "src/hera_pspec/uvpspec.py::UVPSpec.read_from_group"]}
{"id": "C135", "title": "Reading part of a file is reading it all and selecting", "statement": "read_from_group with a selection gives the same object as reading the whole group and selecting in memory with the same arguments, for every group that can be read.", "quantifier": "all groups, all selections (any function of the metadata), all objects read into", "why_tests_cant": "two code paths (file and memory) for each of the arrays and for the statistics, for all combinations of optional arrays", "anchors": ["src/hera_pspec/uvpspec.py::UVPSpec.read_from_group", "src/hera_pspec/uvpspec.py::UVPSpec.select", "src/hera_pspec/uvpspec_utils.py::_select"]}
{"id": "C136", "title": "Reading only the metadata gives the metadata of the full read", "statement": "read_from_group(just_meta=True) gives the same value of every metadata parameter other than OmegaP, OmegaPP and r_params as the full read with the same selection, and no arrays.", "quantifier": "all groups, selections and objects read into", "why_tests_cant": "quantifies over selections and files", "anchors": ["src/hera_pspec/uvpspec.py::UVPSpec.read_from_group", "src/hera_pspec/uvpspec_utils.py::_select"]}
{"id": "C137", "title": "Reading only the metadata gives all metadata of the full read", "statement": "read_from_group(just_meta=True) gives the same value of every metadata parameter as the full read with the same selection, beam solid angles included.", "quantifier": "all groups, selections and objects read into", "why_tests_cant": "quantifies over selections and files", "anchors": ["src/hera_pspec/uvpspec.py::UVPSpec.read_from_group", "src/hera_pspec/uvpspec_utils.py::_select"]}
{"id": "C138", "title": "Reading leaves no trace of the object that is overwritten", "statement": "Two objects into which the same group is read agree on every parameter the class declares (symmetric_taper and a time_2_array missing from the file excepted), on all arrays and on all statistics.", "quantifier": "all groups and all pairs of objects read into", "why_tests_cant": "needs every possible earlier content", "anchors": ["src/hera_pspec/uvpspec.py::UVPSpec.read_from_group", "src/hera_pspec/uvpspec.py::UVPSpec._clear"]}
{"id": "C139", "title": "Reading replaces every required parameter", "statement": "Two objects into which the same group is read agree on every required parameter.", "quantifier": "all groups and all pairs of objects read into", "why_tests_cant": "needs every possible earlier content", "anchors": ["src/hera_pspec/uvpspec.py::UVPSpec.read_from_group", "src/hera_pspec/uvpspec.py::UVPSpec._clear", "src/hera_pspec/uvpspec.py::UVPSpec.__init__"]}
{"id": "C140", "title": "write_hdf5 does not touch an existing file unless told to", "statement": "write_hdf5 with overwrite=False raises an error for an existing file and leaves it as it is.", "quantifier": "all objects and files", "why_tests_cant": "holds for all contents", "anchors": ["src/hera_pspec/uvpspec.py::UVPSpec.write_hdf5"]}
{"id": "C141", "title": "A failing overwrite keeps the old file", "statement": "write_hdf5 with overwrite=True either succeeds or leaves the existing file as it was, also when the object fails its check.", "quantifier": "all objects and files", "why_tests_cant": "needs every failure point", "anchors": ["src/hera_pspec/uvpspec.py::UVPSpec.write_hdf5", "src/hera_pspec/uvpspec.py::UVPSpec.write_to_group"]}
{"id": "C142", "title": "Selecting keeps the filter parameters of the selected baselines", "statement": "After select (or any read) get_r_params returns the parameters of exactly those keys (antenna, antenna, polarization) stored before that belong to a selected baseline and polarization, with the same values.", "quantifier": "all dictionaries of parameters, all selected keys", "why_tests_cant": "unbounded dictionaries, parameters shared between baselines in a compressed form", "anchors": ["src/hera_pspec/uvpspec_utils.py::_select", "src/hera_pspec/uvpspec_utils.py::compress_r_params", "src/hera_pspec/uvpspec_utils.py::decompress_r_params", "src/hera_pspec/uvpspec.py::UVPSpec.get_r_params"]}
{"id": "C143", "title": "The filter parameters used by pspec are recorded", "statement": "The r_params with which pspec estimated a spectrum are still returned by get_r_params after the UVPSpec has been selected from or written and read.", "quantifier": "all dictionaries pspec accepts", "why_tests_cant": "two modules use different keys; each is tested with its own", "anchors": ["src/hera_pspec/pspecdata.py::PSpecData.pspec", "src/hera_pspec/uvpspec_utils.py::_select", "src/hera_pspec/uvpspec.py::UVPSpec.get_r_params"]}
{"id": "C144", "title": "Equality of UVPSpec objects is reflexive and implies closeness", "statement": "A well-formed object without NaN equals itself; if two objects compare equal, every required parameter but time_2_array and symmetric_taper is equal or, for numerical arrays of the same length, within 1e-8 + 1e-5 |b| element by element, for every window of the first.", "quantifier": "all pairs of objects", "why_tests_cant": "quantifies over all contents", "anchors": ["src/hera_pspec/uvpspec.py::UVPSpec.__eq__"]}
{"id": "C145", "title": "Equality of UVPSpec objects is an equivalence that sees every difference", "statement": "== between UVPSpec objects is symmetric, always returns a truth value, is true only for arrays of the same shape and windows, and is false for objects from different nights or with different second times or statistics.", "quantifier": "all pairs of objects", "why_tests_cant": "quantifies over all contents", "anchors": ["src/hera_pspec/uvpspec.py::UVPSpec.__eq__", "src/hera_pspec/uvpspec.py::UVPSpec.__init__"]}
{"id": "C146", "title": "Spherical averaging propagates covariances", "statement": "With diagonal weights, the covariance of two spherical bins is the sum over pairs of modes of the same baseline-pair of their covariance times both weights, divided by the total weights of both bins; modes of different baseline-pairs are treated as uncorrelated.", "quantifier": "all bins, modes, non-negative weights and covariances up to 1e40, bins above the cut-off of the pseudo-inverse", "why_tests_cant": "a matrix identity for every size", "anchors": ["src/hera_pspec/grouping.py::spherical_average"]}
{"id": "C147", "title": "Setting a cosmology renormalises the spectra", "statement": "set_cosmology, when the object has no cosmology or overwrite is True and beam data are available, leaves the new cosmology and beam, the scalar of the new cosmology for every window and polarization, and every spectrum multiplied by new over old scalar; only the last of several calls counts, and going back to the cosmology whose scalars the object carried restores every spectrum. Otherwise the object is unchanged.", "quantifier": "all objects, cosmologies, beams, windows, polarizations", "why_tests_cant": "real-valued identity over all objects and histories of calls", "anchors": ["src/hera_pspec/uvpspec.py::UVPSpec.set_cosmology", "src/hera_pspec/uvpspec.py::UVPSpec.compute_scalar"]}
{"id": "C148", "title": "After setting a cosmology the stated units are right", "statement": "After set_cosmology the values of the object are in the units that it states, whatever units it was in before.", "quantifier": "all objects and units", "why_tests_cant": "quantifies over all objects", "anchors": ["src/hera_pspec/uvpspec.py::UVPSpec.set_cosmology"]}
{"id": "C149", "title": "Setting a cosmology keeps relative errors", "statement": "set_cosmology rescales the stored statistics and covariances together with the spectra.", "quantifier": "all objects, cosmologies", "why_tests_cant": "quantifies over all objects", "anchors": ["src/hera_pspec/uvpspec.py::UVPSpec.set_cosmology"]}
{"id": "C150", "title": "Setting the cosmology that the object has does not change it", "statement": "set_cosmology with the cosmology and beam with which pspec made the object leaves every spectrum as it is, whatever the options of pspec.", "quantifier": "all options of pspec, all objects", "why_tests_cant": "quantifies over options and objects", "anchors": ["src/hera_pspec/uvpspec.py::UVPSpec.set_cosmology", "src/hera_pspec/pspecdata.py::PSpecData.pspec"]}
{"id": "C151", "title": "Conversion to Delta^2", "statement": "convert_to_deltasq multiplies every spectrum and statistic by k^3/(2 pi^2), the covariances by the product of the factors of their two bins, k being the length of the wavevector of the baseline separation and delay in the object's cosmology; the result is the same whether the spectra were in h^-3 Mpc^3 or in Mpc^3; without a cosmology it raises an error.", "quantifier": "all objects, windows, baselines, delays, cosmologies", "why_tests_cant": "real-valued identity for all inputs", "anchors": ["src/hera_pspec/uvpspec.py::UVPSpec.convert_to_deltasq", "src/hera_pspec/uvpspec.py::UVPSpec.get_kperps", "src/hera_pspec/uvpspec.py::UVPSpec.get_kparas"]}
{"id": "C152", "title": "Delta^2 stays Delta^2", "statement": "An object converted to Delta^2 holds Delta^2 also after a further convert_to_deltasq or set_cosmology.", "quantifier": "all objects and histories of calls", "why_tests_cant": "quantifies over histories", "anchors": ["src/hera_pspec/uvpspec.py::UVPSpec.convert_to_deltasq", "src/hera_pspec/uvpspec.py::UVPSpec.set_cosmology"]}
{"id": "C153", "title": "Trimming to common LSTs checks the grids", "statement": "trim_dset_lsts accepts datasets with equally spaced LSTs of the same spacing exactly when some (rounded) LST is common to all, and raises a ValueError if the spacing of one differs from that of the first by more than the tolerance.", "quantifier": "all datasets, offsets and spacings", "why_tests_cant": "unbounded lists of datasets and times", "anchors": ["src/hera_pspec/pspecdata.py::PSpecData.trim_dset_lsts"]}
{"id": "C154", "title": "Trimming works for datasets of any length", "statement": "trim_dset_lsts leaves datasets that have the same LSTs as they are, also if each has a single LST.", "quantifier": "all datasets", "why_tests_cant": "boundary case of the number of times", "anchors": ["src/hera_pspec/pspecdata.py::PSpecData.trim_dset_lsts"]}
{"id": "C155", "title": "pspec refuses what it cannot pair", "statement": "pspec raises an error, whatever the position in the list, for a group of baseline-pairs and for a baseline-pair whose baselines have different numbers of times.", "quantifier": "all lists of baseline-pairs, polarization pairs and windows", "why_tests_cant": "quantifies over positions in unbounded lists", "anchors": ["src/hera_pspec/pspecdata.py::PSpecData.pspec"]}
{"id": "C156", "title": "Subtraction of matching spectra", "statement": "subtract_uvp of two unfolded objects returns the common windows and the rows of the first whose baseline-pair and LST occur in both, in their order; each value is the difference of the values with the same window, baseline-pair, LST and polarization pair; statistics add in quadrature and numbers of samples and integration times add like 1/sigma (given that both objects have the LSTs of a baseline-pair in the same order and the second has all polarization pairs of the first).", "quantifier": "all pairs of objects: windows, baseline-pairs, LSTs, polarization pairs, statistics", "why_tests_cant": "unbounded lists and real-valued identities; in-place update in three nested loops", "anchors": ["src/hera_pspec/uvpspec_utils.py::subtract_uvp", "src/hera_pspec/uvpspec_utils.py::select_common"]}
{"id": "C157", "title": "Weights of a difference", "statement": "With weights 0 (flagged) and 1, subtract_uvp leaves a sample of the difference unflagged exactly if it is unflagged in both objects, provided that the baseline-pair has a sample that is unflagged in both; otherwise all its weights become nan.", "quantifier": "all pairs of objects and flag patterns", "why_tests_cant": "quantifies over all flag patterns", "anchors": ["src/hera_pspec/uvpspec_utils.py::subtract_uvp"]}
{"id": "C158", "title": "Subtraction matches LSTs", "statement": "subtract_uvp only subtracts spectra of the same baseline-pair and LST, whatever LSTs the two objects have for it and in whatever order.", "quantifier": "all pairs of objects", "why_tests_cant": "quantifies over all arrangements of rows", "anchors": ["src/hera_pspec/uvpspec_utils.py::subtract_uvp", "src/hera_pspec/uvpspec_utils.py::select_common"]}
{"id": "C159", "title": "Covariance of a difference", "statement": "The covariance that subtract_uvp stores is the covariance of the difference of two independent spectra, the sum of the two covariances.", "quantifier": "all pairs of objects with covariances", "why_tests_cant": "real-valued identity for all inputs", "anchors": ["src/hera_pspec/uvpspec_utils.py::subtract_uvp"]}
{"id": "C160", "title": "Window functions of a difference", "statement": "The difference of two objects with the same window functions has these window functions.", "quantifier": "all pairs of objects with window functions", "why_tests_cant": "real-valued identity for all inputs", "anchors": ["src/hera_pspec/uvpspec_utils.py::subtract_uvp"]}
{"id": "C161", "title": "Subtraction removes what does not overlap", "statement": "subtract_uvp removes polarization pairs that are in one object only, and works for folded objects.", "quantifier": "all pairs of objects", "why_tests_cant": "quantifies over all pairs of objects", "anchors": ["src/hera_pspec/uvpspec_utils.py::subtract_uvp", "src/hera_pspec/uvpspec_utils.py::select_common"]}
{"id": "C162", "title": "Dataset and baseline keys", "statement": "The accepted spellings of a key - dataset index or label, baseline as a tuple or as two antennas, with or without a polarization - that name the same data are read as the same key; a label is read as its position in the list of labels; an unknown label, too short a key or a malformed one is an error.", "quantifier": "all keys and lists of labels", "why_tests_cant": "quantifies over all keys and labels", "anchors": ["src/hera_pspec/pspecdata.py::PSpecData.parse_blkey", "src/hera_pspec/pspecdata.py::PSpecData.dset_idx"]}
{"id": "C163", "title": "Malformed keys are refused", "statement": "A key with a dataset index beyond the datasets, or with more elements than a dataset, a baseline and a polarization, is refused.", "quantifier": "all keys", "why_tests_cant": "quantifies over all keys", "anchors": ["src/hera_pspec/pspecdata.py::PSpecData.parse_blkey", "src/hera_pspec/pspecdata.py::PSpecData.dset_idx"]}
{"id": "C164", "title": "Validation of datasets", "statement": "validate_datasets succeeds exactly if there are as many labels, weights and standard deviations as datasets and every dataset has the number of channels, number of times, channel width and phase type of the first; it warns exactly if some dataset has, at some time or channel, an LST more than 0.001 rad or a frequency more than 1 kHz from the first dataset's.", "quantifier": "all lists of datasets", "why_tests_cant": "unbounded lists, comparison of reals", "anchors": ["src/hera_pspec/pspecdata.py::PSpecData.validate_datasets"]}
{"id": "C165", "title": "Validation finds every misalignment", "statement": "validate_datasets warns exactly if two of the datasets are misaligned by more than the tolerance.", "quantifier": "all lists of datasets", "why_tests_cant": "quantifies over all pairs in unbounded lists", "anchors": ["src/hera_pspec/pspecdata.py::PSpecData.validate_datasets"]}
{"id": "C166", "title": "Rephasing turns the phases only", "statement": "rephase_to_dset multiplies each visibility of each dataset by the phase factor between its LST and the LST of the reference dataset at the same time index (so amplitudes, times, and the reference data do not change) and, with inplace=False, leaves the object as it was; given that the datasets pass validation and have the same polarizations in the same order.", "quantifier": "all lists of datasets, references, times, channels", "why_tests_cant": "real-valued identity over unbounded lists; mutation of shared data", "anchors": ["src/hera_pspec/pspecdata.py::PSpecData.rephase_to_dset"]}
{"id": "C167", "title": "Rephasing is done once", "statement": "Data already rephased to a dataset, or phased data, are left as they are by rephase_to_dset.", "quantifier": "all lists of datasets and histories of calls", "why_tests_cant": "quantifies over histories", "anchors": ["src/hera_pspec/pspecdata.py::PSpecData.rephase_to_dset"]}
{"id": "C168", "title": "Rephasing keeps polarizations apart", "statement": "rephase_to_dset moves no data from one polarization to another, whatever the order of the polarizations in the datasets.", "quantifier": "all lists of datasets", "why_tests_cant": "quantifies over all orders of polarizations", "anchors": ["src/hera_pspec/pspecdata.py::PSpecData.rephase_to_dset"]}
{"id": "C169", "title": "A failed rephasing changes nothing", "statement": "If rephase_to_dset raises an error, the datasets are as before.", "quantifier": "all lists of datasets", "why_tests_cant": "quantifies over all failure points", "anchors": ["src/hera_pspec/pspecdata.py::PSpecData.rephase_to_dset"]}
{"id": "C170", "title": "Covariance of bandpowers over times", "statement": "cov_q_hat returns, for one pair of keys, the covariance of each time, and for lists of keys, entry by entry, their harmonic mean, one matrix per requested time; negative or too large times are an error.", "quantifier": "all keys, lists of keys, times and covariances", "why_tests_cant": "real-valued identity over unbounded lists", "anchors": ["src/hera_pspec/pspecdata.py::PSpecData.cov_q_hat"]}
{"id": "C171", "title": "Times beyond the data are refused", "statement": "cov_q_hat refuses every time index that is not smaller than the number of times.", "quantifier": "all time indices", "why_tests_cant": "boundary case over all inputs", "anchors": ["src/hera_pspec/pspecdata.py::PSpecData.cov_q_hat"]}
{"id": "C172", "title": "Covariance of an inverse-variance average", "statement": "cov_q_hat of n pairs of keys is the covariance of their inverse-variance weighted mean, 1/n of the common covariance if all are equal; an unsupported covariance model is an error.", "quantifier": "all keys, covariances, models", "why_tests_cant": "real-valued identity for all inputs", "anchors": ["src/hera_pspec/pspecdata.py::PSpecData.cov_q_hat"]}
{"id": "C173", "title": "Noise variance from autocorrelations", "statement": "variance_from_auto_correlations is |V_11| |V_22| / (dt df n), with n the number of samples of the channel or, if there are none, the median of those of the unflagged channels of the window; it is infinite if the window has no sample, and symmetric in the two antennas.", "quantifier": "all visibilities, numbers of samples, windows", "why_tests_cant": "real-valued identity for all inputs", "anchors": ["src/hera_pspec/utils.py::variance_from_auto_correlations"]}
{"id": "C174", "title": "Noise variance uses the baseline's integration time", "statement": "variance_from_auto_correlations uses the integration time of the baseline.", "quantifier": "all datasets", "why_tests_cant": "quantifies over all datasets", "anchors": ["src/hera_pspec/utils.py::variance_from_auto_correlations"]}
{"id": "C175", "title": "Bootstrap files hold, for every spectrum, its average and resamples", "statement": "bootstrap_run stores for every chosen spectrum of the file the average with its errors under <name>_avg and, if asked to, resample i under <name>_bs<i>, as a function of that spectrum and the seed alone; names of different outputs never collide, and nothing else in the file changes.", "quantifier": "all files, lists of spectra, seeds, numbers of resamples", "why_tests_cant": "all names and file contents; names are unbounded strings", "anchors": ["src/hera_pspec/grouping.py::bootstrap_run"]}
{"id": "C176", "title": "Bootstrap runs never damage the file", "statement": "However bootstrap_run ends, only outputs of chosen spectra change; without overwrite no spectrum that exists changes; if there is nothing to do it fails without touching the file.", "quantifier": "all files, arguments and failures", "why_tests_cant": "every failure point of a loop over file contents", "anchors": ["src/hera_pspec/grouping.py::bootstrap_run"]}
{"id": "C177", "title": "Bootstrap reports missing spectra", "statement": "bootstrap_run fails if a spectrum of the list does not exist in the file.", "quantifier": "all files and lists", "why_tests_cant": "all inputs", "anchors": ["src/hera_pspec/grouping.py::bootstrap_run"]}
{"id": "C178", "title": "Bootstrap runs can be repeated", "statement": "Running bootstrap_run twice with overwrite leaves the file as after the first run; it processes the spectra that are in the file when it starts, and a run that fails leaves the file as it was.", "quantifier": "all files and histories of runs", "why_tests_cant": "histories over all file contents", "anchors": ["src/hera_pspec/grouping.py::bootstrap_run"]}
{"id": "C179", "title": "pspec_run: which pairs are used", "statement": "Without dset_pairs pspec_run uses every dataset with every later one, once (one dataset: with itself); of the baseline-pairs that are given those whose baselines are in their dataset, in either orientation, in the given order.", "quantifier": "all numbers of datasets and lists of pairs", "why_tests_cant": "unbounded lists", "anchors": ["src/hera_pspec/pspecdata.py::pspec_run"]}
{"id": "C180", "title": "pspec_run stores each pair's spectrum under its own name", "statement": "With different labels, a successful pspec_run stores for every dataset pair that has baseline-pairs its spectrum under the name made of the labels and the extension, changes nothing else, and returns True iff there was one; different label lists give different default groups; however it ends, without overwrite no existing spectrum changes; wrong labels or dataset indices are refused before anything is written.", "quantifier": "all labels, pairs, groups, containers", "why_tests_cant": "string names, all containers, all failure points", "anchors": ["src/hera_pspec/pspecdata.py::pspec_run"]}
{"id": "C181", "title": "pspec_run keeps the spectra of all pairs apart", "statement": "A successful pspec_run stores one spectrum for each dataset pair with baseline-pairs, whatever the labels that it accepts.", "quantifier": "all labels", "why_tests_cant": "all label lists", "anchors": ["src/hera_pspec/pspecdata.py::pspec_run"]}
{"id": "C182", "title": "pspec_run is all or nothing", "statement": "A pspec_run that fails leaves the container as it was.", "quantifier": "all failure points", "why_tests_cant": "all failure points", "anchors": ["src/hera_pspec/pspecdata.py::pspec_run"]}
{"id": "C183", "title": "Statistics are stored where they belong", "statement": "get_stats returns what set_stats stored for the same key (values that the array can hold); set_stats changes no other statistic, spectral window, polarization or row, a new statistic is nan elsewhere, and a wrong shape is an error.", "quantifier": "all objects, names, keys and values", "why_tests_cant": "frame property over all arrays and keys", "anchors": ["src/hera_pspec/uvpspec.py::UVPSpec.set_stats", "src/hera_pspec/uvpspec.py::UVPSpec.get_stats"]}
{"id": "C184", "title": "Statistics of any type are kept", "statement": "get_stats returns what set_stats stored for the same key, also when the statistic exists already.", "quantifier": "all statistics, real or complex, and histories", "why_tests_cant": "histories of calls over all values", "anchors": ["src/hera_pspec/uvpspec.py::UVPSpec.set_stats"]}
{"id": "C185", "title": "set_stats_slice sets the side of a line in delay", "statement": "set_stats_slice(stat, m, b, above, val) sets the statistic to val at exactly the delays above (below) |tau| = m |b| + b0, with the length of each row's own baseline-pair, and changes nothing else.", "quantifier": "all objects, lines and values", "why_tests_cant": "quantifies over all rows, windows, delays", "anchors": ["src/hera_pspec/uvpspec.py::UVPSpec.set_stats_slice"]}
{"id": "C186", "title": "Bootstrap standard errors", "statement": "The standard error is 0 iff all resamples agree, scales with the absolute value of a factor and ignores a common offset.", "quantifier": "all non-empty lists of resamples", "why_tests_cant": "real-valued identities for all lists", "anchors": ["src/hera_pspec/grouping.py::bootstrap_resampled_error"]}
{"id": "C187", "title": "Bootstrap percentiles", "statement": "Percentiles are ordered; percentile 0 is the smallest, 100 the largest resample, 50 the median; each requested interval whose name differs from the others is stored under it.", "quantifier": "all non-empty lists of resamples and percentages", "why_tests_cant": "real-valued, all lists", "anchors": ["src/hera_pspec/grouping.py::bootstrap_resampled_error"]}
{"id": "C188", "title": "All requested intervals are stored", "statement": "bootstrap_resampled_error stores each of the different percentages of cintervals.", "quantifier": "all lists of percentages", "why_tests_cant": "all inputs", "anchors": ["src/hera_pspec/grouping.py::bootstrap_resampled_error"]}
{"id": "C189", "title": "Circular averages", "statement": "circular_average is the one angle in [0, 2 pi) in the direction of the sum of the unit vectors (when these do not cancel); it does not depend on whole turns or on the order, turns with the angles, stays within any arc of less than pi that contains all angles, also across the wrap, and is the middle of two angles.", "quantifier": "all lists of angles", "why_tests_cant": "real analysis over unbounded lists", "anchors": ["src/hera_pspec/utils.py::circular_average"]}
{"id": "C190", "title": "Away from the wrap, circular averages are arithmetic means", "statement": "circular_average of angles in a quarter turn is their arithmetic mean.", "quantifier": "all lists of angles", "why_tests_cant": "real analysis", "anchors": ["src/hera_pspec/utils.py::circular_average"]}
{"id": "C191", "title": "Baseline angles", "statement": "get_bl_lens_angs gives angles in [0, 180] along the line of the vector, except for vectors that point east and less than the tolerance south, which get 0; a baseline and its conjugate have the same angle if they are not within the tolerance of east-west.", "quantifier": "all vectors and tolerances", "why_tests_cant": "real analysis, all vectors", "anchors": ["src/hera_pspec/uvpspec_utils.py::get_bl_lens_angs"]}
{"id": "C192", "title": "Redundant and conjugated baselines have similar angles", "statement": "Baselines within the tolerance of each other, and a baseline and its conjugate, have baseline angles that are not far apart.", "quantifier": "all vectors and tolerances", "why_tests_cant": "real analysis, all vectors", "anchors": ["src/hera_pspec/uvpspec_utils.py::get_bl_lens_angs"]}
{"id": "C193", "title": "Redundancy check of baseline-pairs", "statement": "If the datasets agree on the antennas they share, validate_blpairs warns about exactly the pairs, also inside groups, whose baseline vectors (from their own datasets) differ by the tolerance or more; if they agree to within the tolerance, silence means less than three times the tolerance.", "quantifier": "all antenna positions, groups of pairs, tolerances", "why_tests_cant": "triangle inequality over all positions", "anchors": ["src/hera_pspec/pspecdata.py::validate_blpairs"]}
{"id": "C194", "title": "No warning means redundant", "statement": "If validate_blpairs does not warn, the vectors of each pair in their own datasets differ by less than the tolerance.", "quantifier": "all antenna positions and pairs", "why_tests_cant": "all positions", "anchors": ["src/hera_pspec/pspecdata.py::validate_blpairs"]}
{"id": "C195", "title": "Redshift ranges to channel ranges", "statement": "spw_range_from_redshifts returns the first and last channel of redshift zmin < z <= zmax; with bounds_error an answer means that both bounds are inside the band.", "quantifier": "all ascending frequencies and redshift ranges", "why_tests_cant": "all arrays and bounds", "anchors": ["src/hera_pspec/utils.py::spw_range_from_redshifts"]}
{"id": "C196", "title": "Documented bounds of redshift ranges", "statement": "spw_range_from_redshifts includes all channels in z_range[0] > z >= z_range[1].", "quantifier": "all ascending frequencies and redshift ranges", "why_tests_cant": "all arrays and bounds", "anchors": ["src/hera_pspec/utils.py::spw_range_from_redshifts"]}
{"id": "C197", "title": "Configuration of power spectrum runs", "statement": "config_pspec_blpairs lists exactly the given combinations of a group pair and a polarization pair of which both files were found, each with the baseline-pairs of a file that was found and not excluded, without pairs that have an excluded antenna; it succeeds if the same names exist for all combinations.", "quantifier": "all sets of files, templates, pairs", "why_tests_cant": "all file systems", "anchors": ["src/hera_pspec/utils.py::config_pspec_blpairs"]}
{"id": "C198", "title": "Configuration honours exclusions and partial file sets", "statement": "config_pspec_blpairs lists only combinations of which some file is not excluded, and succeeds whenever files of all the given combinations exist.", "quantifier": "all sets of files, patterns", "why_tests_cant": "all file systems", "anchors": ["src/hera_pspec/utils.py::config_pspec_blpairs"]}
{"id": "C199", "title": "Ranges of spectral windows", "statement": "For a window of at least two equally spaced ascending channels get_spw_ranges gives (first frequency, first frequency + Nfreqs * channel width, Nfreqs, Ndlys), np.linspace(start, stop, Nfreqs, endpoint=False) gives its frequencies back, and looking a window up by this tuple finds it if no other window has the same tuple.", "quantifier": "all windows, frequencies, numbers of channels", "why_tests_cant": "all real frequencies and numbers of windows", "anchors": ["src/hera_pspec/uvpspec.py::UVPSpec.get_spw_ranges", "src/hera_pspec/uvpspec.py::UVPSpec.spw_indices"]}
{"id": "C200", "title": "Frequencies from the range of any window", "statement": "The frequencies of every window can be had back from its range, and every window can be looked up by it.", "quantifier": "all windows", "why_tests_cant": "all frequencies", "anchors": ["src/hera_pspec/uvpspec.py::UVPSpec.get_spw_ranges"]}
{"id": "C201", "title": "One centre frequency per window", "statement": "The middle of the range given by get_spw_ranges (used for spherical window functions) is the mean frequency of the window (used for k_perp).", "quantifier": "all equally spaced windows", "why_tests_cant": "all frequencies", "anchors": ["src/hera_pspec/uvpspec.py::UVPSpec.get_spw_ranges", "src/hera_pspec/grouping.py::spherical_wf_from_uvp", "src/hera_pspec/uvpspec.py::UVPSpec.get_kperps"]}
{"id": "C202", "title": "Rows at a time", "statement": "time_to_indices gives, ascending, the rows whose time is within 1e-8 + 1e-10 |time| of the given one and whose baseline-pair is one of the given ones; a baseline-pair that is not in the object is an error.", "quantifier": "all objects, times, baseline-pairs", "why_tests_cant": "all arrays", "anchors": ["src/hera_pspec/uvpspec.py::UVPSpec.time_to_indices"]}
{"id": "C203", "title": "Times are told apart", "statement": "time_to_indices for a time of the object gives only rows at this time.", "quantifier": "all objects and times", "why_tests_cant": "all arrays", "anchors": ["src/hera_pspec/uvpspec.py::UVPSpec.time_to_indices"]}
{"id": "C204", "title": "Baseline-pairs of baseline groups", "statement": "get_blpair_groups_from_bl_groups leaves out groups without baseline-pairs; of each other group it gives, in order, ascending and once each, the baseline-pairs with one baseline (only_pairs_in_bls: both) in the group; an empty group is an error.", "quantifier": "all objects and groups", "why_tests_cant": "all arrays", "anchors": ["src/hera_pspec/uvpspec.py::UVPSpec.get_blpair_groups_from_bl_groups"]}
{"id": "C205", "title": "One output group per baseline group", "statement": "get_blpair_groups_from_bl_groups gives one group per given group, and disjoint groups of baselines give disjoint groups of baseline-pairs.", "quantifier": "all objects and groups", "why_tests_cant": "all arrays", "anchors": ["src/hera_pspec/uvpspec.py::UVPSpec.get_blpair_groups_from_bl_groups"]}
{"id": "C206", "title": "Separations of baseline-pairs", "statement": "get_blpair_seps gives for every row the mean of the lengths of its two baselines; a baseline that is not in bl_array is an error.", "quantifier": "all objects", "why_tests_cant": "all vectors and rows", "anchors": ["src/hera_pspec/uvpspec.py::UVPSpec.get_blpair_seps"]}
{"id": "C207", "title": "Vectors of baseline-pairs", "statement": "get_blpair_blvecs gives, once per baseline-pair in order of first occurrence, the vector of its first baseline (use_second_bl: of the second).", "quantifier": "all objects", "why_tests_cant": "all vectors and rows", "anchors": ["src/hera_pspec/uvpspec.py::UVPSpec.get_blpair_blvecs"]}
{"id": "C208", "title": "Baseline-pairs given to plots", "statement": "The plot functions take integers and ((a, b), (c, d)) as single baseline-pairs and lists of these as groups, in order; otherwise the first wrong entry decides the error: ValueError for (a, b), TypeError for anything else.", "quantifier": "all nested Python values", "why_tests_cant": "all nestings", "anchors": ["src/hera_pspec/plot.py::_normalize_plot_blpairs"]}
{"id": "C209", "title": "Wedge draws the component asked for", "statement": "delay_wedge with component real, imag, abs, abs-real or abs-imag draws this component of each bandpower.", "quantifier": "all data", "why_tests_cant": "all values", "anchors": ["src/hera_pspec/plot.py::delay_wedge"]}
{"id": "C210", "title": "Waterfall draws the component asked for", "statement": "delay_waterfall draws the component that was asked for, and flagged integrations as missing.", "quantifier": "all data, components and flags", "why_tests_cant": "all values", "anchors": ["src/hera_pspec/plot.py::delay_waterfall"]}
{"id": "C211", "title": "Negative values on logarithmic scales", "statement": "With component real or imag on a logarithmic scale, values that are not negative are drawn unchanged and negative ones all as 1e-6 times the smallest magnitude plus 1e-10, if nothing is flagged.", "quantifier": "all data without missing values", "why_tests_cant": "all values", "anchors": ["src/hera_pspec/plot.py::delay_waterfall", "src/hera_pspec/plot.py::delay_wedge"]}
{"id": "C212", "title": "Negative values are shown below positive ones", "statement": "With component real or imag on a logarithmic scale negative values are drawn, and below the positive ones.", "quantifier": "all data", "why_tests_cant": "all values", "anchors": ["src/hera_pspec/plot.py::delay_waterfall", "src/hera_pspec/plot.py::delay_wedge"]}
{"id": "C213", "title": "Titles and labels of delay spectra", "statement": "With label_type auto the title names exactly the fields (spw, blpair, pol, lst) that have one value, without blpair when baseline-pairs are averaged; the label of each spectrum names its values of the others, in this order; equal labels mean the same baseline-pair and the same printed LST.", "quantifier": "all lists of spectra", "why_tests_cant": "all metadata", "anchors": ["src/hera_pspec/plot.py::_get_delay_spectrum_title_and_labels"]}
{"id": "C214", "title": "Labels tell spectra apart", "statement": "If there is a legend, different spectra have different labels.", "quantifier": "all lists of spectra", "why_tests_cant": "all metadata", "anchors": ["src/hera_pspec/plot.py::_get_delay_spectrum_title_and_labels"]}
{"id": "C215", "title": "Limit on the number of spectra", "statement": "Unless force_plot is set, delay_spectrum draws at most 100 spectra.", "quantifier": "all objects and groups", "why_tests_cant": "all numbers of times and groups", "anchors": ["src/hera_pspec/plot.py::delay_spectrum"]}
{"id": "C216", "title": "Label says Delta^2 only for Delta^2", "statement": "If the label of a plot says Delta^2 the data were converted to Delta^2.", "quantifier": "all arguments", "why_tests_cant": "all data", "anchors": ["src/hera_pspec/plot.py::delay_spectrum", "src/hera_pspec/plot.py::delay_waterfall", "src/hera_pspec/plot.py::delay_wedge"]}
{"id": "C217", "title": "Subplots of waterfalls", "statement": "The grid has the smallest square number of subplots that suffices; key k is drawn in row k // Nhorz and column k % Nhorz and nowhere else; exactly the subplots with no drawn subplot below them get an axis label.", "quantifier": "all numbers of keys and grids", "why_tests_cant": "all numbers", "anchors": ["src/hera_pspec/plot.py::delay_waterfall"]}
{"id": "C218", "title": "All keys are drawn", "statement": "Every selected baseline-pair is drawn in some subplot.", "quantifier": "all axes and keys", "why_tests_cant": "all numbers", "anchors": ["src/hera_pspec/plot.py::delay_waterfall"]}
{"id": "C219", "title": "Pixels of waterfalls", "statement": "Each pixel of a waterfall is drawn less than half a channel from its delay; the middle of a pixel is at its delay.", "quantifier": "all equally spaced axes", "why_tests_cant": "all numbers of delays", "anchors": ["src/hera_pspec/plot.py::delay_waterfall"]}
{"id": "C220", "title": "Wedge rows against separation", "statement": "delay_wedge with delay=True draws every row of the averaged object once, ascending in separation, at its own separation, with its own horizon line at separation / c.", "quantifier": "all separations (also equal ones) and data", "why_tests_cant": "all numbers of rows and orders", "anchors": ["src/hera_pspec/plot.py::delay_wedge"]}
{"id": "C221", "title": "Wedge rows against k_perp", "statement": "delay_wedge with delay=False draws each row at its own k_perp, with its own horizon line, whose slope is the same for all baselines.", "quantifier": "all separations and data", "why_tests_cant": "all numbers of rows and orders", "anchors": ["src/hera_pspec/plot.py::delay_wedge"]}
{"id": "C222", "title": "Bins of wedges", "statement": "For ascending axes there is one more bin edge than values, inner edges are half-way between values and each value is inside its own bin; rotate=True draws the transpose.", "quantifier": "all axes with at least two values", "why_tests_cant": "all values and numbers", "anchors": ["src/hera_pspec/plot.py::delay_wedge"]}
{"id": "C223", "title": "Wedge of selected baseline-pairs", "statement": "delay_wedge with blpairs given draws only these baseline-pairs.", "quantifier": "all objects and selections", "why_tests_cant": "all selections", "anchors": ["src/hera_pspec/plot.py::delay_wedge"]}
{"id": "C224", "title": "Distinct files of waterfall plots", "statement": "plot_uvdata_waterfalls with a name {pol}.{bl} writes different files for different antenna pairs and polarizations, each ending in the format.", "quantifier": "all names, antennas and polarizations", "why_tests_cant": "all strings", "anchors": ["src/hera_pspec/plot.py::plot_uvdata_waterfalls"]}
{"id": "C225", "title": "File names that have their extension", "statement": "plot_uvdata_waterfalls does not append the extension to a name that has it, and accepts every name.", "quantifier": "all names and formats", "why_tests_cant": "all strings", "anchors": ["src/hera_pspec/plot.py::plot_uvdata_waterfalls"]}
{"id": "C226", "title": "Significant figures", "statement": "_round_sigfig gives x rounded up or down to one significant figure; baseline ticks are within half a unit of the third significant figure of the value.", "quantifier": "all non-zero numbers", "why_tests_cant": "all reals", "anchors": ["src/hera_pspec/plot.py::_round_sigfig", "src/hera_pspec/plot.py::_get_sigfig", "src/hera_pspec/plot.py::delay_wedge"]}
{"id": "C227", "title": "Grid of Fourier modes around a baseline", "statement": "UVWindow's Cartesian k_perp grid of a baseline starts one width below the k_perp of the baseline over sqrt 2, has the spacing asked for, has at least three points, ends less than one spacing before one width above it, and has a point within half a spacing of the centre; a width that does not exceed the spacing is refused with ValueError.", "quantifier": "all baseline lengths, spacings, widths and average frequencies", "why_tests_cant": "real-valued inputs", "anchors": ["src/hera_pspec/uvwindow.py::UVWindow._get_kgrid"]}
{"id": "C228", "title": "The grid covers all frequencies of the window", "statement": "The k_perp grid of a baseline includes the k_perp of the baseline at every frequency of the spectral window, as its documentation demands.", "quantifier": "all baseline lengths and frequencies", "why_tests_cant": "false for long baselines only", "anchors": ["src/hera_pspec/uvwindow.py::UVWindow._get_kgrid"]}
{"id": "C229", "title": "k_perp of the pixels of a Fourier beam", "statement": "The k_perp values of a baseline at a frequency of the window are as many as the pixels of the beam, equally spaced by 2 pi over twice the map size and the comoving distance, ascending; frequencies outside of the window or below 1 MHz are refused with ValueError.", "quantifier": "all frequencies, baselines, map sizes and numbers of pixels", "why_tests_cant": "real-valued inputs", "anchors": ["src/hera_pspec/uvwindow.py::UVWindow._kperp4bl_freq"]}
{"id": "C230", "title": "The centre of the beam is at the baseline", "statement": "The central pixel of the Fourier transform of the beam is assigned the k_perp of the baseline.", "quantifier": "all numbers of pixels, frequencies and baselines", "why_tests_cant": "false for even numbers of pixels", "anchors": ["src/hera_pspec/uvwindow.py::UVWindow._kperp4bl_freq"]}
{"id": "C231", "title": "Interpolation of the Fourier beam", "statement": "The interpolated Fourier beam has, at each pair of grid points (k_x, k_y), the bilinear interpolation of the beam at this point.", "quantifier": "all beams and grids", "why_tests_cant": "a test with few points compares shapes only", "anchors": ["src/hera_pspec/uvwindow.py::UVWindow._interpolate_ft_beam"]}
{"id": "C232", "title": "Default k_perp bins hold every baseline", "statement": "If the k_perp of the shortest baseline exceeds sqrt 2 / 2 of the spacing of the Fourier beam, the default k_perp bins are equally spaced, positive, and every baseline whose k_perp is at least one bin width lies in exactly one bin.", "quantifier": "all sets of baseline lengths, spacings and widths", "why_tests_cant": "real-valued inputs and arbitrary numbers of baselines", "anchors": ["src/hera_pspec/uvwindow.py::UVWindow.get_kperp_bins"]}
{"id": "C233", "title": "Default k_perp bins exist for every set of baselines", "statement": "The default k_perp bins have a positive spacing and hold every baseline, autocorrelations included.", "quantifier": "all sets of baseline lengths", "why_tests_cant": "false with zero-length baselines", "anchors": ["src/hera_pspec/uvwindow.py::UVWindow.get_kperp_bins"]}
{"id": "C234", "title": "Matching of autocorrelations to spectra", "statement": "uvp_noise_error uses, for each time of a spectrum, the first integration of the autocorrelations within 1e-5 day and fails with IndexError if there is none; the channels used start at the one nearest to the lower edge of the spectral window.", "quantifier": "all time arrays, frequencies and windows", "why_tests_cant": "arbitrary time grids and tolerances", "anchors": ["src/hera_pspec/utils.py::uvp_noise_error"]}
{"id": "C235", "title": "System temperature of a spectrum", "statement": "With at least two unflagged integrations for each baseline, the temperature used for a row of a baseline-pair is the geometric mean of the temperatures of its two baselines, each at the unflagged integration of the nearest LST; the temperature of a baseline and integration is a taper-weighted mean over the unflagged channels of the window, between the least and greatest of its antennas' temperatures; P_N is scalar (1000 T)^2 / (t_int sqrt(nsample) sqrt 2).", "quantifier": "all autocorrelations, flags, tapers and rows", "why_tests_cant": "ranges over all flag patterns", "anchors": ["src/hera_pspec/utils.py::uvp_noise_error", "src/hera_pspec/uvpspec.py::UVPSpec.generate_noise_spectra"]}
{"id": "C236", "title": "Fully flagged spectra have infinite errors", "statement": "The temperature is infinite exactly if no channel of any row of the baseline-pair is unflagged for both baselines, and then P_N, P_SN and the corrected P_SN are infinite.", "quantifier": "all flag patterns", "why_tests_cant": "ranges over all flag patterns", "anchors": ["src/hera_pspec/utils.py::uvp_noise_error"]}
{"id": "C237", "title": "Flagged integrations do not lower the noise", "statement": "Flagged integrations of the autocorrelations never contribute to the noise of a spectrum.", "quantifier": "all flag patterns", "why_tests_cant": "the wrong pattern has a single unflagged integration that is not the first", "anchors": ["src/hera_pspec/utils.py::uvp_noise_error"]}
{"id": "C238", "title": "Autocorrelations of several nights", "statement": "Each integration of the autocorrelations is placed at its own LST.", "quantifier": "all time and LST arrays", "why_tests_cant": "false only when LSTs repeat", "anchors": ["src/hera_pspec/utils.py::uvp_noise_error"]}
{"id": "C239", "title": "Both noise errors are stored", "statement": "Asked for P_N and P_SN, uvp_noise_error stores for every window, baseline-pair and polarization pair the noise just computed and the signal-plus-noise error from the data and that noise, corrected if asked, and changes no other statistic.", "quantifier": "all objects and statistics", "why_tests_cant": "arbitrary numbers of keys", "anchors": ["src/hera_pspec/utils.py::uvp_noise_error", "src/hera_pspec/utils.py::apply_P_SN_correction"]}
{"id": "C240", "title": "A precomputed noise replaces the temperatures", "statement": "With the name of a precomputed noise, uvp_noise_error needs no temperatures and computes P_SN from the statistic named.", "quantifier": "all objects and statistics", "why_tests_cant": "documentation against behaviour for every call", "anchors": ["src/hera_pspec/utils.py::uvp_noise_error"]}
{"id": "C241", "title": "P_SN alone", "statement": "Asked for P_SN only, uvp_noise_error stores P_SN computed and corrected with the noise from the temperatures.", "quantifier": "all objects and statistics", "why_tests_cant": "depends on statistics stored before", "anchors": ["src/hera_pspec/utils.py::uvp_noise_error", "src/hera_pspec/utils.py::apply_P_SN_correction"]}
{"id": "C242", "title": "Objects accepted by check", "statement": "If check() accepts an object, every parameter that exists has its type (arrays their dtype, dictionaries arrays of their dtype), every required parameter known to the class exists unless only metadata are checked, the windows are exactly 0..Nspws-1 and an object with exact windows has its window function arrays.", "quantifier": "all objects", "why_tests_cant": "arbitrary attributes and contents", "anchors": ["src/hera_pspec/uvpspec.py::UVPSpec.check"]}
{"id": "C243", "title": "check is idempotent", "statement": "An accepted object keeps its attributes: none appears or disappears, values of the right type and other attributes are unchanged, and a second check accepts it and changes nothing.", "quantifier": "all objects", "why_tests_cant": "arbitrary attributes and contents", "anchors": ["src/hera_pspec/uvpspec.py::UVPSpec.check"]}
{"id": "C244", "title": "check finds every malformed object", "statement": "check() refuses objects with a required parameter missing, with arrays of wrong shapes or with repeated spectral windows.", "quantifier": "all objects", "why_tests_cant": "absence of checks is invisible to tests of good objects", "anchors": ["src/hera_pspec/uvpspec.py::UVPSpec.check", "src/hera_pspec/uvpspec.py::UVPSpec.__init__"]}
{"id": "C245", "title": "A failed check", "statement": "A failing check() raises AssertionError and leaves the object as it was.", "quantifier": "all objects and failures", "why_tests_cant": "ranges over all failures", "anchors": ["src/hera_pspec/uvpspec.py::UVPSpec.check"]}
{"id": "C246", "title": "Group and window arguments", "statement": "Groups of baselines are taken as they are fed if they are a sequence of non-empty sequences, otherwise refused (ValueError for an empty group, TypeError otherwise); window arguments are an integer or a sequence of integers of windows of the object, None meaning all, otherwise refused (TypeError for types, ValueError for unknown windows).", "quantifier": "all arguments", "why_tests_cant": "arbitrary nested arguments", "anchors": ["src/hera_pspec/uvpspec.py::_normalize_nested_sequence", "src/hera_pspec/uvpspec.py::_normalize_spw_array_input"]}
{"id": "C247", "title": "Configuration files", "statement": "load_config replaces, in the dictionary read and in dictionaries nested in it at any depth, the string 'None' by None and lists of lists by lists of tuples, keeps all other values and keys, and replacing twice is replacing once.", "quantifier": "all configurations, any depth of nesting", "why_tests_cant": "arbitrary nesting", "anchors": ["src/hera_pspec/utils.py::load_config"]}
{"id": "C248", "title": "Configuration files, everywhere", "statement": "All entries 'None' of a configuration become None and all lists of lists become lists of tuples, also inside lists.", "quantifier": "all configurations", "why_tests_cant": "false only inside lists", "anchors": ["src/hera_pspec/utils.py::load_config"]}
{"id": "C249", "title": "Getters without flagged integrations", "statement": "With omit_flags every getter of an object (data, weights, integrations, nsamples, statistics, covariances, window functions) returns, for the same key, the same subsequence of the rows it returns without omit_flags: those whose integration time exceeds 1e-8 in magnitude.", "quantifier": "all objects, keys and integration times", "why_tests_cant": "arbitrary patterns of zero integrations", "anchors": ["src/hera_pspec/uvpspec.py::UVPSpec.key_to_indices", "src/hera_pspec/uvpspec.py::UVPSpec.get_data", "src/hera_pspec/uvpspec.py::UVPSpec.get_wgts", "src/hera_pspec/uvpspec.py::UVPSpec.get_integrations", "src/hera_pspec/uvpspec.py::UVPSpec.get_nsamples", "src/hera_pspec/uvpspec.py::UVPSpec.get_cov"]}
{"id": "C250", "title": "Forms of keys", "statement": "A key with the baseline-pair as integer or as antenna numbers, with the polarization pair as integer, as two numbers, as two strings or as one string for both, as tuple or as dictionary, addresses the same spectra; keys of different windows, antennas or polarizations address different ones.", "quantifier": "all antennas, polarizations and windows", "why_tests_cant": "all keys", "anchors": ["src/hera_pspec/uvpspec.py::UVPSpec.key_to_indices"]}
{"id": "C251", "title": "Covariance getter", "statement": "get_cov returns, for the real or imaginary component, the stored covariance matrix of each row of the key, of the positive delays only if folded; an unknown key, an absent covariance and another component are AssertionError, AttributeError and ValueError.", "quantifier": "all objects, keys and components", "why_tests_cant": "arbitrary arrays", "anchors": ["src/hera_pspec/uvpspec.py::UVPSpec.get_cov"]}
{"id": "C252", "title": "Window function getter", "statement": "get_window_function returns the stored estimated window functions of each row of the key, restricted on both axes to the positive delays if folded, and the stored exact window functions if not folded.", "quantifier": "all objects and keys", "why_tests_cant": "arbitrary arrays", "anchors": ["src/hera_pspec/uvpspec.py::UVPSpec.get_window_function"]}
{"id": "C253", "title": "Exact window functions of folded objects", "statement": "get_window_function of a folded object with exact window functions returns these of the positive delays, with all k_perp and k_para bins.", "quantifier": "all folded objects with exact windows", "why_tests_cant": "shapes may agree by chance", "anchors": ["src/hera_pspec/uvpspec.py::UVPSpec.get_window_function"]}
{"id": "C254", "title": "Statistics with the shape of the data", "statement": "A statistics array of the shape of get_data can be stored with set_stats.", "quantifier": "all objects, folded ones included", "why_tests_cant": "tests use unfolded objects", "anchors": ["src/hera_pspec/uvpspec.py::UVPSpec.set_stats", "src/hera_pspec/uvpspec.py::UVPSpec.get_data"]}
{"id": "C255", "title": "Delay adjustment with identity weighting", "statement": "With identity weighting (real non-negative weights, some channel used by both) scalar_delay_adjustment never reports a band-dependent normalization; its value is N_dlys/N_freqs times the ratio of the sums of weight products over aliased channel pairs without and with the sinc factor (times the mean squared taper), equals the mean squared taper if N_dlys = N_freqs, is N_dlys/N_freqs with sampling and at least that without; for fully flagged data it is N_dlys/N_freqs times the mean squared taper.", "quantifier": "all weights, tapers, numbers of delays and channels", "why_tests_cant": "all sizes and real weights", "anchors": ["src/hera_pspec/pspecdata.py::PSpecData.scalar_delay_adjustment", "src/hera_pspec/pspecdata.py::PSpecData.get_G", "src/hera_pspec/pspecdata.py::PSpecData.get_H"]}
{"id": "C256", "title": "Delay adjustment with other weightings", "statement": "With other weightings scalar_delay_adjustment never fails and gives at each delay N_dlys/N_freqs times the ratio of the row sums of G and H and the mean squared taper.", "quantifier": "all matrices with non-zero row sums", "why_tests_cant": "real matrices", "anchors": ["src/hera_pspec/pspecdata.py::PSpecData.scalar_delay_adjustment"]}
{"id": "C257", "title": "Exact spherical window functions are distributions", "statement": "For non-negative cylindrical windows and one polarization, each row of the window functions returned by spherical_wf_from_uvp is a non-negative distribution over the theory bins (sums to one), or zero when no mode or no weight falls into the bin, provided some theory bin receives weight; edges that do not increase, objects without exact windows and unknown windows are refused with AssertionError; there is one entry for each window asked for (all by default).", "quantifier": "all objects, bin edges, windows", "why_tests_cant": "real-valued edges and arrays of any size", "anchors": ["src/hera_pspec/grouping.py::spherical_wf_from_uvp"]}
{"id": "C258", "title": "Exact spherical windows of a time", "statement": "The exact spherical window functions of a time are computed from the rows of that time of every group.", "quantifier": "all averaged objects with any numbers of groups and times", "why_tests_cant": "row order matters only for several groups and times", "anchors": ["src/hera_pspec/grouping.py::spherical_wf_from_uvp"]}
{"id": "C259", "title": "Exact spherical windows of several polarizations", "statement": "spherical_wf_from_uvp works for objects with several polarization pairs.", "quantifier": "all objects", "why_tests_cant": "tests use one polarization", "anchors": ["src/hera_pspec/grouping.py::spherical_wf_from_uvp"]}
{"id": "C260", "title": "Rows without theory bins", "statement": "Every row of the exact spherical window functions sums to one or is zero.", "quantifier": "all objects and theory bins", "why_tests_cant": "values of uninitialised memory", "anchors": ["src/hera_pspec/grouping.py::spherical_wf_from_uvp"]}
{"id": "C261", "title": "Units of the bin edges", "statement": "The bin edges given to spherical_wf_from_uvp are interpreted with or without h as little_h says and converted to the units of the object, for the modes and for the theory bins.", "quantifier": "all edges, h, and units of the object", "why_tests_cant": "all real values", "anchors": ["src/hera_pspec/grouping.py::spherical_wf_from_uvp"]}
{"id": "C262", "title": "Caller's bin edges", "statement": "spherical_wf_from_uvp leaves the arrays of edges of the caller unchanged, and one array given for both arguments is used as two equal arrays are.", "quantifier": "all edges and units", "why_tests_cant": "aliasing", "anchors": ["src/hera_pspec/grouping.py::spherical_wf_from_uvp"]}
{"id": "C263", "title": "Flagged channels and weighting", "statement": "For identity, inverse covariance and dayenu weighting, with any symmetric tapering or filter extension, the column (and row) of the weighting matrix of a channel flagged at all times is zero, so that the weighted visibilities do not depend on those of flagged channels.", "quantifier": "all flag patterns, covariances, filter parameters and states of the object", "why_tests_cant": "all real matrices", "anchors": ["src/hera_pspec/pspecdata.py::PSpecData.R", "src/hera_pspec/pspecdata.py::PSpecData.Y"]}
{"id": "C264", "title": "Delays of a window", "statement": "The delays of n bins for channels of median spacing dnu are (i - floor(n/2)) / (n dnu), i = 0..n-1: increasing in steps of 1/(n dnu), zero exactly at floor(n/2), within [-1/(2 dnu), 1/(2 dnu)); PSpecData.delays returns these in ns, and IndexError without datasets.", "quantifier": "all frequency arrays and numbers of delays", "why_tests_cant": "all sizes and real spacings", "anchors": ["src/hera_pspec/utils.py::get_delays", "src/hera_pspec/pspecdata.py::PSpecData.delays"]}
{"id": "C265", "title": "Physical and dimensionless response matrices", "statement": "For evenly spaced channels get_Q (physical units) of a mode equals get_Q_alt of this mode; for any channels it is Hermitian, of rank one and with entries of modulus one.", "quantifier": "all windows, numbers of delays and modes", "why_tests_cant": "all sizes; rounding hides errors", "anchors": ["src/hera_pspec/pspecdata.py::PSpecData.get_Q", "src/hera_pspec/utils.py::get_Q_alt"]}
{"id": "C266", "title": "Modes outside the range of delays", "statement": "get_Q refuses with IndexError every mode that is not one of the delay modes, as get_Q_alt does.", "quantifier": "all integer modes", "why_tests_cant": "negative modes are not tested", "anchors": ["src/hera_pspec/pspecdata.py::PSpecData.get_Q"]}
{"id": "C267", "title": "Beam integral of two channels", "statement": "get_integral_beam is symmetric and positive semidefinite, its entries obey Cauchy-Schwarz, its diagonal is the area of the squared response over the squared area, at least 1/(4 pi) over the whole sky, and for responses within [0,1] entries lie between 0 and the inverse area of either channel; beams without a response give ones, wrongly formatted beams and unknown polarizations ValueError.", "quantifier": "all beams, polarizations and windows", "why_tests_cant": "all real responses", "anchors": ["src/hera_pspec/pspecdata.py::PSpecData.get_integral_beam", "src/hera_pspec/pspecbeam.py::PSpecBeamUV.beam_normalized_response"]}
{"id": "C268", "title": "Beam integral of an unknown polarization", "statement": "If the polarization is not in the beam, get_integral_beam assumes a uniform isotropic beam.", "quantifier": "all beams and polarizations", "why_tests_cant": "documentation against behaviour", "anchors": ["src/hera_pspec/pspecdata.py::PSpecData.get_integral_beam"]}
{"id": "C269", "title": "Gaussian Fourier beams", "statement": "FTBeam.gaussian gives, for each frequency, a positive map, symmetric under exchange of the axes and reflection about the centre pixel floor(npix/2), greatest there with value pi w^2 / (2 mapsize), and Gaussian in the distance to it; fewer than three frequencies or a list of another number of widths are refused with ValueError.", "quantifier": "all frequencies, widths, map sizes and numbers of pixels", "why_tests_cant": "all sizes and real values", "anchors": ["src/hera_pspec/uvwindow.py::FTBeam.gaussian"]}
{"id": "C270", "title": "One width for all frequencies", "statement": "A list of one width given to FTBeam.gaussian is used for all frequencies.", "quantifier": "all calls with a list of one width", "why_tests_cant": "documentation against behaviour", "anchors": ["src/hera_pspec/uvwindow.py::FTBeam.gaussian"]}
{"id": "C271", "title": "Fourier beams from files", "statement": "FTBeam.from_file takes the polarization from what stands between the last underscore and the next dot of the path, has the frequencies, maps and map size of the file, and reading a spectral window is reading the file and restricting it to that window; get_bandwidth returns the frequencies of the file.", "quantifier": "all paths, files and windows", "why_tests_cant": "arbitrary paths and contents", "anchors": ["src/hera_pspec/uvwindow.py::FTBeam.from_file", "src/hera_pspec/uvwindow.py::FTBeam.update_spw", "src/hera_pspec/uvwindow.py::FTBeam.get_bandwidth"]}
{"id": "C272", "title": "Clearing chosen cache entries", "statement": "clear_cache(cov_keys) removes the covariances and their inverses of exactly the given keys and nothing else; in particular the weighting matrices cached by R stay.", "quantifier": "all caches and lists of keys", "why_tests_cant": "arbitrary histories of the caches", "anchors": ["src/hera_pspec/pspecdata.py::PSpecData.clear_cache"]}
{"id": "C273", "title": "Which covariance is returned", "statement": "C_model returns the given known covariance of its key if there is one (cut to the window), else the cached one, else the computed one; an unknown model is a ValueError, a model other than empirical without a time an AssertionError; a call that fails leaves all caches as they were and a successful one changes the cache of its own key only.", "quantifier": "all cache contents, keys, models, times and known covariances", "why_tests_cant": "arbitrary histories of the caches", "anchors": ["src/hera_pspec/pspecdata.py::PSpecData.C_model"]}
{"id": "C274", "title": "A known covariance stays", "statement": "Once C_model was given a known covariance for a key, every later call for this key without known covariance returns the same matrix until the cache is cleared, and after clear_cache the computed covariance is returned.", "quantifier": "all histories, whatever happens to the data in between", "why_tests_cant": "stale caches need histories of calls", "anchors": ["src/hera_pspec/pspecdata.py::PSpecData.C_model", "src/hera_pspec/pspecdata.py::PSpecData.clear_cache"]}
{"id": "C275", "title": "Empirical covariances ignore the time", "statement": "With model empirical the time argument of C_model has no effect on the result or the caches.", "quantifier": "all states, times and keys", "why_tests_cant": "arbitrary histories", "anchors": ["src/hera_pspec/pspecdata.py::PSpecData.C_model"]}
{"id": "C276", "title": "Cross covariance models", "statement": "cross_covar_model returns a given known covariance whose key is exactly (key1, key2, model, time, conj_1, conj_2), cut to the window; otherwise for the models dsets and autos the zero matrix, for empirical the empirical covariance of the two keys, for any other model ValueError.", "quantifier": "all keys, models, times, conjugations and dictionaries", "why_tests_cant": "arbitrary dictionaries", "anchors": ["src/hera_pspec/pspecdata.py::PSpecData.cross_covar_model"]}
{"id": "C277", "title": "Known empirical cross covariances", "statement": "A known cross covariance given under the key that C_model uses for empirical covariances (time None) is used by cross_covar_model.", "quantifier": "all keys and times", "why_tests_cant": "the two functions build their keys differently", "anchors": ["src/hera_pspec/pspecdata.py::PSpecData.cross_covar_model", "src/hera_pspec/pspecdata.py::PSpecData.C_model"]}
{"id": "C278", "title": "Documented keys of known covariances", "statement": "Known covariances given under the five-component keys of the documentation are used.", "quantifier": "all keys and dictionaries", "why_tests_cant": "documentation against behaviour", "anchors": ["src/hera_pspec/pspecdata.py::PSpecData.C_model", "src/hera_pspec/pspecdata.py::PSpecData.cross_covar_model"]}
{"id": "C279", "title": "The inverse follows the covariance", "statement": "After every history of calls of C_model, iC, R, set_C and clear_cache, with data and window changing in between, what iC returns is the inverse of what C_model returns for the same key, model and time (empirical without time, other models with time).", "quantifier": "all histories of calls", "why_tests_cant": "unbounded histories", "anchors": ["src/hera_pspec/pspecdata.py::PSpecData.iC", "src/hera_pspec/pspecdata.py::PSpecData.C_model"]}
{"id": "C280", "title": "The inverse of an empirical covariance with a time", "statement": "iC with model empirical and a time is the inverse of what C_model returns for the same arguments.", "quantifier": "all histories", "why_tests_cant": "keys differ between the two caches", "anchors": ["src/hera_pspec/pspecdata.py::PSpecData.iC"]}
{"id": "C281", "title": "Covariances set by hand and R", "statement": "A covariance set with set_C for a key is the one whose inverse R uses if R was not computed for this key before; a weighting matrix once computed is returned by R unchanged whatever set_C is given later; clear_cache forgets all of it.", "quantifier": "all states, keys and matrices", "why_tests_cant": "arbitrary histories", "anchors": ["src/hera_pspec/pspecdata.py::PSpecData.set_C", "src/hera_pspec/pspecdata.py::PSpecData.R", "src/hera_pspec/pspecdata.py::PSpecData.clear_cache"]}
{"id": "C282", "title": "set_C refreshes R", "statement": "After set_C the weighting matrix R is computed from the new covariance.", "quantifier": "all states and matrices", "why_tests_cant": "stale caches need histories", "anchors": ["src/hera_pspec/pspecdata.py::PSpecData.set_C", "src/hera_pspec/pspecdata.py::PSpecData.R"]}
{"id": "C283", "title": "Filter extensions and default weights", "statement": "get_spw with non-negative filter extension gives the extended window whether or not include_extension is set; w returns the weights of the dataset, or one where not flagged and zero where flagged if the dataset has none.", "quantifier": "all windows, extensions, flags and weights", "why_tests_cant": "all values", "anchors": ["src/hera_pspec/pspecdata.py::PSpecData.get_spw", "src/hera_pspec/pspecdata.py::PSpecData.w"]}
{"id": "C284", "title": "Redundant groups", "statement": "get_reds returns three lists of equal length; a group with its length and angle is in the result exactly if it is what remains (not empty) without the excluded antennas of a redundant group whose first baseline passes the cuts in length, angle and east-west length, or of the autocorrelations (length 0, angle 0) if add_autos is set, alone with autos_only; no returned baseline contains an excluded antenna. It fails with IndexError exactly if there is no redundant group.", "quantifier": "all antenna positions, groups, ranges, exclusions and options", "why_tests_cant": "arbitrary arrays of antennas", "anchors": ["src/hera_pspec/utils.py::get_reds"]}
{"id": "C285", "title": "Autocorrelations only", "statement": "With autos_only get_reds returns autocorrelations only.", "quantifier": "all arguments", "why_tests_cant": "option without add_autos is not tested", "anchors": ["src/hera_pspec/utils.py::get_reds"]}
{"id": "C286", "title": "Autocorrelations of one antenna", "statement": "get_reds returns the autocorrelation of an array of one antenna when add_autos and autos_only are set.", "quantifier": "all positions", "why_tests_cant": "degenerate arrays are not tested", "anchors": ["src/hera_pspec/utils.py::get_reds"]}
{"id": "C287", "title": "East-west cut", "statement": "The length compared with bl_EW_min is at least the east component of the baseline, and equals its modulus for baselines in the horizontal plane whose angle is not rounded to zero.", "quantifier": "all vectors and tolerances", "why_tests_cant": "all real vectors", "anchors": ["src/hera_pspec/utils.py::get_reds", "src/hera_pspec/utils.py::get_bl_lens_angs"]}
{"id": "C288", "title": "East-west cut of inclined baselines", "statement": "No returned group has an east-west length below bl_EW_min.", "quantifier": "all positions", "why_tests_cant": "needs baselines with a vertical component", "anchors": ["src/hera_pspec/utils.py::get_reds"]}
{"id": "C289", "title": "Beam integrals of several polarizations", "statement": "get_Omegas of a list of polarization pairs (integers or tuples of names or numbers) gives in column j the two integrals of the polarization of pair j; it succeeds exactly if each pair has twice the same polarization; one pair is the list of this pair; anything else is a TypeError.", "quantifier": "all lists of polarization pairs", "why_tests_cant": "all lists and notations", "anchors": ["src/hera_pspec/pspecbeam.py::PSpecBeamBase.get_Omegas"]}
{"id": "C290", "title": "Polarization validation", "statement": "validate_pol is true exactly if the first polarization is in the first dataset and the second in the second, names being numbered with the x orientation of the first dataset of the object.", "quantifier": "all datasets and polarization pairs", "why_tests_cant": "all combinations", "anchors": ["src/hera_pspec/pspecdata.py::PSpecData.validate_pol"]}
{"id": "C291", "title": "Polarization validation with own orientation", "statement": "validate_pol accepts a polarization pair whose names, numbered with the x orientations of the two datasets, are in these datasets.", "quantifier": "all datasets", "why_tests_cant": "needs datasets of different orientation", "anchors": ["src/hera_pspec/pspecdata.py::PSpecData.validate_pol"]}
{"id": "C292", "title": "Units of a power spectrum", "statement": "units returns the visibility units of the first dataset, and volume units with h^-3 exactly if little_h is set and a beam is given, the string that the normalization is not specified without beam; IndexError without datasets.", "quantifier": "all datasets, beams and options", "why_tests_cant": "all combinations", "anchors": ["src/hera_pspec/pspecdata.py::PSpecData.units"]}
{"id": "C293", "title": "Units of several datasets", "statement": "The units returned are those of every dataset.", "quantifier": "all datasets", "why_tests_cant": "datasets of mixed units", "anchors": ["src/hera_pspec/pspecdata.py::PSpecData.units"]}
{"id": "C294", "title": "Edges of spherical k bins", "statement": "For ascending k bins the edges are at the first centre plus (i - 1/2) times the mean spacing, i = 0..n; evenly spaced bins are accepted for every start and spacing; bins whose spacing varies by more than the tolerance are a ValueError.", "quantifier": "all lists of real centres", "why_tests_cant": "all real values and sizes", "anchors": ["src/hera_pspec/uvwindow.py::UVWindow.cylindrical_to_spherical", "src/hera_pspec/uvwindow.py::UVWindow.get_spherical_wf"]}
{"id": "C295", "title": "Descending k bins", "statement": "Bins that pass the test of linear spacing have one more edge than bins.", "quantifier": "all lists of centres", "why_tests_cant": "descending bins are not tested", "anchors": ["src/hera_pspec/uvwindow.py::UVWindow.cylindrical_to_spherical"]}
{"id": "C296", "title": "What cylindrical_to_spherical accepts", "statement": "For ascending bins cylindrical_to_spherical succeeds exactly if there are as many weights as lengths, as many lengths as rows (one if the array has no axis of baselines), ktot has the shape of the last two axes, there are two or more linearly spaced bins in units consistent with little_h, and as many delays as the object has.", "quantifier": "all shapes, bins and units", "why_tests_cant": "all shapes", "anchors": ["src/hera_pspec/uvwindow.py::UVWindow.cylindrical_to_spherical"]}
{"id": "C297", "title": "Rows of spherical window functions", "statement": "For non-negative cylindrical window functions and weights every row of the spherical ones is non-negative and sums to one or is zero.", "quantifier": "all window functions, lengths, weights and bins", "why_tests_cant": "all real values", "anchors": ["src/hera_pspec/uvwindow.py::UVWindow.cylindrical_to_spherical"]}
{"id": "C298", "title": "Mean k of a bin", "statement": "The second result of cylindrical_to_spherical lies, for each bin, within the bin if a mode of a baseline falls in it, and is 0 otherwise.", "quantifier": "all lengths, delays and bins", "why_tests_cant": "all real values", "anchors": ["src/hera_pspec/uvwindow.py::UVWindow.cylindrical_to_spherical"]}
{"id": "C299", "title": "Weighted k modes", "statement": "The weighted k of a bin is the mean of the modes in it weighted with the baseline weights.", "quantifier": "all weights", "why_tests_cant": "equal weights hide it", "anchors": ["src/hera_pspec/uvwindow.py::UVWindow.cylindrical_to_spherical"]}
{"id": "C300", "title": "Warning on empty bins", "statement": "cylindrical_to_spherical warns whenever a bin contains no mode.", "quantifier": "all bins and modes", "why_tests_cant": "all real values", "anchors": ["src/hera_pspec/uvwindow.py::UVWindow.cylindrical_to_spherical"]}
{"id": "C301", "title": "Warning on bins with modes", "statement": "With positive weights cylindrical_to_spherical warns of empty bins only if a bin contains no mode.", "quantifier": "all bins, modes and weights", "why_tests_cant": "weights below one are not tested", "anchors": ["src/hera_pspec/uvwindow.py::UVWindow.cylindrical_to_spherical"]}
{"id": "C302", "title": "Spherical window functions of sets of baselines", "statement": "The result of get_spherical_wf does not depend on the order of the baselines; a length listed twice with weights w1 and w2 counts as once with w1 + w2; missing weights are ones; another number of weights than lengths is a ValueError; it succeeds only for at least one length and two bins.", "quantifier": "all lists of lengths and weights, bins and window functions", "why_tests_cant": "all lists", "anchors": ["src/hera_pspec/uvwindow.py::UVWindow.get_spherical_wf", "src/hera_pspec/uvwindow.py::UVWindow.cylindrical_to_spherical"]}
{"id": "C303", "title": "Level of simulated noise", "statement": "noise_sim without extension returns an object with the rows of the given one whose visibilities are complex Gaussian deviates of the seeded generator times Tsys / sqrt(integration time x samples x channel width), over sqrt(2) for pseudo-Stokes polarizations, times the beam's Kelvin-to-Jy factor over a further sqrt(2) for these if a beam is given; visibilities without samples are not finite and flagged, other flags stay (or are cleared by whiten).", "quantifier": "all objects, temperatures, beams, seeds and options", "why_tests_cant": "all real values; statistical tests have tolerances", "anchors": ["src/hera_pspec/testing.py::noise_sim"]}
{"id": "C304", "title": "Noise in Jy", "statement": "The noise simulated with a beam is the noise in Kelvin steradian converted to Jy by the beam.", "quantifier": "all beams and polarizations", "why_tests_cant": "pseudo-Stokes polarizations with beam are tested with tolerances only", "anchors": ["src/hera_pspec/testing.py::noise_sim"]}
{"id": "C305", "title": "Reproducible noise", "statement": "With a seed the result of noise_sim does not depend on the state of the random number generator.", "quantifier": "all objects, options and generator states", "why_tests_cant": "all generator states", "anchors": ["src/hera_pspec/testing.py::noise_sim"]}
{"id": "C306", "title": "Noise and the caller's object", "statement": "noise_sim with inplace False leaves the caller's object as it was, also when it fails; without extension in time, inplace True leaves in the caller's object what inplace False would return, and returns None.", "quantifier": "all objects and options", "why_tests_cant": "aliasing over all options", "anchors": ["src/hera_pspec/testing.py::noise_sim"]}
{"id": "C307", "title": "In-place noise with extension", "statement": "With inplace True the caller's object contains the noise afterwards.", "quantifier": "all numbers of extensions", "why_tests_cant": "combination of options not tested", "anchors": ["src/hera_pspec/testing.py::noise_sim"]}
{"id": "C308", "title": "Extension in time", "statement": "Data of N evenly spaced times extended n times have (n + 1) times as many rows, block j being j (j + 1) / 2 lengths N dt later than the data; extended once, the times are 2 N evenly spaced ones.", "quantifier": "all time grids and numbers of extensions", "why_tests_cant": "all sizes", "anchors": ["src/hera_pspec/testing.py::noise_sim"]}
{"id": "C309", "title": "Contiguous extension", "statement": "Data of N evenly spaced times extended n times cover (n + 1) N evenly spaced times.", "quantifier": "all numbers of extensions", "why_tests_cant": "tests extend a few times and look at the number of times", "anchors": ["src/hera_pspec/testing.py::noise_sim"]}
{"id": "C310", "title": "Gaussian foregrounds", "statement": "gauss_cov_fg draws from a covariance that is symmetric, cov_amp on the diagonal, between 0 and cov_amp and decreasing with the frequency separation; the result is the same at all times if constant in time, otherwise one draw per time, with separate draws for real and imaginary parts.", "quantifier": "all frequencies, amplitudes, scales and generators", "why_tests_cant": "all real values", "anchors": ["src/hera_pspec/testing.py::gauss_cov_fg"]}
{"id": "C311", "title": "Radiometer equation of simulated noise", "statement": "The level of sky_noise_jy_autos is the autocorrelation plus the receiver temperature in Jy (2 k Omega f^2 / c^2 x 1e26 Trx) over sqrt(integration time x channel width).", "quantifier": "all positive parameters", "why_tests_cant": "all real values", "anchors": ["src/hera_pspec/testing.py::sky_noise_jy_autos"]}
{"id": "C312", "title": "Sky and noise simulation", "statement": "sky_noise_sim keeps the autocorrelations and replaces each cross-correlation by noise of the level given by the geometric mean of the two autocorrelations of its polarization (of pI for pQ, pU, pV), divided by sqrt(samples) if asked for (no noise where there are no samples), plus a signal that is common to all baselines or drawn for each, and constant in time if asked for; cross-hand polarizations are an AssertionError, missing autocorrelations a KeyError.", "quantifier": "all objects, beams, options and generators", "why_tests_cant": "all real values and sets of baselines", "anchors": ["src/hera_pspec/testing.py::sky_noise_sim"]}
{"id": "C313", "title": "Reproducible sky simulation per baseline", "statement": "With bl_loop_seed and a signal drawn per baseline the result does not depend on the state of the generator.", "quantifier": "all objects and generator states", "why_tests_cant": "all generator states", "anchors": ["src/hera_pspec/testing.py::sky_noise_sim"]}
{"id": "C314", "title": "Reproducible sky simulation", "statement": "With bl_loop_seed the result does not depend on the state of the generator.", "quantifier": "all options and generator states", "why_tests_cant": "the common signal is drawn before seeding", "anchors": ["src/hera_pspec/testing.py::sky_noise_sim"]}
{"id": "C315", "title": "Baseline-pairs of uvpspec_from_data", "statement": "uvpspec_from_data forms exactly the pairs of two baselines of one group, the earlier first, no baseline with itself; a plain list of baselines is one group; what is not a list, an empty list and mixed lists are refused.", "quantifier": "all groups of baselines", "why_tests_cant": "all groups", "anchors": ["src/hera_pspec/testing.py::uvpspec_from_data"]}
{"id": "C316", "title": "Selections combine", "statement": "Two calls of select whose arguments are of different kinds (windows; baselines or baseline-pairs; times or LSTs; polarization-pairs) leave the object one call with all the arguments leaves, the calls may be made in either order, and one order succeeds exactly when the single call does. bls and blpairs are one kind: in one call they are alternatives, in two calls conditions.", "quantifier": "all valid objects and pairs of argument lists", "why_tests_cant": "all objects, argument lists and orders of calls", "anchors": ["src/hera_pspec/uvpspec_utils.py::_select", "src/hera_pspec/uvpspec.py::UVPSpec.select"]}
{"id": "C317", "title": "Selections can be repeated", "statement": "Repeating a selection that names no windows changes nothing. (Windows are renumbered, so the second call of a selection of windows may fail.)", "quantifier": "all valid objects and argument lists", "why_tests_cant": "all objects and argument lists", "anchors": ["src/hera_pspec/uvpspec_utils.py::_select", "src/hera_pspec/uvpspec.py::UVPSpec.select"]}
{"id": "C318", "title": "Selecting and folding commute", "statement": "For a selection that names no windows, folding the selected object and selecting from the folded object give the same object. (If windows are named the delay arrays differ.)", "quantifier": "all valid objects without window functions and covariances, all selections", "why_tests_cant": "all objects and selections", "anchors": ["src/hera_pspec/uvpspec_utils.py::_select", "src/hera_pspec/grouping.py::fold_spectra"]}
{"id": "C319", "title": "No cross-talk in averages", "statement": "The averaged spectrum, integration time and number of samples of a group of baseline-pairs depend only on what is stored for its members in that window and polarization and on its weights, not on other baseline-pairs, windows, polarizations, groups or the order of the groups.", "quantifier": "all pairs of valid objects and lists of groups", "why_tests_cant": "all pairs of objects", "anchors": ["src/hera_pspec/grouping.py::average_spectra"]}
{"id": "C320", "title": "Selecting and averaging commute", "statement": "Averaging after a selection of windows or polarization-pairs gives the spectra, integration times and numbers of samples that averaging the whole object gives.", "quantifier": "all valid objects, selections and groups", "why_tests_cant": "all objects, selections and groups", "anchors": ["src/hera_pspec/grouping.py::average_spectra", "src/hera_pspec/uvpspec_utils.py::_select"]}
{"id": "C321", "title": "Folding and averaging commute", "statement": "Folding the average of an object and averaging the folded object give the same spectra, bin by bin.", "quantifier": "all valid unfolded objects with at least three delays and positive total weights, all groups", "why_tests_cant": "all objects and groups", "anchors": ["src/hera_pspec/grouping.py::average_spectra", "src/hera_pspec/grouping.py::fold_spectra"]}
{"id": "C322", "title": "Splitting by rows can be undone", "statement": "If select splits an object into two or more parts by baselines, baseline-pairs, times or LSTs so that every blpair-time is in exactly one part, combine_uvpspec of the parts, in any order, succeeds and stores exactly what the object stored: the same data, weights, times, scalars and baseline vectors under the same window, blpair-time and polarization-pair.", "quantifier": "all valid objects without repeated entries and all splits", "why_tests_cant": "all objects and splits", "anchors": ["src/hera_pspec/uvpspec_utils.py::_select", "src/hera_pspec/uvpspec.py::combine_uvpspec"]}
{"id": "C323", "title": "Splitting by polarization-pairs can be undone", "statement": "The same for a split by polarization-pairs, if the rounded times tell the blpair-times apart.", "quantifier": "all valid objects without repeated entries and all splits", "why_tests_cant": "all objects and splits", "anchors": ["src/hera_pspec/uvpspec_utils.py::_select", "src/hera_pspec/uvpspec.py::combine_uvpspec"]}
{"id": "C324", "title": "Splitting by windows can be undone", "statement": "The same for a split by spectral windows of an object that is not folded. (Of a folded object select drops the delays that are not positive from the delay axis, so the combined object lists other delays.)", "quantifier": "all valid unfolded objects without repeated entries and all splits", "why_tests_cant": "all objects and splits", "anchors": ["src/hera_pspec/uvpspec_utils.py::_select", "src/hera_pspec/uvpspec.py::combine_uvpspec"]}
{"id": "C325", "title": "set_R persists", "statement": "A matrix given to set_R is what R returns, from then on and through any history of calls, whenever the dataset, weighting, taper (and for dayenu the window and extension) are those of its key, until clear_cache; set_R changes no setting and no matrix under other keys.", "quantifier": "all objects, dictionaries and later histories of calls", "why_tests_cant": "all histories", "anchors": ["src/hera_pspec/pspecdata.py::PSpecData.set_R", "src/hera_pspec/pspecdata.py::PSpecData.R"]}
{"id": "C326", "title": "Weighting parameters belong to the weighting selected at the call", "statement": "Over any history of calls, the parameters set_r_param stored for a baseline under a weighting are the last ones given while that weighting was selected; under dayenu weighting R fails for a baseline whose parameters were given only under another weighting.", "quantifier": "all histories of calls", "why_tests_cant": "all histories", "anchors": ["src/hera_pspec/pspecdata.py::PSpecData.set_r_param", "src/hera_pspec/pspecdata.py::PSpecData.R"]}
{"id": "C327", "title": "The synthetic object", "statement": "build_vanilla_uvpspec gives a valid object without repeated entries for every number of delays and choice of times: each of the 3 baseline-pairs has each of the 10 times exactly once, with data blpair/1e9. (Tiling both axes gives all combinations because 3 and 10 have no common factor; with a common factor it would not.)", "quantifier": "all numbers of delays, both choices of times; all pairs of axes", "why_tests_cant": "all sizes", "anchors": ["src/hera_pspec/testing.py::build_vanilla_uvpspec"]}
{"id": "C328", "title": "The log file", "statement": "After any sequence of calls of log the file holds the indented messages (and tracebacks) of the calls that named it, one after the other, and what was printed are those of the verbose calls. (No line break is written between messages, so they cannot be told apart.)", "quantifier": "all sequences of calls", "why_tests_cant": "all sequences", "anchors": ["src/hera_pspec/utils.py::log"]}
{"id": "C329", "title": "Loading files", "statement": "_load_dsets returns one object per entry, in order, read from the files the entry names or matches, and records these files; the first entry that cannot be read is the error. _load_cals returns the objects likewise, but records the pattern, not the files.", "quantifier": "all lists of entries, all file systems", "why_tests_cant": "all file systems", "anchors": ["src/hera_pspec/pspecdata.py::_load_dsets", "src/hera_pspec/pspecdata.py::_load_cals"]}
{"id": "C330", "title": "Distinct values in order of appearance", "statement": "_ordered_unique returns each distinct value once, in the order of the first places, and nothing else.", "quantifier": "all arrays", "why_tests_cant": "all arrays", "anchors": ["src/hera_pspec/uvpspec.py::_ordered_unique", "src/hera_pspec/uvpspec.py::UVPSpec.get_all_keys"]}
{"id": "C331", "title": "Time differences of a pair of datasets", "statement": "pspecdata_time_difference succeeds exactly for two datasets whose differences succeed and returns both differences with the old weights, labels dset0 and dset1 and no error sets; fewer or more datasets are an error.", "quantifier": "all PSpecData objects with one weight per dataset", "why_tests_cant": "all objects", "anchors": ["src/hera_pspec/utils.py::pspecdata_time_difference"]}
{"id": "C332", "title": "Averaged covariances are propagated", "statement": "average_spectra stores, for the average sum m_k w_k x_k / sum m_k w_k of independent spectra, the covariance sum m_k a_k a_k C_k with a_k = w_k / sum m w, over the members of a group, and over all integrations of all members with time averaging, as long as the total weights are at least 1e-40.", "quantifier": "all groups, multiplicities, weights per bin or per spectrum, and covariances", "why_tests_cant": "all matrices", "anchors": ["src/hera_pspec/grouping.py::average_spectra", "src/hera_pspec/uvpspec.py::UVPSpec.get_cov"]}
{"id": "C333", "title": "Averaged covariances stay covariances", "statement": "Averages of symmetric covariances are symmetric, of positive semi-definite ones positive semi-definite, and if the diagonals are the squares of the error bars, so is the diagonal of the average.", "quantifier": "all groups, weights and covariances", "why_tests_cant": "all matrices and vectors", "anchors": ["src/hera_pspec/grouping.py::average_spectra"]}
{"id": "C334", "title": "The covariance of a bootstrap draw", "statement": "A baseline-pair that is drawn several times contributes to the covariance as the one spectrum that it is.", "quantifier": "all draws", "why_tests_cant": "all multiplicities", "anchors": ["src/hera_pspec/grouping.py::average_spectra", "src/hera_pspec/grouping.py::bootstrap_average_blpairs"]}
{"id": "C335", "title": "Frequency weights are averaged", "statement": "The weights of the averaged object are the mean of the weights of the members, weighted like the spectra (by the weight of the first delay bin), lie between the smallest and the largest, and averaging in time first changes nothing.", "quantifier": "all groups and weights with a total of at least 1e-40", "why_tests_cant": "all values", "anchors": ["src/hera_pspec/grouping.py::average_spectra"]}
{"id": "C336", "title": "Error bars of all sizes survive time averaging", "statement": "With time averaging, the error bar of the average is sqrt(sum (w e)^2) / sum w over all integrations of all members.", "quantifier": "all error bars and weights", "why_tests_cant": "all values", "anchors": ["src/hera_pspec/grouping.py::average_spectra"]}
{"id": "C337", "title": "Baselines of the averaged object", "statement": "bl_array of the averaged object is ascending and holds exactly the baselines of the first baseline-pair of each group, and entry i of bl_vecs is the vector that the input has for baseline i.", "quantifier": "all groups and baseline arrays", "why_tests_cant": "all arrays", "anchors": ["src/hera_pspec/grouping.py::average_spectra"]}
{"id": "C338", "title": "Time pairs within the tolerance are counted once", "statement": "Ntpairs of the averaged object counts pairs of times that differ by less than time_tol once and those that differ by more separately.", "quantifier": "all time arrays and tolerances", "why_tests_cant": "all times", "anchors": ["src/hera_pspec/grouping.py::average_spectra"]}
{"id": "C339", "title": "SWMR containers take no new spectra", "statement": "On a container opened read-write with swmr=True, set_pspec of a name that is not stored raises ValueError and changes nothing that is stored, and set_pspec of a stored name behaves as without SWMR: it replaces the spectrum with overwrite and is refused without.", "quantifier": "all files, histories, names and objects", "why_tests_cant": "every history of calls and every file", "anchors": ["src/hera_pspec/container.py::PSpecContainer.set_pspec", "src/hera_pspec/container.py::PSpecContainer.tree"]}
{"id": "C340", "title": "Statistics of averaged spectra", "statement": "average_spectra stores exactly the statistics named in error_field (None, a string or a sequence of strings) and in error_weights, each once, and none if none is named; a name the object does not have is a KeyError, an object without statistics an AttributeError, other arguments a TypeError.", "quantifier": "all arguments and objects", "why_tests_cant": "all lists of names", "anchors": ["src/hera_pspec/grouping.py::average_spectra", "src/hera_pspec/grouping.py::_normalize_stat_names"]}
{"id": "C341", "title": "Each statistic is averaged on its own", "statement": "A statistic named once is averaged as if it were the only one named: every bin is the error bar of the weighted mean over all copies of the members of its group (and over the integrations with time_avg), whatever other names stand in the list.", "quantifier": "all lists of names without repetition, weights, groups and statistics", "why_tests_cant": "all names and arrays", "anchors": ["src/hera_pspec/grouping.py::average_spectra"]}
{"id": "C342", "title": "Repeated names of statistics", "statement": "Naming a statistic twice in error_field gives the statistic that naming it once gives.", "quantifier": "all lists of names", "why_tests_cant": "all lists", "anchors": ["src/hera_pspec/grouping.py::average_spectra"]}
{"id": "C343", "title": "Averaging with error_weights is optimal", "statement": "The averaged error bar of the statistic used as error_weights is (sum e^-2)^-1/2, not above that of any member, and no other weights give a smaller one.", "quantifier": "all error bars within 1e-20 .. 1e20 and all weights", "why_tests_cant": "all lists of errors and weights", "anchors": ["src/hera_pspec/grouping.py::average_spectra"]}
{"id": "C344", "title": "Weights of baseline-pairs in no group", "statement": "With blpair_weights, baseline-pairs that are in no group are averaged alone with weight one.", "quantifier": "all groups and lists of weights", "why_tests_cant": "all lists", "anchors": ["src/hera_pspec/grouping.py::average_spectra", "src/hera_pspec/grouping.py::_normalize_grouped_input"]}
{"id": "C345", "title": "Pseudo-Stokes files from the command line", "statement": "generate_pstokes_run.py --pstokes a b ... writes a file that holds each requested pseudo-Stokes parameter, formed from the input, and with --keep_vispols all polarizations of the input; nothing else and nothing twice. However it ends, no other file changes, and none if it fails.", "quantifier": "all file systems, input objects, lists of parameters and options", "why_tests_cant": "all objects and argument lists", "anchors": ["scripts/generate_pstokes_run.py", "src/hera_pspec/pstokes.py::generate_pstokes_argparser", "src/hera_pspec/pstokes.py::construct_pstokes"]}
{"id": "C346", "title": "Default pseudo-Stokes parameter", "statement": "Without --pstokes the script makes pI, as its help says.", "quantifier": "all inputs and other options", "why_tests_cant": "all inputs", "anchors": ["scripts/generate_pstokes_run.py", "src/hera_pspec/pstokes.py::generate_pstokes_argparser"]}
{"id": "C347", "title": "Default output of generate_pstokes_run", "statement": "Without --outputdata the pseudo-Stokes parameters are appended to the linear polarizations of the input file; with it, the output includes the original linear polarizations (help of --outputdata).", "quantifier": "all inputs and options", "why_tests_cant": "all inputs", "anchors": ["scripts/generate_pstokes_run.py", "src/hera_pspec/pstokes.py::generate_pstokes_argparser"]}
{"id": "C348", "title": "Error bars from the command line", "statement": "auto_noise_run.py without --spectra replaces every spectrum of the chosen groups (default: all) by its version with error bars, and changes nothing else; if it fails, exactly the spectra before the failing one, in the order of the visits, have been replaced.", "quantifier": "all containers, groups and outcomes of the error computation", "why_tests_cant": "all contents and failures", "anchors": ["scripts/auto_noise_run.py", "src/hera_pspec/utils.py::uvp_noise_error_parser"]}
{"id": "C349", "title": "The option --spectra of auto_noise_run", "statement": "With --spectra the error bars of the named spectra are computed.", "quantifier": "all containers and names", "why_tests_cant": "all arguments", "anchors": ["scripts/auto_noise_run.py", "src/hera_pspec/utils.py::uvp_noise_error_parser"]}
{"id": "C350", "title": "Options reach bootstrap_run and pspec_run", "statement": "bootstrap_run.py and pspec_run.py call their functions with the value of each option for the parameter of that name (for pspec_run: include_crosscorrs is the opposite of --exclude_crosscorrs, history the command line), and with the function's defaults for the rest.", "quantifier": "all values of all options, and all names that hera_cal adds to the namespace and filters out", "why_tests_cant": "all values", "anchors": ["scripts/bootstrap_run.py", "scripts/pspec_run.py", "src/hera_pspec/grouping.py::get_bootstrap_run_argparser", "src/hera_pspec/pspecdata.py::get_pspec_run_argparser"]}
{"id": "C351", "title": "Options that bootstrap_run does not know", "statement": "bootstrap_run.py works whatever names parse_args adds to the namespace (pspec_run.py filters them).", "quantifier": "all added names", "why_tests_cant": "all names", "anchors": ["scripts/bootstrap_run.py", "src/hera_pspec/grouping.py::bootstrap_run"]}
{"id": "C352", "title": "Defaults on the command line", "statement": "Running bootstrap_run.py or pspec_run.py without options is calling the function with its defaults.", "quantifier": "all data sets and file names", "why_tests_cant": "all arguments", "anchors": ["scripts/bootstrap_run.py", "scripts/pspec_run.py", "src/hera_pspec/grouping.py::get_bootstrap_run_argparser", "src/hera_pspec/pspecdata.py::get_pspec_run_argparser"]}
{"id": "C353", "title": "Merging spectra from the command line", "statement": "psc_merge_spectra.py calls combine_psc_spectra with the options of its parser.", "quantifier": "all arguments", "why_tests_cant": "all arguments", "anchors": ["scripts/psc_merge_spectra.py", "src/hera_pspec/container.py::get_combine_psc_spectra_argparser", "src/hera_pspec/container.py::combine_psc_spectra"]}
{"id": "C354", "title": "Redundant pipeline", "statement": "pspec_red.py stores the power spectra of every pair of different datasets, after conversion to mK if asked.", "quantifier": "all configurations and numbers and shapes of datasets", "why_tests_cant": "all configurations", "anchors": ["scripts/pspec_red.py", "src/hera_pspec/pspecdata.py::PSpecData.pspec"]}
{"id": "C355", "title": "Datasets, weights, error sets and labels of a PSpecData stay aligned", "statement": "After any history of add calls, refused ones included, the lists of datasets, weights, error sets and labels have one length, and they hold, in order, exactly what the accepted calls gave; a call is accepted exactly when its arguments describe one weight, error set and calibration per dataset.", "quantifier": "all histories of add calls with single objects, lists, tuples, dicts, missing and wrong arguments", "why_tests_cant": "item i of each list must belong to dataset i after every history; tests add one or two lists", "anchors": ["src/hera_pspec/pspecdata.py::PSpecData.add", "src/hera_pspec/pspecdata.py::PSpecData.__init__"]}
{"id": "C356", "title": "A dict of datasets is the lists of its values", "statement": "Adding dicts of datasets, weights, error sets and calibrations does the same as adding the lists of their values under the keys of the datasets, with the keys as labels; extra keys of the other dicts are not used.", "quantifier": "all dicts and all states of the object", "why_tests_cant": "all sets of keys, whatever their order", "anchors": ["src/hera_pspec/pspecdata.py::PSpecData.add"]}
{"id": "C357", "title": "A refused add changes nothing", "statement": "A call of add that raises leaves the object and the contents of the datasets as they were.", "quantifier": "all states and all refused calls", "why_tests_cant": "every way of failing, including in the middle of calibrating", "anchors": ["src/hera_pspec/pspecdata.py::PSpecData.add"]}
{"id": "C358", "title": "Adding datasets starts the channel range over", "statement": "After every accepted add the channel range is all channels of the first dataset, whatever was set with set_spw before; the first dataset never changes.", "quantifier": "all states and all accepted calls", "why_tests_cant": "depends on the whole history of settings", "anchors": ["src/hera_pspec/pspecdata.py::PSpecData.add"]}
{"id": "C359", "title": "Weights may be left out", "statement": "Datasets given without weights, to the constructor or to add, as one object, a list or a dict, are added with no weights.", "quantifier": "all numbers and forms of datasets", "why_tests_cant": "all combinations of forms and numbers", "anchors": ["src/hera_pspec/pspecdata.py::PSpecData.add", "src/hera_pspec/pspecdata.py::PSpecData.__init__"]}
{"id": "C360", "title": "Given error sets are kept", "statement": "An error set given with a dataset is stored with it, whether it is given to the constructor or to add.", "quantifier": "all lists of datasets and error sets", "why_tests_cant": "all patterns of missing error sets", "anchors": ["src/hera_pspec/pspecdata.py::PSpecData.__init__", "src/hera_pspec/pspecdata.py::PSpecData.add"]}
{"id": "C361", "title": "Calibrations are applied once, one per dataset or one for all", "statement": "An accepted call applies the calibration of each dataset once to it and to its error set, in order, and to nothing else; one calibration may be given for all datasets. Integers are dataset indices as they are, labels the position of their dataset.", "quantifier": "all calls with calibrations; all indices", "why_tests_cant": "all numbers of datasets and patterns of calibrations, including the same dataset twice", "anchors": ["src/hera_pspec/pspecdata.py::PSpecData.add", "src/hera_pspec/pspecdata.py::PSpecData.__init__", "src/hera_pspec/pspecdata.py::PSpecData.dset_idx"]}
{"id": "C362", "title": "Spectra drawn by delay_spectrum", "statement": "delay_spectrum draws every integration of every baseline-pair it is given (of an averaged group: of its first baseline-pair, which holds the average), once and in order, under the name of its group, with its time, LST and chosen component; where the integration time is zero it draws nothing.", "quantifier": "all objects, groups, components", "why_tests_cant": "all numbers of groups, baseline-pairs and integrations", "anchors": ["src/hera_pspec/plot.py::delay_spectrum"]}
{"id": "C363", "title": "Statistics and error bars in plots", "statement": "plot_stats draws the named statistic in place of the data and error draws the named statistic as error bars, integration by integration; a name the object does not have is refused.", "quantifier": "all objects and names", "why_tests_cant": "all arrays", "anchors": ["src/hera_pspec/plot.py::delay_spectrum"]}
{"id": "C364", "title": "Plots of averages with error bars", "statement": "delay_spectrum can draw error bars, or a statistic, of spectra averaged over baseline-pairs or times.", "quantifier": "all objects that have the statistic, and all groups", "why_tests_cant": "every object and way of averaging", "anchors": ["src/hera_pspec/plot.py::delay_spectrum", "src/hera_pspec/grouping.py::average_spectra"]}
{"id": "C365", "title": "Unknown components", "statement": "delay_spectrum refuses a component other than real, imag and abs with a ValueError.", "quantifier": "all names and objects", "why_tests_cant": "all names", "anchors": ["src/hera_pspec/plot.py::delay_spectrum"]}
{"id": "C366", "title": "Markers tell signs", "statement": "Markers are filled where a bandpower is positive (or zero) and empty where it is negative, every bandpower that is not blank has one marker.", "quantifier": "all spectra, on both scales", "why_tests_cant": "all arrays of values", "anchors": ["src/hera_pspec/plot.py::delay_spectrum"]}
{"id": "C367", "title": "Lines on a logarithmic scale", "statement": "On a logarithmic scale lines and error bars are drawn at absolute values, so spectra of opposite sign look the same without markers; on a linear scale different spectra give different lines.", "quantifier": "all spectra", "why_tests_cant": "all arrays of values", "anchors": ["src/hera_pspec/plot.py::delay_spectrum"]}
{"id": "C368", "title": "One legend entry per spectrum", "statement": "Each spectrum drawn has one legend entry, its label, in the order of the spectra; with label_type key, blpair and blpairt that is the text of the key, baseline-pair, or baseline-pair and time; other types are a ValueError when there is a spectrum, unless title_legend=False, which gives no labels.", "quantifier": "all lists of spectra and label types", "why_tests_cant": "all lists, and all combinations of lines, markers and scale", "anchors": ["src/hera_pspec/plot.py::delay_spectrum", "src/hera_pspec/plot.py::_get_delay_spectrum_title_and_labels", "src/hera_pspec/plot.py::_format_delay_spectrum_manual_label"]}
{"id": "C369", "title": "Baseline vectors in the local frame", "statement": "get_ENU_bl_vecs gives each stored baseline vector, in its place, as its components to the east, to the north and upwards at the telescope: lengths and angles between baselines are unchanged, equal baselines stay equal and different ones different, a reversed baseline has the opposite vector.", "quantifier": "all locations and vectors", "why_tests_cant": "all real vectors and positions", "anchors": ["src/hera_pspec/uvpspec.py::UVPSpec.get_ENU_bl_vecs"]}
{"id": "C370", "title": "Separations do not depend on the location", "statement": "The separations of get_blpair_seps are, row by row, the mean of the lengths of the two stored baseline vectors, wherever the telescope is.", "quantifier": "all objects and locations", "why_tests_cant": "all real vectors and positions", "anchors": ["src/hera_pspec/uvpspec.py::UVPSpec.get_blpair_seps", "src/hera_pspec/uvpspec.py::UVPSpec.get_ENU_bl_vecs"]}
{"id": "C371", "title": "Spectra made by uvpspec_from_data", "statement": "uvpspec_from_data estimates spectra of the first polarization of the data with itself, for the pairs within the given groups, with the options of the caller, with covariances exactly if an error set is given (then from it), and with the defaults of pspec for all else.", "quantifier": "all data, error sets, groups, beams and options", "why_tests_cant": "all arguments", "anchors": ["src/hera_pspec/testing.py::uvpspec_from_data"]}
{"id": "C372", "title": "Further options of uvpspec_from_data", "statement": "Additional keyword arguments are passed on to PSpecData.pspec.", "quantifier": "all names that are parameters of pspec", "why_tests_cant": "all names and values", "anchors": ["src/hera_pspec/testing.py::uvpspec_from_data", "src/hera_pspec/pspecdata.py::PSpecData.pspec"]}
{"id": "C373", "title": "Data of uvpspec_from_data", "statement": "Data that are neither a path nor a UVData object are refused.", "quantifier": "all arguments", "why_tests_cant": "all arguments", "anchors": ["src/hera_pspec/testing.py::uvpspec_from_data"]}
{"id": "C374", "title": "Keys of datasets", "statement": "check_key_in_dset answers, for an index of a dataset and a polarization, a pair of antennas or both, whether the dataset finds the key; other keys are a KeyError, indices out of range an IndexError; negative indices count from the end.", "quantifier": "all lists of datasets, keys and indices", "why_tests_cant": "all keys and lists", "anchors": ["src/hera_pspec/pspecdata.py::PSpecData.check_key_in_dset"]}
{"id": "C375", "title": "Groups by antenna numbers or by integers", "statement": "average_spectra reads blpair_groups written with antenna-number tuples exactly as it reads the same groups written with baseline-pair integers, whether the sequences are lists or tuples: the same groups are averaged in the same order, or the same error is raised; without blpair_groups every baseline-pair is a group of its own, and blpair_weights are then a ValueError.", "quantifier": "all groups written in one way, and all objects", "why_tests_cant": "all nested sequences", "anchors": ["src/hera_pspec/grouping.py::average_spectra", "src/hera_pspec/grouping.py::_normalize_grouped_input", "src/hera_pspec/uvpspec_utils.py::_antnums_to_blpair"]}
{"id": "C376", "title": "Every baseline-pair of the object is averaged once", "statement": "With blpair_groups that name no baseline-pair twice, average_spectra averages the groups given, in order, and every other baseline-pair of the object on its own, so that each baseline-pair is in exactly one group; with exact window functions only the groups given are averaged.", "quantifier": "all groups of baseline-pairs of the object", "why_tests_cant": "all partitions", "anchors": ["src/hera_pspec/grouping.py::average_spectra"]}
{"id": "C377", "title": "Groups that are refused", "statement": "average_spectra refuses blpair_groups that are not a sequence of sequences (also a flat list of baseline-pairs, as integers or as tuples) with a TypeError, empty groups with a ValueError, an empty list of groups with an IndexError, a group whose first baseline-pair the object does not have with a ValueError, and entries that are no baseline-pairs with an IndexError (too few baselines or antennas in the first entry) or a TypeError (something else in their place, or lists among integers).", "quantifier": "all Python values made of integers, tuples, lists and other objects", "why_tests_cant": "all positions of the first offending group", "anchors": ["src/hera_pspec/grouping.py::average_spectra", "src/hera_pspec/grouping.py::_normalize_grouped_input", "src/hera_pspec/utils.py::get_bl_lens_angs"]}
{"id": "C378", "title": "Mixing antenna numbers and integers in groups", "statement": "In blpair_groups each baseline-pair may be written with antenna numbers or as an integer.", "quantifier": "all groups that mix the two", "why_tests_cant": "which baseline-pair comes first decides how all are read", "anchors": ["src/hera_pspec/grouping.py::average_spectra"]}
{"id": "C379", "title": "The beam of a PSpecBeamUV", "statement": "PSpecBeamUV(uvbeam, cosmo) has a power beam: a new one read from a path, or the UVBeam object given; an E-field beam is converted to power and then peak-normalised, a power beam is taken as it is, so that beam_normalized_response raises a ValueError for it if it is not peak-normalised. Its cosmology is the one given or the default, and no other UVBeam object changes.", "quantifier": "all paths, UVBeam objects and cosmologies", "why_tests_cant": "all heaps of objects", "anchors": ["src/hera_pspec/pspecbeam.py::PSpecBeamUV.__init__", "src/hera_pspec/pspecbeam.py::PSpecBeamUV.beam_normalized_response"]}
{"id": "C380", "title": "The caller's UVBeam", "statement": "Making a PSpecBeamUV leaves the UVBeam object it is given unchanged; making another one of the same object gives the same beam.", "quantifier": "all UVBeam objects", "why_tests_cant": "aliasing, and failures halfway", "anchors": ["src/hera_pspec/pspecbeam.py::PSpecBeamUV.__init__"]}
{"id": "C381", "title": "Bins of spherical_average", "statement": "For centres and widths that are finite numbers, spherical_average takes the bins given, in order, exactly if there are as many widths as centres and no bin starts more than 1e-6 h/Mpc before the end of the previous one, and is an AssertionError otherwise; a Python number as the width is that of every bin. little_h=False divides centres and widths by h, so that a mode in 1/Mpc is in a bin as given if and only if its value in h/Mpc is in the bin that is used.", "quantifier": "all forms of the arguments and all lists of numbers", "why_tests_cant": "all lists of real numbers", "anchors": ["src/hera_pspec/grouping.py::spherical_average", "src/hera_pspec/grouping.py::_as_1d_float_array"]}
{"id": "C382", "title": "No wavenumber in two bins", "statement": "Bins that spherical_average accepts share no wavenumber.", "quantifier": "all bins and wavenumbers", "why_tests_cant": "all real numbers and numbers of bins", "anchors": ["src/hera_pspec/grouping.py::spherical_average"]}
{"id": "C383", "title": "Bins that are not numbers", "statement": "spherical_average refuses centres and widths that are not numbers.", "quantifier": "all arguments", "why_tests_cant": "all positions in all lists", "anchors": ["src/hera_pspec/grouping.py::spherical_average", "src/hera_pspec/grouping.py::_as_1d_float_array"]}
{"id": "C384", "title": "Printing a PSpecData object", "statement": "The printed text of a PSpecData object has one line for each dataset, in order, with its label, index and numbers of baselines, channels, times and polarizations, and objects that differ in these print differently.", "quantifier": "all lists of datasets and labels", "why_tests_cant": "all numbers and labels", "anchors": ["src/hera_pspec/pspecdata.py::PSpecData.__str__"]}
{"id": "C385", "title": "One waterfall picture for each antenna pair and polarization", "statement": "plot_uvdata_waterfalls saves for each antenna pair and polarization of the object the array asked for (data, flags or nsamples), under its own name; with a basename {pol}.{bl} every one of these files then holds its picture, and no file of another name has changed. Another data name, an object that is no UVData, and vmin without vmax are AssertionErrors and leave no file. A basename without the placeholders is not refused: only the last picture is left.", "quantifier": "all objects, names and files there were", "why_tests_cant": "all numbers of keys and all names", "anchors": ["src/hera_pspec/plot.py::plot_uvdata_waterfalls"]}
{"id": "C386", "title": "Colours of waterfall pictures", "statement": "The colours of every picture of plot_uvdata_waterfalls run from vmin, or the smallest value of its array, to vmax, or the largest.", "quantifier": "all accepted calls", "why_tests_cant": "all values and arrays", "anchors": ["src/hera_pspec/plot.py::plot_uvdata_waterfalls"]}
{"id": "C387", "title": "Counters of old files", "statement": "Reading a file of the format that had Nblpairts, whole or with a selection of baselines, baseline-pairs or times, gives the rows asked for, with Nbltpairs, Ntpairs and Ntimes those of these rows.", "quantifier": "all files of the old format, all selections and all objects read into", "why_tests_cant": "all files and selections", "anchors": ["src/hera_pspec/uvpspec.py::UVPSpec.read_from_group", "src/hera_pspec/uvpspec_utils.py::_select"]}
{"id": "C388", "title": "What an object held before does not matter for reading", "statement": "Reading a file gives the same object, with counters Nbltpairs, Ntpairs and Ntimes of the rows that were asked for, whatever the object was before.", "quantifier": "all files, selections, and objects read into, after any history", "why_tests_cant": "the history includes reads that failed", "anchors": ["src/hera_pspec/uvpspec.py::UVPSpec.read_from_group", "src/hera_pspec/uvpspec.py::UVPSpec._clear"]}
{"id": "C389", "title": "Polarizations of older files", "statement": "A file that stores polarizations (pol_array) is read as one that stores each polarization paired with itself, in order, whether it also stores polarization pairs or not, and different polarizations stay different; a file that does not gives the pairs it stores. Window functions are exact only for files that say so.", "quantifier": "all lists of valid polarizations", "why_tests_cant": "all lists", "anchors": ["src/hera_pspec/uvpspec.py::UVPSpec.read_from_group", "src/hera_pspec/uvpspec_utils.py::polpair_tuple2int"]}
