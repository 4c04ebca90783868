# Formal model of stingray in Rocq (Coq 8.16.1)

## 1. What is modelled and how

The model is a shallow embedding: every Python function that matters for a property becomes a total,
computable Gallina function mirroring it branch by branch, with Python exceptions as values
(`result A := Ok a | Err e`).  The project's code is not run; the tie between the model and the code is
the citation (`file:lines`) above every definition.

### Number representation
* Times, GTI edges, energies, counts in "algorithmic" code: exact rationals `Q`, or integers `Z` where
  the code works with integers.  Floats are replaced by exact arithmetic; NaN/inf are not represented
  unless stated in the definition's comment.  Every finite float is a rational number, so an algorithm
  that only compares and copies its inputs (most of `gti.py`) is represented exactly; where the code
  adds, subtracts or divides, rounding is not modelled.
* Indices: `nat` or `Z`.
* Analytic formulas (FFT, normalizations, statistics): the standard library's `R`.
* numpy primitives (`searchsorted`, `arange`, `diff`, `where`, `argmax`, `cumsum`, `roll`, ...) are
  modelled as list functions in `Np.v`; their agreement with numpy is part of the trusted base.

### Layout of `/verif/rocq/theories`
* `M_*.v` : model (definitions only, every one with a citation).
* `S_*.v` : specifications: small files stating the vocabulary of the properties independently of the model.
* `P_*.v` : proofs (lemmas).
* `T_*.v` : property theorems only, each closed by `exact lemma`, with `Print Assumptions` below, and
  `Example`s showing that the hypotheses are met by concrete non-trivial inputs.
* theorem names `..._partial`: less than the property is proved, the missing part is named next to it;
  `..._refuted`: the code violates the property, a concrete witness is given.

## 2. Plan per property
(the plan before proving; section 4 records what has been done)

| id | modelled | proof idea |
|----|----------|------------|
| C01 | `cross_two_gtis`, `join_equal_gti_boundaries` over Q | invariant over sorted ends; characterise kept pairs (s,e) |
| C02 | `cross_gtis` as fold | closure of C01 under its own output, induction over the collection |
| C03 | `join_gtis` sweep | depth-counter invariant over sorted edges |
| C04 | `append_gtis`, `check_separate` | from C06 and sorted-merge lemmas |
| C05 | `get_btis` | induction over the list |
| C06 | `check_separate` | both directions by induction with sortedness |
| C07 | `check_gtis` | neighbour condition => global order by induction |
| C08 | `time_intervals_from_gtis` | arange specification (floor/ceil) |
| C09 | both mask functions | complete version: direct; fast version: refutation by witness, plus the true direction |
| C10 | `gti_border_bins`, `bin_intervals_from_gtis` | searchsorted specification |
| C11 | total length | sum over elementary cells of the merged edge grid |
| C12 | split functions | induction |
| C13 | `create_gti_from_condition` | from C19 |
| C14 | segment indices | searchsorted specification |
| C15-C17 | `filters.py` | loop invariant "dead_time_end[i] = last kept + dead time" |
| C18 | `rebin_data` | telescoping sums with fractional shares |
| C19 | `contiguous_regions` | induction over boolean lists |
| C20 | histogram core | floor arithmetic, counting |
| C21 | `make_lightcurve`, `from_lc` | counting per bin |
| C22 | property caches as state machine over read/write operations | refutation by a history, plus invariant for the part that holds |
| C23 | heap-like model of binary operations returning the new operands | refutation, plus the case of equal GTIs |
| C24 | `shift`, `change_mjdref` | algebra |
| C25 | `truncate`, `split_by_gti` | filter/slice lemmas, refutation for start=0 |
| C26 | `positive_fft_bins` against numpy's fftfreq (M_fourier) | arithmetic; slice = filter |
| C27, C28 | normalization formulas over R | field; refutation for leahy with variance |
| C29, C30, C31, C32, C33 | DFT over pairs of reals | orthogonality of roots of unity; Cauchy-Schwarz; shift theorem |
| C34 | `integrate_power_in_frequency_range` | refutation + true cases |
| C35, C36 | `M_stats.v`: pulsed-fraction conversions, `p_multitrial_from_single_trial` and its inverse over R | real analysis; powers and logarithms |
| C37, C38 | `M_fold.v`: `p_to_f`, `pulse_phase`, `phase_exposure`, `fold_events`, fast profiles over Q | floor arithmetic, counting, telescoping over bins |
| C39 | `M_zn.v`: cached harmonics with strides, Z^2_n, epoch folding, over R | periodicity of the sine table, link to the DFT and Parseval |
| C40 | `M_ols`: 1-D `ols` with exact DFT | the DFT product is circular convolution (`P_ols.circular`), the padded chunk makes it linear, induction over chunks; witnesses for the two failures |
| C41 | `M_corr`: `auto_corr` | sum of (D_i - D_{i-k})^2 > 0 unless constant; witness for constant |
| C42 | `M_norm`: `Powerspectrum.to_norm`, `Crossspectrum.to_norm` on the averaged spectra of M_fourier | `P_tonorm`: conversion factors; `P_tonorm2`: link to avg_pds and avg_cs; witnesses |
| C43, C44 | `M_dyn`: `rebin_by_n_intervals` with the aliased columns, `trace_maximum` | invariant of the loop over columns; witnesses |
| C45, C70, C71 | `M_io`: `split_numbers`, `common_name`, `get_file_extension` | floor arithmetic; inductions over strings; witnesses |
| C46 | `M_varen`: `get_non_overlapping_ref_band` | from C01 and C04; witness |
| C47 | `merge_gtis` over lists with None/empty entries | fold of C01-C04 |
| C48 | binned generators | from C10 |
| C49 | `rebin_data_log` with fuel for its while loop | edges induction, partition, sums over bins |
| C50-C52 | small helpers of `utils.py` | searchsorted, `Z.log2`, floor/ceiling, counting in the sorted list |
| C53 | n-d arrays as columns in C order, keys as digit strings | lexicographic order of one-digit keys |
| C54 | `Lightcurve.join` as union of keyed samples | distinct keys, membership |
| C55 | `_join_timeseries` on records of columns | permutation of rows through `argsort` |
| C56 | `sort` = indexing by an argsort permutation | `Permutation` of zipped rows |
| C57 | `rebin` of both classes, per GTI | searchsorted ranges as flags, then C18 |
| C58 | `_safe_array_slice_indices`, `extract_pds_slice`, `shift_and_add` (M_power) | index arithmetic in Z, weighted sums by induction over the list |
| C59 | `avg_cs_from_iterables_quick` | loop invariants of both loops, equal tables |
| C60 | `error_on_averaged_cross_spectrum`, `cross_to_covariance` | algebra of square roots |
| C61 | `intrinsic_loop` in `M_fourier.v` | induction on the 40 iterations |
| C62 | `classical_pvalue` in `M_stats.v` | induction on the loop, against the Poisson sum |
| C63 | `fold/z2/pds` levels and probabilities in `M_stats.v`, chi-squared sf and isf as section variables | composition with C36 |
| C64 | `htest` in `M_zn.v` | geometric sums; witness by aliasing |
| C65 | `fold_pdm`, `pdm_profile_stat` in `M_fold.v` | counting per bin; witness |
| C66 | `folding_segments` in `M_fold.v` | searchsorted lemmas; witnesses |
| C67 | `M_nextprod` | invariant over the lexicographic enumeration of exponents: every candidate already passed is >= best |
| C68 | `M_corr`: `make_corr`, `make_corr_variance` | index arithmetic on slices of the full correlation; Cauchy-Schwarz |
| C72 | `M_espec`: `_decode_energy_specification` over R | algebra, powers |
| C73 | `M_flux`: `get_flux_iterable_from_segments`, both histogram back ends | slices as filters, counting; witnesses for `segment_size=None` |
| C74 | `M_flux`: `get_average_ctrate` | sums over the segment grid; witness for short segments |
| C75 | `M_flux`: `avg_pds_from_timeseries`, `avg_cs_from_timeseries` | composition of C73, C31 and C59 |
| C69 | `M_corr`: `make_cross_corr` | periodicity of the inverse transform; witnesses for modes full, valid and for the sign |
| C76 | `M_segan`: `analyze_segments` | composition of segmentation (C08, C09) with the slicing lemma `item_piece`; each piece equals `piece_of` flags |
| C77 | `M_segan`: `apply_gti_lists`, `filter_at_time_intervals` | searchsorted lemmas, `item_piece` |
| C78 | `M_segan`: `estimate_segment_size` with fuel | invariant of the loop, termination by the longest GTI |
| C79 | `M_segan`: `fill_bad`, random generator as a parameter | induction on the gaps, `join_gtis_main`, `is_argsort` |
| C80 | `M_pcolor`: exact powers, real error bars | exclusion loop against a bridging relation, `integrate_power` against the integral of the step function (C-power), bins found by induction on contiguous bins; scaling by a relation between spectra; derivative of log10 for the error |
| C81 | `M_pcolor`: hue over R, angle loops over Q with fuel | polar form of the argument (cos and sin of atan), uniqueness from `angle_polar`, loops by induction on the fuel with a bound from the ceiling |
| C82 | `M_spec`: `compute_rms`, `rms_norm`, `rms_unnorm`, `unnorm_level`, `simplify` | masks as filters, the simplification of per-bin arrays by case analysis, grouping by four through the rebinning theorems of C18 |
| C83 | `M_spec`: `ps_rebin`, `ps_rebin_log` | block sums of the linear rebinning and cell sums of the logarithmic one (C18, C49) are summed over the band; the affine noise subtraction commutes with means |
| C84 | `M_signif`: `ps_significances`, `report` | membership in filtered indices; bounds of the multi-trial probability from `P_stats` |
| C85 | `M_signif`: `cospectra_term`, `cospectra_cdf`, `cospectra_pvalue`, `cs_significances` | sum of weights by Pascal's rule; derivatives of the incomplete gamma function; weights of n+1 from those of n; uniqueness of bounded solutions |
| C86 | `M_signif`: `acs_coherence`, `cs_coherence` | bounds of `raw_coherence` from C32; explicit witness |
| C87 | `M_signif`: `modulation_upper_limit`, `amplitude_upper_limit`, `pf_upper_limit` | argmax and maximum specifications, sin x < x |
| C88 | `M_reader`: `trace_fresh`, `trace_nphots`, `get_idx`, `get_idx_all` | invariant of the stored edges (`good_edges`), then counting in a part of a sorted list |
| C89 | `M_reader`: `apply_gti_lists`, `split_by_number` | C88 for each span; spans of the parts of C12 are ordered and cover the good time |
| C90 | `M_reader`: `filter_at` | C01 exact intersections and `pieces_main` |
| C91 | `M_reader`: `keyword_read` | association lists |
| C92 | `M_reader`: `pi_to_energy` | induction over the table |
| C93 | `M_dyn2`: rebin_frequency, rebin_time over M_utils.rebin_data | rebin_data on an equally spaced grid gives runs of m values (P_dyn2 rebin_even), lifted over rows and columns; gap and non-integer witnesses by computation |
| C94 | `M_window`: create_window over exact reals, nan as None | values as cosine sums; symmetry from cos(2 pi j - x); ranges by polynomial bounds; Parzen by list reasoning on the mirrored half |
| C95 | `M_exvar`: excess_variance over exact reals | variance as mean of squares minus squared mean, then algebra of square roots; scaling by rewriting each term |
| C96 | `M_exvar`: standard_error, poisson_symmetrical_errors, heaviside, isallfinite, iterables_close | sorted distinct values and the left search find every count; induction over lists |
| C97 | `M_bispec`: cumulant3, scaling_matrix, normalize_cumulant3 | entries of the Toeplitz matrix are the zero-extended deviations; the scaling matrix is the number of terms, counted by induction; shift of a finite sum |
| C98 | `M_bispec`: bispec_window, centred_fft2, make_bispectrum | shifts are permutations modulo 2L+1, sums of periodic functions do not depend on the start; window entries by cases |
| C99 | `M_zhang`: r_in, r_det, limit_a | field identities |
| C100 | `M_zhang`: e_m_x_x_over_factorial, gn, h_term, a0, a_single_k | Stirling's series with an error bound from the series of ln((1+t)/(1-t)) and Wallis' integrals (`P_stirling*`); exponential between Taylor polynomials; terms beyond 2x at least halve, so the tail is at most the last term; derivative of the deficit is minus the distribution function (mean value theorem); floor bounds |
| C101 | `M_zhang`: b_raw, inner_loop_pds_zhang, pds_model_zhang, non_paralyzable_dead_time_model | double sums over differences by induction; sums of roots of unity vanish |
| C102 | `M_posterior`: gaussian_evaluate, poisson_evaluate | exponential of the sum by induction over the data |
| C103 | `M_posterior`: psd_evaluate | logarithm of the gamma density without its constant, summed by induction |
| C104 | `M_posterior`: laplace_evaluate | as C102 |
| C105 | `M_posterior`: set_logprior, logposterior, *_posterior | induction over the parameters; counting of free and not fixed parameters |
| C106 | `M_parest`: compute_criteria, compute_statistics | sums by induction |
| C107 | `M_parest`: fit, fit_loop, use_bounds | induction over the runs |
| C108 | `M_parest`: compute_lrt, compute_pvalue, simulate, generate_data | counting |
| C109 | `M_parest`: compute_highest_outlier, find_outlier | insertion sort is a sorted permutation |
| C110 | `M_parest`: compute_rhat | mean of means of equal rows; affine maps of sums |
| C111 | `M_fad`: fad, fad_step | the loop keeps the sums over the pairs seen so far (P_fad step_use, loop_all), the columns follow; Cauchy-Schwarz with square roots of the weights |
| C112 | `M_fad`: fad_gtis, flux_generator_events, periodograms_from_fad | by computation on witnesses; the number of positive frequencies in closed form |
| C113 | M_mission.v (str functions, split_chan_spec, split_C_string, decode_energy_channels, rxte_pha); S_mission.v (groups, text, meaning); induction over strings and lists of groups |
| C114 | M_mission.v (caltable, pca_arrays, pca_energy, rough_calibration, rough_conversion); table checked by computation for the 256 channels and 6 columns, epochs by case analysis on rationals |
| C115 | M_mission.v (read_line, put, patch_mission_info, read_mission_info); S_mission2.v (spaced, gives, says, at_path, last_given); invariant of nested dictionaries with unique keys |
| C116 | M_mission.v (lower_dict, specialise, get_key_from_mission_info, case_insensitive_search); S_mission2.v (last_entry, no_entry, same_case) |
| C117 | average over windows by induction on the segments and the grid; profiles from C65/C66 lemmas; shift by properness of every step with respect to Qeq |
| C118 | witnesses computed in the model |
| C119 | the average theorem of C117 with the phase dispersion lemmas of C65 |
| C120 | contiguous_regions (C22), first argmax by induction, order by the specification of argsort |
| C121 | every bin test reduced to floor(phase nph); sum over bins by exactly one bin per value |
| C122 | map over bands; covariance rewritten as finite sums; Cauchy-Schwarz; witnesses with two bins |
| C123 | light curves from the C27 lemmas on the flattened rows; np.unique by induction on the sorted list; permutation invariance of counts |
| C124 | the loop runs once for every positive size; the segment is a prefix by searchsorted |
| C125 | cumulative sums; searchsorted on the nondecreasing cdf; interval found by both versions of the interpolation; induction over the intervals with C10 |
| C126 | inverse transform of a Hermitian array is real; orthogonality of the roots of unity; transform of an affine map; Parseval for the witness |
| C127 | finite sums over rationals; shifting and swapping sums; slices with negative ends; witnesses by computation |
| C128 | M_vspec over the averaged spectra of M_fourier/M_flux; spec rms_auto_is/rms_cross_is in S_vspec; tables for any list of segments in P_vspec |
| C129 | reflexivity on the model of the three spectra; concrete witnesses |
| C130 | induction on the list of edges |
| C131 | all rows are nan, witness |
| C132 | same tables as C128; overlap of two bands by cases on cross_two_gtis |
| C133 | same tables as C128 |
| C134 | M_lcops.lc_split; spec runs in S_lcops; gap_gtis_runs identifies the new intervals, cover_unique shows that crossing with one interval that contains them changes nothing |
| C135 | M_lcops.sort_counts over apply_mask of M_segan |
| C136 | M_lcops.lc_apply_gtis; mask_ok from P_base |
| C137 | M_lcops.initial_checks; spec bad_only |
| C138 | M_lcops.to_lc_iter over make_lightcurve (M_lc) and the segment indices of M_seg; spec curve_of |
| C139 | M_lcops.color_evolution over analyze_segments (M_segan); spec ratio_of, ratio_error, events_between |
| C140 | M_lcops.intensity_evolution; witness with three segments and two rates |
| C141 | reflexivity on the model; number of segments from uniqueness of the segment grid |
| C142 | M_make over avg_pds; avg_pds_common with saved spectra; induction on the list of light curves |
| C143 | iterate_form for both lists; witness by computation |
| C144 | from_events with saved spectra; time_intervals_from_gtis with the size as given |
| C145 | column by column from rms_norm_main of C-rms; selection by induction on the frequencies |
| C146 | map_result; witness by computation |
| C147 | lengths of shift_and_average_core by induction; rebin_even for equally spaced frequencies |
| C148 | from_events = average over the segments of the grid (P_flux2 cs_events, P_avgcs avg_cs_common), usable segments = two events of both lists; whole interval by flux_whole |
| C149 | exchange of the pairs of segments conjugates every term (cross_swap); witness with resolutions 2 and 3 |
| C150 | inversion of the constructor; witness with GTIs (0,10) and (2,8) |
| C151 | bin_cauchy from avg_cauchy; power_error by sqrt_sqrt; phase_error_ok of P_vspec3 lifted to tables |
| C152 | corrected (S_mkcross) bin by bin; witness with one bin |
| C153 | norm_factor of P_norm |
| C154 | filters over the attribute list, membership by filter_In (array_list, internal_list, meta_list) |
| C155 | eq_iff: all_ok over the lists of C154; set_attr on the main array does not change the lists |
| C156 | fold of setattr over columns and meta with distinct names (fold_in, fold_out, fold_mask_gti) |
| C157 | interpret_many/one by cases; init_dates, init_lost, columns_ok/columns_bad by induction |
| C158 | arange length by arange_len_spec (auto_values, auto_errors) |
| C159 | trigonometric sums by linearity; tau is half the argument of sum exp(2 i w t), so the cross sum vanishes (tau_good); shifts rotate it (tau_shift); geometric sum on even grids |
| C160 | fast_exact against slow_form; sums of second harmonics are 0 on even grids (even_fast) |
| C161 | composition of the transform theorems with norm_factor; witnesses with three points |
| C162 | powers bin by bin (accelerated_map, response_val), selection by masks as filters, permutation of the concatenated results (search_main) |
| C163 | induction on the interleaved list; uniqueness of a strictly sorted permutation (sorted_unique); sign_split |
| C164 | evaluation of fill_gaps; arange_len_spec for the grid |
| C165 | Loops by induction on fuel (P_fftfit); uniqueness from integers closer than 1. |
| C166 | Amplitudes and phases to products of transforms (P_fftfit), returned values (P_fftfit2), first guess and copies (P_fftfit3), sinusoidal template by orthogonality (P_fftfit4); brentq is a parameter that returns roots. |
| C167 | Floor part of the phase (P_fftfit3 toa_spec) and recovery of sinusoids (P_fftfit4 sin_toa). |
| C168 | True derivatives by the chain rule, at the peak by |sin x - x| <= |x|^3 (P_sinc); compared with the code by uniqueness of limits. |
| C169 | State of the default dictionary passed from call to call (M_sinc), by computation (P_sinc). |
| C170 | Loop invariant, geometric tail, Erlang sum (P_chi2); Stirling by the classical telescoping bounds of (n + 1/2) ln(1 + 1/n). |
| C171 | From C170 by exponentials and logarithms (P_chi2 even_dof, P_chi22). |
| C172 | Ratio of polynomials with all cross products positive (P_chi22 ratio_down). |
| C173 | From C171 and the trial corrections of C62 (P_chi22). |
| C174 | Binary search of numpy modelled as it runs (bsearch_ok, nearest_odd, nearest_even); transforms of sine waves by geometric sums; angles modulo 2 pi (P_qpo). |
| C175 | Products of cosines and vanishing sums over equally spaced phases (P_qpo tone_sum, waveform_rms). |
| C176 | Direct evaluation; minimizer is any function that finds a global minimum (P_qpo2). |
| C177 | Circular correlation theorem of P_ols; linearity of the transform; standard error of C96 (P_qpo2). |
| C178 | The extremes are found by induction; the quantile function is specified through the Erlang sums of C171, decreasing by the mean value theorem (P_bexvar); it exists by the intermediate value theorem (P_bexvar2). |
| C179 | Sums of nonnegative terms, induction over the bins (P_bexvar). |
| C180 | Sums over the tapers; induction for argmax and filters (P_mtaper). |
| C181 | Invariant of the loop: all spectra positive and bounded (P_mtaper2). |
| C182 | Leave-one-out lists by induction, logs of products (P_mtaper3). |
| C183 | Averages over finite ensembles of uncorrelated data are quadratic forms (P_mtaper3). |
| C184 | Unfolding; sums (P_mtaper3). |
| C185 | The dictionary is the reverse of the named arguments; distinct keys make lookups independent of the order (P_gp). |
| C186 | The quadratic form of an exponential kernel is reduced by one time, moving the last value to the time before it (P_gp.markov); the cosine splits the QPO form in two. |
| C187 | Exponents are shown nonpositive; the FRED exponent is -phi (u - t0)^2 / (t0 u) (P_gp). |
| C188 | By nth_error of the combined columns; the intervals by C13 (P_fitslc). |
| C189 | Case analysis of the two comparisons; witnesses by computation (P_fitslc, T_fitslc). |
| C190 | The fetched lists are those of the matching extensions without repetition, then C02 (P_fitslc). |
| C191 | Quadratic form of the matrix by exchange of sums, positive definite with two weights; uniqueness; induction over the turns (P_als, P_als2). |
| C192 | Pointwise; a constant closest in least squares is the mean (P_als2). |
| C193 | Induction over the intervals; values placed by a mask (P_als3). |
| C194 | Minimum of the negative function is the largest value; calibrated p-value by induction over the simulations; witness with a quadratic likelihood and a prior that pulls the fit (P_calib). |
| C195 | Induction over the simulations; witnesses with a quadratic likelihood (P_calib). |
| C196 | x'Hx < 0 with x a column of the inverse gives a negative diagonal (P_calib). |
| C197 | Real analysis with Rpower (P_models). |
| C198 | Symmetry between x/b and b/x, continuity at zero, derivative of powers (P_models). |
| C199 | Deletion from the highest index down is a filter, by induction over distinct names (P_models). |
| C200 | Counting of fixed and tied parameters (P_scripts). |
| C201 | Induction over the components (P_scripts). |
| C202 | State machine with an invariant (P_mask). |
| C203 | Inversion of the whole function, lemmas on dictionaries and permutations (P_evload, P_evload2). |
| C204 | Inversion and evaluation (P_evload2). |
| C205 | Rates solved for each other; terms mapped over the orders (P_zchk). |
| C206 | Reduced to the integral proved for compute_rms (P_rms) (P_rmscalc). |
| C207 | Fold of setattr over the arrays of the dataset, on the attribute lists of M_object (P_xarr). |
| C208 | Reduced to C207 when no name contains _dim; refutations computed on names as texts (P_pandas). |
| C209 | searchsorted on sorted times gives the bins of an interval; diffs of a slice are differences of neighbours (P_lcchk). |
| C210 | The loop of setattr is a map over the attributes (P_lcchk). |
| C211 | By computation on the constructor call (P_lcchk). |
| C212 | Case analysis on the conditions, filter over pairs (P_lcchk). |
| C213 | Case analysis on the inputs against an inductive description of good pairs (P_init). |
| C214 | Case analysis on the inputs (P_init). |
| C215 | Case analysis on the seed (P_init). |
| C216 | Bounds on the result of searchsorted on a growing table give the piece used; algebra on the line (P_orbit). |
| C217 | Case analysis; arithmetic of the frequency grid (P_orbit). |
| C218 | Lemmas on dictionary updates; case analysis on the cached arrays (P_lctab). |
| C219 | Unfolding; field arithmetic on the MJDs (P_lctab). |
| C220 | Loop invariants of the two loops over the column names; lemmas on names without dots (P_rw). |
| C221 | Induction over the rows visited by a slice, upwards and downwards (P_getidx). |
| C222 | Case analysis; the mean error is a parabola in the weight (P_specfilt). |
| C223 | Strong induction on the depth of lists; substring lemma (P_meta). |
| C224 | Case analysis on the column of times; induction on the list of MJDs (P_tseries). |
| C225 | From the theorem on rebin_data (C18), used for each array (P_mtrebin). |
| C226 | Induction on the list of parameters (P_gpprior). |
| C227 | Induction on the list of segments (P_dyncross). |
| C228 | Lemmas on slices; linear arithmetic (P_truncdt). |

## 3. Trusted base
* Coq 8.16.1 kernel (re-checked with coqchk by `vcheck`).
* Standard-library axioms only where `R` is used (see the `Print Assumptions` output in `T_*.v`):
  `ClassicalDedekindReals.sig_forall_dec`, `ClassicalDedekindReals.sig_not_dec`,
  `FunctionalExtensionality.functional_extensionality_dep`, and `Classical_Prop.classic` where the real-analysis
  library uses it.  Theorems over `Q`, `Z`, `nat` are closed under the global context.
* The reading of the Python code and of numpy primitives.
* Fourier part (`M_fourier.v`): `scipy.fft.fft` is the textbook DFT over pairs of reals; `fftfreq` by its documented
  formula; `np.angle` by cases from `atan`; complex arrays are lists of pairs; segments are lists of reals with an
  optional list of errors; astropy tables are records holding the columns and meta data.
* Statistics part (`M_stats.v`): `scipy.stats` chi-squared functions enter as a pair of functions with the hypotheses
  named in the theorem (inverse to each other, decreasing); inf/nan appear only in `_pavnosigfun`.
* Folding (`M_fold.v`, `M_zn.v`): phases are exact rationals; profile errors are kept squared; nan after a division by
  zero is `None`; the harmonic tables are computed, the cache itself is not modelled.
* Convolution and correlation (`M_ols.v`, `M_corr.v`): `rfft`/`irfft`/`ifft` are textbook sums over reals, `signal.correlate`
  and `correlation_lags` follow the documented definitions; unbounded loops of `nextprod` take fuel.
* Not modelled: floating-point rounding, NaN/inf (unless said), file formats (FITS/HDF5), plotting, random
  number generation, optimisation/MCMC (`modeling/`, `bexvar.py`), numba/parallel execution.

## 4. Status
See `MANIFEST.json`.
