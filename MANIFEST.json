{"claims": [
 {"property": "C01", "status": "partial", "theorems": ["C01_cross_two_complete", "C01_cross_two_exact_partial", "C01_touching_refuted", "C01_zero_length_refuted"], "note": "REFUTED as stated: intervals that touch across the two lists (C01_touching_refuted) and zero-length intervals (C01_zero_length_refuted) give wrong results. Proved: nothing common is ever lost, the result is valid and within the union, and it is exact whenever no interval of one list ends where one of the other starts."},
 {"property": "C02", "status": "partial", "theorems": ["C02_cross_gtis_complete", "C02_cross_gtis_exact_partial", "C02_cross_gtis_order_partial", "C02_order_refuted"], "note": "REFUTED as stated (order dependence with touching intervals, C02_order_refuted). Proved: completeness always; exactness and order independence without cross-list touching."},
 {"property": "C03", "status": "proved", "theorems": ["C03_join_gtis_exact"], "note": "Exact union for all pairs of valid lists with positive-length intervals, any tie order of the sorts."},
 {"property": "C04", "status": "partial", "theorems": ["C04_append_rejects_overlap", "C04_append_union_partial", "C04_append_sound", "C04_touching_refuted", "C04_zero_length_refuted"], "note": "REFUTED as stated: interleaved lists that only touch are rejected. Proved: overlap always rejected, whatever is returned is exactly the union, and the exact acceptance condition. For lists with intervals of length 0 the result may be an invalid list (C04_zero_length_refuted)."},
 {"property": "C05", "status": "proved", "theorems": ["C05_btis_complement", "C05_btis_empty", "C05_btis_defaults", "C05_btis_empty_error"], "note": "Exact complement, valid output and lengths adding up (half-open reading of intervals)."},
 {"property": "C06", "status": "partial", "theorems": ["C06_separate_sound", "C06_separate_exact_partial", "C06_separate_empty", "C06_touching_refuted"], "note": "REFUTED as stated for interleaved touching lists. Proved: True implies disjoint; exact characterisation of the answer."},
 {"property": "C07", "status": "proved", "theorems": ["C07_check_gtis_exact", "C07_check_gtis_error"], "note": "Exact acceptance condition, global order."},
 {"property": "C08", "status": "partial", "theorems": ["C08_segments_grid", "C08_segments_exact_partial", "C08_segments_error", "C08_inside_refuted", "C08_overlap_refuted"], "note": "REFUTED as stated: the fixed epsilon lets a segment end outside good time (C08_inside_refuted) and segments of adjacent GTIs overlap (C08_overlap_refuted). Proved: exact grid of segments and exact error condition for all inputs; containment, non-overlap and maximality when edges and segment size are multiples of a unit not smaller than epsilon."},
 {"property": "C09", "status": "partial", "theorems": ["C09_mask_complete_exact", "C09_mask_fast_sound", "C09_mask_fast_exact_partial", "C09_mask_fast_min_length_partial", "C09_mask_fast_refuted", "C09_complete_default_dt", "C09_complete_default_dt_refuted", "C09_no_numba", "C09_nothing_long", "C09_min_length_dt_error"], "note": "REFUTED as stated: a GTI holding no bin makes the fast mask lose good bins (C09_mask_fast_refuted); min_length with explicit dt always raises TypeError. The default dt of the complete version is half the bin width (C09_complete_default_dt_refuted). Proved: the complete version is exact for all inputs; the fast one is sound always and exact if every GTI holds a bin."},
 {"property": "C10", "status": "partial", "theorems": ["C10_border_bins_exact", "C10_border_bins_total", "C10_segment_bins_exact", "C10_segment_bins_empty", "C10_bin_intervals_exact", "C10_border_bins_refuted", "C10_bin_intervals_refuted", "C10_outside_rejected", "C10_fraction_step_refuted"], "note": "REFUTED as stated: a GTI after the last time stamp raises IndexError. Proved: whenever a result is returned it is exact (all increasing time arrays, not only evenly sampled), disjoint, maximal; a condition for a result to be returned."},
 {"property": "C11", "status": "partial", "theorems": ["C11_inclusion_exclusion_partial", "C11_total_length", "C11_exposure_extensional", "C11_touching_refuted"], "note": "Inclusion-exclusion proved without cross-list touching, refuted with touching (consequence of C01)."},
 {"property": "C12", "status": "partial", "theorems": ["C12_split_at_indices_partial", "C12_split_by_exposure", "C12_split_by_exposure_gap_partial", "C12_large_gaps", "C12_no_gap_refuted", "C12_empty_part_refuted", "C12_index_zero_error", "C12_negative_index_refuted"], "note": "REFUTED as stated for index lists with only zeros or negative indices, and for the exposure split with an exposure gap limit but no gap. Proved: index split partitions for non-negative sorted indices; exposure split keeps the good time, the exposure and validity, with bounded parts."},
 {"property": "C13", "status": "partial", "theorems": ["C13_condition_half_widths_partial", "C13_condition_even_partial", "C13_uneven_refuted", "C13_dt_width_refuted"], "note": "REFUTED as stated for unevenly sampled times with the default dt and for dt given as widths. Proved: exact for evenly sampled times, and for any half widths that do not reach the neighbouring samples."},
 {"property": "C14", "status": "proved", "theorems": ["C14_segment_indices_exact", "C14_segment_indices_total", "C14_unsorted_rejected"], "note": "Exact for every sorted event array (with duplicates, events on edges), total, and unsorted input rejected."},
 {"property": "C15", "status": "partial", "theorems": ["C15_nonparalyzable_exact", "C15_record_unique", "C15_consequences", "C15_idempotent", "C15_empty_refuted"], "note": "REFUTED only for the empty event list (IndexError, C15_empty_refuted). Proved for every non-empty list: exact record of the detector (any dead times, any order), uniqueness, spacing, dropped events, idempotence."},
 {"property": "C16", "status": "proved", "theorems": ["C16_paralyzable_exact", "C16_subset", "C16_varying_refuted"], "note": "Exact for all event lists and dead times (also per-event dead times); inclusion in the non-paralyzable survivors for constant dead time. C16_varying_refuted shows it needs a constant dead time."},
 {"property": "C17", "status": "partial", "theorems": ["C17_background_partial", "C17_no_background", "C17_filter_no_background", "C17_random_dead_time", "C17_negative_rejected", "C17_zero_dead_time_type", "C17_unsorted_refuted"], "note": "REFUTED for unsorted source lists with background (C17_unsorted_refuted), and zero dead time returns a list instead of a mask. Proved for sorted source lists, both detectors, any tie order; without background for any order."},
 {"property": "C18", "status": "partial", "theorems": ["C18_rebin_exact", "C18_conserves", "C18_integer_factor", "C18_finer_rejected", "C18_unknown_method", "C18_integer_counts_refuted", "C18_errors_not_in_quadrature_refuted", "C18_uneven_scalar_dx_refuted", "C18_too_wide_refuted"], "note": "REFUTED as stated in four corners, proved otherwise. For floating-point data the values, errors, midpoints and step sizes are exactly the overlap-weighted sums (mean: divided by the number of old bins), sums are conserved and integer factors give plain sums/means. Witnesses: integer arrays truncate fractional shares; errors are added linearly, not in quadrature; a scalar dx on an uneven grid; a new bin wider than the data raises IndexError."},
 {"property": "C19", "status": "proved", "theorems": ["C19_contiguous_regions_exact"], "note": "Exact, and the unique separated list of ranges with these members."},
 {"property": "C20", "status": "partial", "theorems": ["C20_bins_partition", "C20_hist1d_exact", "C20_hist1d_weighted", "C20_backends_agree_partial", "C20_upper_edge_refuted", "C20_integer_weights_refuted", "C20_hist2d_exact", "C20_hist2d_weighted", "C20_histnd_exact", "C20_hist3d_partial", "C20_hist3d_out_of_range_refuted", "C20_hist3d_out_of_bounds_refuted", "C20_compute_bin_partial", "C20_compute_bin_refuted"], "note": "REFUTED as stated: with numba the upper edge is dropped (numpy keeps it), integer data truncates weights, the 3-d version does not check the third coordinate, compute_bin accepts values up to one bin below the range. Proved: exact content of every bin and total for the 1-d, 2-d, n-d (weighted) versions, for 3-d with third coordinate in range, backends agree away from the upper edge."},
 {"property": "C21", "status": "partial", "theorems": ["C21_make_lightcurve", "C21_from_lc", "C21_round_trip", "C21_binned_timeseries", "C21_energy_mask", "C21_compatible_dt", "C21_to_lc", "C21_dark_from_lc_error", "C21_last_photon_refuted"], "note": "REFUTED in one corner: with neither GTIs nor tseg the last photon sits on the end of the light curve and is dropped (witness); from_lc of a light curve without counts raises UnboundLocalError. Proved: with start and duration given (or taken from GTIs/photons) every bin holds exactly the photons in it, the total is the number of photons in range, both backends; from_lc gives one event per count at the bin centre and the round trip keeps the count of every bin; to_binned_timeseries; energy masks; suggest_compatible_dt."},
 {"property": "C22", "status": "partial", "theorems": ["C22_values", "C22_explicit_errors", "C22_meancounts_partial", "C22_meanrate_partial", "C22_meanrate_refuted", "C22_means_after_gti_refuted", "C22_default_errors_refuted", "C22_read_order_refuted"], "note": "REFUTED as stated: meanrate is stale after assigning counts; both means are stale after changing GTIs; default errors are stale after assigning counts; reading countrate_err first changes both errors to zero. Proved for every history: counts, countrate, bin edges and explicitly assigned errors always reflect the last assignments; meancounts does if GTIs and times are not reassigned; meanrate if no data are reassigned."},
 {"property": "C23", "status": "partial", "theorems": ["C23_lightcurve_arithmetic", "C23_same_gtis", "C23_apply_gtis", "C23_different_gtis_partial", "C23_operands_refuted", "C23_inplace_operators_error", "C23_apply_gtis_copy_refuted"], "note": "REFUTED as stated: StingrayTimeseries a + b with different GTIs cuts both operands (witness, and the general theorem says how); += / .add raise TypeError; apply_gtis(new, inplace=False) keeps the old GTIs. Proved: Lightcurve arithmetic leaves operands unchanged and gives the sample-wise result in the common GTIs; the base class does when GTIs agree."},
 {"property": "C24", "status": "partial", "theorems": ["C24_shift", "C24_shift_back", "C24_change_mjdref", "C24_mask_moves_along", "C24_tstart_refuted"], "note": "REFUTED for one attribute: shift leaves tstart of a light curve behind (witness). Proved: times and GTIs move together, shift(-d) restores them, change_mjdref keeps absolute times of samples and GTIs, GTI masks are invariant."},
 {"property": "C25", "status": "partial", "theorems": ["C25_truncate_by_index", "C25_truncate_by_time", "C25_truncate_order", "C25_slices", "C25_lightcurve_slices", "C25_split_by_gti", "C25_truncate_from_zero_refuted", "C25_last_item_refuted", "C25_lightcurve_slice_too_long_refuted", "C25_split_events_refuted", "C25_split_tstart_refuted"], "note": "REFUTED in corners: start=0 means from the first sample even if negative; obj[-1] raises TypeError; Lightcurve slices past the end raise IndexError; split_by_gti of event lists (dt = 0) loses events near borders; pieces keep the parent's tstart. Proved: truncation by index and time, slices with any positive step (samples, attributes, GTI coverage), split_by_gti on evenly sampled series (median spacing equal to dt, numba backend)."},
 {"property": "C26", "status": "proved", "theorems": ["C26_positive_bins"], "note": "For all n and both settings; the selected slice is exactly the filter of numpy's fftfreq by sign, in order."},
 {"property": "C27", "status": "partial", "theorems": ["C27_round_trip", "C27_round_trip_back", "C27_factors", "C27_variance_error", "C27_variance_refuted"], "note": "REFUTED for leahy with an explicit variance: the inverse returns the powers times photons/bin (C27_variance_error gives the exact value, witness in C27_variance_refuted). Proved without variance: exact round trip in both directions for abs, frac, leahy, none, with or without background, and the value of every factor."},
 {"property": "C28", "status": "partial", "theorems": ["C28_poisson_level", "C28_missing_arguments", "C28_negative_background_refuted"], "note": "REFUTED for frac with a negative background (poisson_level uses it, the normalization clips it at 0). Proved for every non-negative background and all normalizations; missing arguments are refused."},
 {"property": "C29", "status": "partial", "theorems": ["C29_parseval", "C29_parseval_positive", "C29_fractional_power_partial", "C29_even_length_refuted", "C29_rms_partial", "C29_rms_noise"], "note": "REFUTED as stated for even lengths: the Nyquist bin is not among the positive bins. Proved exactly: the sum equals (variance - Nyquist term)/mean^2 for every length (equality with variance/mean^2 for odd lengths), averaged over segments; same for the rms from unnormalized powers; Parseval itself proved from the definition of the DFT."},
 {"property": "C30", "status": "proved", "theorems": ["C30_cross_spectrum_with_itself"], "note": "Both means, all normalizations, with or without auxiliary spectra and stored sub-spectra; segments of one common length with non-negative photon totals, (flux,error) segments not identically zero (that corner is C31_zero_tuple_refuted)."},
 {"property": "C31", "status": "partial", "theorems": ["C31_average_common_mean", "C31_average_own_mean", "C31_cross_common_mean", "C31_cross_own_mean", "C31_mean_of_stored_spectra", "C31_zero_tuple_refuted", "C31_auxiliary_sum_refuted", "C31_mixed_lengths_refuted"], "note": "REFUTED in corners: all-zero segments given with errors are counted in m; with use_common_mean=False the auxiliary power spectra are sums, not means; segments of different lengths give a table with inconsistent frequencies. Proved: complete result tables of avg_pds/avg_cs for any number of segments of one length, m = number of usable segments, mean of the stored spectra = average."},
 {"property": "C32", "status": "partial", "theorems": ["C32_coherence", "C32_coherence_with_noise", "C32_noise_refuted"], "note": "REFUTED when a noise level exceeds the power (raw coherence above 1, witness). Proved: value |C|^2/(P1 P2) and bounds 0..1 for every averaged spectrum (Cauchy-Schwarz) with zero noise, and the bounds for any noise levels between 0 and the powers (C32_coherence_with_noise)."},
 {"property": "C33", "status": "proved", "theorems": ["C33_lag_of_a_delay", "C33_shift", "C33_angle"], "note": "Phase -2 pi k d/n and time lag -d dt at every bin whose phase lies in the principal range (2kd<n), for averages over any number of segments; DFT shift theorem for all delays."},
 {"property": "C34", "status": "partial", "theorems": ["C34_integral_partial", "C34_additive_partial", "C34_full_range", "C34_single_bin_refuted", "C34_outside_refuted", "C34_empty_range_error"], "note": "REFUTED: a range inside a single bin is counted wrongly, as is a range reaching outside the spectrum; an empty range raises IndexError. Proved: exact integral and variance for ranges spanning at least two bins, additivity there, and the full range."},
 {"property": "C35", "status": "proved", "theorems": ["C35_pulsed_fraction", "C35_signal_power"], "note": ""},
 {"property": "C36", "status": "partial", "theorems": ["C36_value", "C36_bounds", "C36_more_trials_partial", "C36_larger_probability_partial", "C36_more_trials_refuted", "C36_single_value", "C36_multi_of_single", "C36_single_of_multi_partial", "C36_single_of_multi_refuted", "C36_nan_refuted", "C36_single_defined"], "note": "REFUTED: the corrected probability is not monotone in the number of trials at the switch between the Bonferroni and Sidak formulas (witness n = 9999), p_single_trial is not the exact inverse in the window n p >= e^-7 > 1-(1-p)^n, and is nan for probabilities too close to 1. Proved: exact values, bounds, monotone on each side of the switch, multi(single(p)) = p always, single(multi(p)) = p outside the window."},
 {"property": "C37", "status": "partial", "theorems": ["C37_reciprocal", "C37_involution", "C37_higher_derivatives_refuted", "C37_integers_refuted", "C37_phase", "C37_phase_0_1", "C37_fast_phase"], "note": "REFUTED: a fourth derivative is silently set to 0, and integer inputs truncate the result to integers. Proved for up to four floats (period and three derivatives): the result is the reciprocal series and applying p_to_f twice gives the input; pulse_phase is the Taylor phase, in [0,1) modulo an integer with to_1, also in the fast version."},
 {"property": "C38", "status": "partial", "theorems": ["C38_profile", "C38_profile_total", "C38_single_event_error", "C38_fast_profile", "C38_exposure_partial", "C38_exposure_total", "C38_normalized_exposure_partial", "C38_corrected_profile_partial", "C38_negative_phases_refuted", "C38_corrected_profile_refuted"], "note": "REFUTED: phase_exposure gives 0 everywhere (nan after normalization) for intervals at negative phases, which makes fold_events(expocorr=True) return nan with times before ref_time; a single event raises IndexError. Proved: profile per bin and its total for any times, exposures for non-negative phases, exposure-corrected profile."},
 {"property": "C39", "status": "proved", "theorems": ["C39_binned", "C39_events", "C39_binned_is_events", "C39_bounds_monotone", "C39_rotation", "C39_epoch_shift", "C39_gauss", "C39_epoch_folding", "C39_below_epoch_folding"], "note": "Also the event, Gaussian and epoch-folding relations: Z^2 of the binned profile is Z^2 of events at the bin centres, shifts of the epoch change nothing, and for an odd number of bins N the statistic with (N-1)/2 harmonics is the epoch-folding chi squared."},
 {"property": "C40", "status": "partial", "theorems": ["C40_zero_padding_partial", "C40_reflection_partial", "C40_default_length", "C40_integer_signal_refuted", "C40_even_kernel_reflection_refuted"], "note": "REFUTED: the output array has the type of x, so an integer signal with a fractional kernel is truncated; with reflection, chunk size 1 and an even kernel the padding is wrong. Proved for zero padding (any kernel, chunk size, FFT length long enough, and the default length) and for reflection otherwise."},
 {"property": "C41", "status": "partial", "theorems": ["C41_autocorrelation_partial", "C41_constant_refuted"], "note": "REFUTED for constant light curves: all correlations are 0 and argmax takes the most negative lag. Proved for every light curve that is not constant, in all three modes."},
 {"property": "C42", "status": "partial", "theorems": ["C42_values", "C42_path_independent", "C42_round_trip_partial", "C42_unknown_norm_error", "C42_powerspectrum_common_mean", "C42_crossspectrum_common_mean", "C42_crossspectrum_powers_partial", "C42_raw_cross_errors", "C42_own_mean_refuted", "C42_real_power_errors_refuted"], "note": "REFUTED for spectra computed with use_common_mean=False (the new norm uses the mean of all segments, not the mean of each) and for the power errors of Crossspectrum with power_type='real'. Proved: values after to_norm, path independence, round trip (fields used by norms equal), equality with the directly computed spectrum when use_common_mean is True."},
 {"property": "C43", "status": "partial", "theorems": ["C43_rebinned_spectrum_partial", "C43_one_interval", "C43_bad_number_error", "C43_original_unchanged_refuted"], "note": "REFUTED: bin_counts is a view of a column of self.dyn_ps, so every n-th column of the original is overwritten and a second call gives other values. Proved: the returned columns are the sums (means) of n consecutive columns, the exact content of the original after the call, n = 1 returns the same spectrum, n < 1 raises."},
 {"property": "C44", "status": "partial", "theorems": ["C44_band_maximum_partial", "C44_empty_band_error", "C44_default_band", "C44_index_in_band_refuted"], "note": "REFUTED when a power outside the band equals the band maximum and comes first. Proved: the returned index is the first whose power equals the band maximum, and it lies in the band when no power outside equals it; empty band raises; default limits are the whole range."},
 {"property": "C45", "status": "partial", "theorems": ["C45_parts_partial", "C45_integers_error", "C45_every_shift_refuted", "C45_input_unchanged_refuted"], "note": "REFUTED: numpy float arrays are modified in place, and integer inputs with a negative shift raise TypeError. Proved in all other cases: parts add up, first part is a multiple of 10^-shift, second part is smaller than 10^-shift, signs, lists and numbers unchanged."},
 {"property": "C46", "status": "partial", "theorems": ["C46_reference_band_partial", "C46_single_interval_partial", "C46_touching_refuted"], "note": "REFUTED when the band of interest shares an edge with a reference interval (witness in C46_touching_refuted: an energy of the band of interest stays in the result). Proved for bands of interest that share no edge with the reference intervals and for one reference interval, except when the band starts with it and covers it."},
 {"property": "C47", "status": "partial", "theorems": ["C47_nothing_present", "C47_union", "C47_append_sound", "C47_intersection_partial", "C47_infer_partial", "C47_none", "C47_infer_refuted"], "note": "REFUTED for 'infer' read as documented (pairwise overlap of three lists). Proved: union, append, none for all inputs; intersection and infer without cross-list touching."},
 {"property": "C48", "status": "partial", "theorems": ["C48_binned_segments_partial", "C48_gti_boundaries_exact", "C48_last_segment_refuted"], "note": "REFUTED as stated: the end of a segment reaching the last bin is reported one bin early. Proved: everything else, for all evenly sampled arrays; the GTI generator is exact."},
 {"property": "C49", "status": "partial", "theorems": ["C49_rebin_log_exact", "C49_rebin_log_terminates", "C49_rebin_log_negative_f_refuted", "C49_rebin_log_negative_x_refuted"], "note": "Proved for f >= 0, given first width and x[0] >= 0: widths, partition, means, errors, counts, conservation, termination. REFUTED outside: negative f does not terminate, negative x loses samples."},
 {"property": "C50", "status": "proved", "theorems": ["C50_find_nearest", "C50_find_nearest_empty", "C50_look_for_first"], "note": ""},
 {"property": "C51", "status": "partial", "theorems": ["C51_power_of_two_refuted", "C51_exact", "C51_power_of_two_bounds"], "note": "REFUTED as stated: 10 gives 16 (8 is nearer), 1 gives 2. Proved: exact description for all x >= 2 (next power of two except at 2^k+1)."},
 {"property": "C52", "status": "proved", "theorems": ["C52_fix_segment_size", "C52_integer_unchanged", "C52_equal_count_edges", "C52_int_sum"], "note": ""},
 {"property": "C53", "status": "partial", "theorems": ["C53_columns_round_trip_partial", "C53_eleven_columns_refuted"], "note": "REFUTED as stated for a dimension above 10 (keys sorted as strings). Proved for all shapes with trailing dimensions <= 10."},
 {"property": "C54", "status": "proved", "theorems": ["C54_lightcurve_join"], "note": "Averages at common times, original values elsewhere, union of times, for either order of the operands."},
 {"property": "C55", "status": "partial", "theorems": ["C55_join", "C55_two_empty_refuted", "C55_empty_self_refuted", "C55_mjdref_refuted", "C55_none_strategy_refuted"], "note": "REFUTED in corners: two consecutive empty series are not both removed (ValueError); an empty first series; MJD references closer than 1e-5 relative (half a day at MJD 55000) are treated as equal; strategy 'none' leaves no GTIs instead of the whole range. Proved: rows, order, attributes and GTIs for non-empty series with equal references."},
 {"property": "C56", "status": "partial", "theorems": ["C56_sort", "C56_default_gti_refuted"], "note": "REFUTED for the default GTI: sort() of an unsorted series without GTIs copies the interval between its first and last unsorted samples. Proved: order, rows, GTIs if set, any argsort."},
 {"property": "C57", "status": "partial", "theorems": ["C57_lightcurve_rebin", "C57_series_rebin_partial", "C57_series_gti_refuted"], "note": "REFUTED for StingrayTimeseries: the old GTIs are kept, including those too short to be rebinned. Proved: values and times for both classes (relative to rebin_data, C18), GTIs for Lightcurve."},
 {"property": "C58", "status": "partial", "theorems": ["C58_extract_slice", "C58_shift_and_average_partial", "C58_frequencies", "C58_frequencies_odd_partial", "C58_even_bins_refuted", "C58_both_ends_refuted"], "note": "REFUTED: for even nbins the frequency axis is half a bin off the averaged bins; a slice reaching beyond both ends raises IndexError. Proved: extract_pds_slice exactly for all inputs; shift-and-add averages and weights when at most one end is cut; frequency axis for odd nbins."},
 {"property": "C59", "status": "proved", "theorems": ["C59_quick_average"], "note": "Equality of the whole result tables for all plain segment lists."},
 {"property": "C60", "status": "proved", "theorems": ["C60_cross_errors", "C60_common_reference", "C60_covariance"], "note": "Zero noise levels (the default) for the errors, also with common reference photons; covariance for reference power above its noise."},
 {"property": "C61", "status": "proved", "theorems": ["C61_bounds", "C61_perfect_coherence"], "note": ""},
 {"property": "C62", "status": "partial", "theorems": ["C62_classical_pvalue_partial", "C62_zero_power_error", "C62_large_products_refuted"], "note": "REFUTED: power 0 gives nan, and power*nspec > 30000 gives 0 even when the true p-value is at least 1/2. Proved: for 0 < power and power*nspec <= 30000 the value is within a relative n*1e-15 of the survival function (the early exit of the loop drops terms below 1e-15)."},
 {"property": "C63", "status": "partial", "theorems": ["C63_pds_level", "C63_z2_level", "C63_fold_level", "C63_below_level_refuted"], "note": "REFUTED: just below the level the probability can be under epsilon (switch between two formulas at e^-7). Proved, given that scipy.stats chi2 sf and isf are inverse decreasing functions: probability at the level is epsilon, and above the level it is at most epsilon."},
 {"property": "C64", "status": "partial", "theorems": ["C64_htest_binned", "C64_htest_events", "C64_flat_z", "C64_flat_h_partial", "C64_flat_refuted"], "note": "REFUTED: with 16 flat bins and nmax=20 the H statistic exceeds 1000 (harmonic 16 aliases to zero frequency). Proved for n < nbin."},
 {"property": "C65", "status": "partial", "theorems": ["C65_pdm_profile_partial", "C65_unit_weights_error", "C65_statistic_partial", "C65_empty_bin_refuted"], "note": "REFUTED: one empty phase bin makes the statistic nan. Proved: the profile is the scatter in each non-empty bin."},
 {"property": "C66", "status": "partial", "theorems": ["C66_segments", "C66_segments_exact", "C66_last_event_error", "C66_all_events_refuted", "C66_no_segment_refuted"], "note": "REFUTED: the last event is always left out, and a segment whose events span less than 20% of its length is skipped; with times [0,...,0, x] nothing is left. Proved: what each segment used contains."},
 {"property": "C67", "status": "proved", "theorems": ["C67_nextprod"], "note": "Termination is stated as: enough fuel gives the result."},
 {"property": "C68", "status": "proved", "theorems": ["C68_correlation", "C68_different_binning_error", "C68_variance_values", "C68_variance_bound"], "note": "Mode \"same\" for equal lengths, where scipy defines the lags of both functions alike. The bound by 1 is for zero errors."},
 {"property": "C69", "status": "partial", "theorems": ["C69_same_mode_partial", "C69_full_mode_lags_error", "C69_full_mode_refuted", "C69_valid_mode_refuted", "C69_sign_refuted"], "note": "REFUTED: in mode full there are 2n-1 lags for n values, in mode valid there is 1 lag and argmax can be outside it (IndexError); abs() makes anti-correlations positive. Proved for mode same up to the sign."},
 {"property": "C70", "status": "partial", "theorems": ["C70_common_letters_partial", "C70_plain_names", "C70_no_marks_left_refuted"], "note": "REFUTED: 'a_-' leaves a trailing underscore because dashes are stripped after underscores only once. Proved: symmetry, default for different lengths, result is the common letters without marks at the ends, never starting or ending with a dash, all letters kept for plain names."},
 {"property": "C71", "status": "partial", "theorems": ["C71_extension_partial", "C71_no_extension", "C71_every_name_refuted"], "note": "REFUTED for 'a.a' (the root reappears in the extension; result '.'). Proved for every name whose root does not occur in its extension and that has no other .gz."},
 {"property": "C72", "status": "proved", "theorems": ["C72_linear", "C72_logarithmic", "C72_error", "C72_intervals"], "note": "Real energies; logarithms of non-positive energies are not modelled."},
 {"property": "C73", "status": "partial", "theorems": ["C73_events", "C73_binned", "C73_whole", "C73_bin_width_refuted", "C73_gaps_refuted"], "note": "REFUTED for segment_size=None: bins are not dt wide when the observation length is not a multiple of dt (C73_bin_width_refuted), events in gaps are counted (C73_gaps_refuted). Proved for every segment size: events (C73_events) and light curves (C73_binned)."},
 {"property": "C74", "status": "partial", "theorems": ["C74_events", "C74_binned", "C74_same_segments_refuted"], "note": "REFUTED in part: segments with fewer than two events count in the rate but not in the averaged spectrum (C74_same_segments_refuted). The formula is proved for events and light curves; for light curves the time step is the median step."},
 {"property": "C75", "status": "proved", "theorems": ["C75_power_spectrum", "C75_power_spectrum_table", "C75_cross_spectrum", "C75_power_spectrum_binned", "C75_cross_spectrum_binned"], "note": "Segment sizes that are multiples of dt (others are rounded first, C52); light curves through C73_binned and C31."},
 {"property": "C76", "status": "partial", "theorems": ["C76_events", "C76_steps", "C76_gtis", "C76_binned", "C76_aligned_refuted", "C76_overlap_refuted"], "note": "REFUTED in part: C76_aligned_refuted (a segment with at most one sample has start and stop times but no result, so results and times are misaligned) and C76_overlap_refuted (on binned data the stop time is one bin too late, after the start of the next segment). The pieces themselves are proved right (C76_events, C76_gtis, C76_binned)."},
 {"property": "C77", "status": "partial", "theorems": ["C77_lists", "C77_intervals", "C77_single", "C77_all_lists_refuted", "C77_ties_refuted", "C77_empty_refuted"], "note": "REFUTED in part: a first list equal to the series' GTIs drops all other lists (C77_single for all inputs, C77_all_lists_refuted), of several samples at the upper edge only one is kept (C77_ties_refuted), a list without samples raises TypeError (C77_empty_refuted). Proved otherwise (C77_lists, C77_intervals)."},
 {"property": "C78", "status": "partial", "theorems": ["C78_events_partial", "C78_terminates", "C78_no_samples_error", "C78_all_segments_refuted", "C78_min_samples_refuted"], "note": "Event-like data (dt = 0): C78_events_partial for segments with at least two samples, with minimality; C78_terminates. REFUTED in part: segments with at most one sample are not checked (C78_all_segments_refuted), min_samples is used as a number of seconds when sampling is uneven (C78_min_samples_refuted), min_samples=None always raises (C78_no_samples_error). Missing: evenly sampled data."},
 {"property": "C79", "status": "partial", "theorems": ["C79_fill", "C79_long_error", "C79_good_values_refuted", "C79_skipped_refuted", "C79_long_refuted"], "note": "C79_fill proves that good samples are kept row by row, new times lie in gaps short enough, new values are values of the same attribute, GTIs are exactly the union. REFUTED in part: new values may come from samples outside the GTIs (C79_good_values_refuted), a gap without data around is marked good and all attributes are lost (C79_skipped_refuted), no short gap gives ValueError (C79_long_refuted, C79_long_error)."},
 {"property": "C80", "status": "partial", "theorems": ["C80_colors", "C80_scale", "C80_number_error", "C80_outside_error", "C80_log_partial", "C80_log_error_refuted", "C80_unchanged_refuted", "C80_negative_error_refuted"], "note": "REFUTED in three points: the power array of the caller is overwritten when frequencies are excluded (np.asanyarray does not copy), the error bar is negative when a noise-subtracted integral is negative, and with return_log=True the error is that of the natural logarithm, too large by ln(10). Colours, errors on the linear scale, scaling and rejections proved."},
 {"property": "C81", "status": "proved", "theorems": ["C81_hue", "C81_unique", "C81_power_color", "C81_scale", "C81_line", "C81_limit"], "note": "Exact real arithmetic; np.arctan2 is the argument of a complex number. The branch of _hue_line_data for an infinite tangent reads x before it is assigned; doubles never reach it."},
 {"property": "C82", "status": "partial", "theorems": ["C82_private_error", "C82_private_error_refuted", "C82_rms", "C82_level", "C82_variance_refuted"], "note": "REFUTED when the spectrum was normalised with the variance of the measurements (C82_variance_refuted); the integral and its error are exact otherwise. Squares of rms and error are modelled so that everything is rational."},
 {"property": "C83", "status": "partial", "theorems": ["C83_rebin", "C83_rebin_rms", "C83_log_rms", "C83_log_whole", "C83_nothing_error", "C83_twice_refuted", "C83_twice_values_refuted", "C83_after_log_refuted"], "note": "REFUTED for spectra that were already rebinned logarithmically (C83_twice_refuted, C83_twice_values_refuted, C83_after_log_refuted). For an evenly spaced spectrum both rebinnings are exact and keep the rms."},
 {"property": "C84", "status": "partial", "theorems": ["C84_exact", "C84_norm_error", "C84_correction", "C84_all_above_zero", "C84_all_refuted"], "note": "REFUTED at the default threshold 1: a power of zero (p-value 1) is not reported (C84_all_refuted). The reported set is exact in general."},
 {"property": "C85", "status": "partial", "theorems": ["C85_pvalue", "C85_law", "C85_law_unique", "C85_report", "C85_norm_error", "C85_zero_error", "C85_integer_refuted"], "note": "REFUTED for integer powers (C85_integer_refuted). For floating point powers the law is proved for n <= 50 (through its differential characterisation); above 50 the code uses a Gaussian, of which symmetry and monotonicity are assumed of scipy."},
 {"property": "C86", "status": "partial", "theorems": ["C86_averaged_partial", "C86_bias_refuted", "C86_single"], "note": "REFUTED: bias computed for the number of bins instead of the number of segments (C86_bias_refuted). Bounds and uncertainty hold as computed."},
 {"property": "C87", "status": "proved", "theorems": ["C87_limit", "C87_amplitude", "C87_fraction", "C87_empty_error"], "note": "Leahy-normalised spectra with one m; power_upper_limit (numerical minimisation in scipy) is a parameter assumed non-negative."},
 {"property": "C88", "status": "proved", "theorems": ["C88_range", "C88_outside_error", "C88_rows"], "note": "Index grid in exact arithmetic."},
 {"property": "C89", "status": "partial", "theorems": ["C89_pieces", "C89_whole", "C89_by_number_partial", "C89_zero_samples_error", "C89_clock_refuted", "C89_last_event_refuted"], "note": "REFUTED for a clock offset (C89_clock_refuted: GTIs of the pieces are not shifted by timezero, no event of the piece is in its GTIs) and for an event at the end of the last GTI (C89_last_event_refuted). The rest holds."},
 {"property": "C90", "status": "partial", "theorems": ["C90_filter_partial", "C90_first_interval_refuted", "C90_gap_refuted"], "note": "REFUTED when the first interval covers all good times (C90_first_interval_refuted) and when an interval fills a gap (C90_gap_refuted). Proved when no interval ends where a GTI begins or vice versa and the first interval leaves out at least 1e-3 (C90_filter_partial)."},
 {"property": "C91", "status": "partial", "theorems": ["C91_whole", "C91_two_parts", "C91_missing", "C91_reference_refuted"], "note": "REFUTED: precedence documented in ref_mjd (C91_reference_refuted). The behaviour documented in high_precision_keyword_read is proved."},
 {"property": "C92", "status": "proved", "theorems": ["C92_energies"], "note": ""},
 {"property": "C93", "status": "partial", "theorems": ["C93_frequency_bins_partial", "C93_time_bins_partial", "C93_time_too_small_error", "C93_frequency_too_small_error", "C93_empty_table_error", "C93_unknown_method_error", "C93_gap_refuted", "C93_averaged_number_refuted"], "note": "REFUTED parts: with a gap longer than the new resolution rebin_time invents powers in the gap (constant power 1 becomes 5.5); with a non-integer factor m = int(step)*m is too small (factor 1.5 gives m unchanged). Proved for equally spaced axes and integer factors."},
 {"property": "C94", "status": "partial", "theorems": ["C94_length", "C94_available", "C94_negative", "C94_unknown_error", "C94_cosine_windows", "C94_welch", "C94_symmetric_partial", "C94_range_partial", "C94_centre", "C94_ends", "C94_parzen_partial", "C94_one_point_error", "C94_triangular_refuted", "C94_parzen_symmetric_refuted", "C94_parzen_formula_refuted", "C94_flat_top_refuted"], "note": "REFUTED parts: triangular and parzen windows with an even number of points are not symmetric; parzen differs from the Parzen window when ceil((N+1)/2) is even (N = 7 gives 1/9 for 2/27); flat-top reaches 4.636; six of the windows are nan for N = 1. Everything else proved for all N."},
 {"property": "C95", "status": "proved", "theorems": ["C95_excess", "C95_no_excess", "C95_zero_mean", "C95_units", "C95_unknown_error"], "note": "Proved; exact reals. Numbers that are not finite (negative excess, zero mean) are None."},
 {"property": "C96", "status": "partial", "theorems": ["C96_standard_error", "C96_standard_error_single", "C96_poisson_errors", "C96_poisson_negative_error", "C96_heaviside_partial", "C96_heaviside_refuted", "C96_all_finite", "C96_iterables_partial", "C96_iterables_refuted"], "note": "REFUTED parts: heaviside(0) is 1 although the docstring says 1 only if x>0; check_iterables_close accepts iterables of different lengths. The others are proved for all inputs; the confidence interval of astropy is a parameter."},
 {"property": "C97", "status": "partial", "theorems": ["C97_cumulant_partial", "C97_terms", "C97_symmetries", "C97_too_large_error", "C97_lag_wraps_refuted"], "note": "REFUTED for a largest lag equal to the number of points: the index -1 wraps and the corner of the cumulant is not 0 (C97_lag_wraps_refuted). Proved for every largest lag below the number of points (C97_cumulant_partial), with the exception raised for larger ones (C97_too_large_error)."},
 {"property": "C98", "status": "partial", "theorems": ["C98_transform", "C98_symmetries", "C98_window", "C98_unknown_window_error", "C98_zero_lag_error", "C98_frequency_refuted", "C98_window_symmetry_refuted", "C98_uniform_window_refuted"], "note": "REFUTED in three points. The two-dimensional window uses d(t1+t2) in place of d(t1-t2), so it lacks the symmetry of the cumulant (C98_window_symmetry_refuted). It also sets the lags with |t1+t2| >= L to 0, so a uniform window changes the result (C98_uniform_window_refuted). The frequency axis is k/(2 L dt) although the transform has k/((2L+1) dt) (C98_frequency_refuted); for L = 0 it is nan. Transform, its symmetries and the effect of every window are proved as coded."},
 {"property": "C99", "status": "proved", "theorems": ["C99_detected", "C99_inverse", "C99_inverse_detected", "C99_limit", "C99_saturated_error"], "note": "A detected rate of exactly 1/td raises ZeroDivisionError (C99_saturated_error)."},
 {"property": "C100", "status": "proved", "theorems": ["C100_poisson_small", "C100_poisson", "C100_gn_small", "C100_gn", "C100_h_small", "C100_h", "C100_a_zero_all_terms", "C100_time_left_range", "C100_time_left_monotone", "C100_a0_all_terms", "C100_a_all_terms"], "note": "Accuracy over the reals; rounding is not modelled."},
 {"property": "C101", "status": "partial", "theorems": ["C101_power", "C101_detected", "C101_constant_moments", "C101_background", "C101_default_bin_time", "C101_too_short_error", "C101_unphysical_error", "C101_saturated_error", "C101_odd_refuted", "C101_bins_refuted"], "note": "REFUTED in two points: for odd N the frequencies are j/((N-1) tb) (C101_odd_refuted); the default number of bins is the largest frequency, not the number of frequencies as documented (C101_bins_refuted). The rest is proved; interpolation is a parameter."},
 {"property": "C102", "status": "partial", "theorems": ["C102_gaussian", "C102_gaussian_not_finite", "C102_poisson", "C102_poisson_not_finite", "C102_number_of_parameters", "C102_poisson_zero_refuted"], "note": "REFUTED in one point: where the Poisson rate is 0 and nothing was counted the probability is 1, but the value is -1e16 (C102_poisson_zero_refuted). The rest is proved; gammaln is a parameter with gammaln(k+1) = log k!."},
 {"property": "C103", "status": "partial", "theorems": ["C103_periodogram", "C103_averaged", "C103_difference", "C103_not_finite", "C103_zero_error", "C103_zero_array", "C103_ratio_refuted", "C103_array_refuted"], "note": "REFUTED in two points: for m > 1, or m given as an array, the value is twice the logarithm of the density up to a constant, so that differences (and every likelihood ratio, deviance and error derived from them) are doubled (C103_ratio_refuted; the factor is proved in C103_difference and C103_averaged); m = 1 and m = [1] give different values (C103_array_refuted)."},
 {"property": "C104", "status": "partial", "theorems": ["C104_laplace", "C104_standard_deviation_refuted"], "note": "REFUTED: the errors are used as the scale parameter b, whose standard deviation is sqrt(2) b (C104_standard_deviation_refuted). With b in that place the statement is proved (C104_laplace)."},
 {"property": "C105", "status": "partial", "theorems": ["C105_prior", "C105_prior_outside", "C105_prior_number", "C105_prior_missing", "C105_undefined", "C105_not_given", "C105_tied_values", "C105_sum", "C105_excluded", "C105_psd", "C105_gaussian", "C105_poisson", "C105_laplace", "C105_psd_excluded", "C105_tied_error", "C105_tied_refuted", "C105_alignment_refuted"], "note": "REFUTED for tied parameters: the prior counts them and the likelihoods of power spectra and of Laplace errors do not, so that every call raises IncorrectParameterError (C105_tied_error, C105_tied_refuted); the Gaussian and Poisson posteriors evaluate the priors and the model at different values (C105_alignment_refuted). Proved without tied parameters."},
 {"property": "C106", "status": "partial", "theorems": ["C106_criteria_likelihood", "C106_criteria_posterior", "C106_aic_refuted", "C106_preference_refuted", "C106_sign_refuted", "C106_merit", "C106_statistics", "C106_residuals"], "note": "REFUTED for the two criteria: they add the penalty to -log L (or to the negative log posterior) instead of -2 log L (C106_aic_refuted), which changes which of two models is preferred (C106_preference_refuted); with neg=False the deviance of a likelihood has the wrong sign (C106_sign_refuted). The values that are computed, the deviance for neg=True and the statistics are proved."},
 {"property": "C107", "status": "partial", "theorems": ["C107_kept", "C107_failed", "C107_total", "C107_failure_refuted", "C107_bounds", "C107_bounds_methods", "C107_bounds_refuted"], "note": "REFUTED in two points: the failure value is compared with -1e16 although the function that is minimized has the opposite sign, so 1e16 is kept (C107_failure_refuted); bounds are passed only if none is set (C107_bounds, C107_bounds_refuted). The loop is proved."},
 {"property": "C108", "status": "partial", "theorems": ["C108_lrt", "C108_pvalue", "C108_pvalue_range", "C108_pvalue_monotone", "C108_empty_error", "C108_simulations", "C108_simulation_error", "C108_failed_refuted", "C108_powers"], "note": "REFUTED for failed fits: the warning says that the simulation is skipped, but it enters the p-value with the statistic 0 (C108_failed_refuted). The rest is proved; no simulations give ZeroDivisionError."},
 {"property": "C109", "status": "partial", "theorems": ["C109_highest", "C109_one", "C109_distinct", "C109_all", "C109_absent_error", "C109_ties_refuted"], "note": "REFUTED for equal ratios: the first place is returned for all of them (C109_ties_refuted); for different ratios the places are different (C109_distinct). n = 0 returns everything (C109_all)."},
 {"property": "C110", "status": "partial", "theorems": ["C110_value", "C110_affine", "C110_same", "C110_scale_refuted"], "note": "REFUTED for the ratio: the value is the pooled variance, not divided by W, and scales with the square of the unit (C110_affine, C110_scale_refuted). The weighted average is proved (C110_value)."},
 {"property": "C111", "status": "proved", "theorems": ["C111_columns", "C111_total", "C111_coherence", "C111_swap", "C111_brighter", "C111_resolution", "C111_nothing_error", "C111_algorithm_error", "C111_uncertainties_error", "C111_norm_error"], "note": "Theorems hold for every filter that keeps the length of its input (C111_brighter: and is homogeneous); divisions by zero scatter are excluded where they matter. C111_*_error give the exceptions for no common segment, an unknown algorithm, light curves with their own error bars and an unknown normalization."},
 {"property": "C112", "status": "partial", "theorems": ["C112_gti", "C112_events", "C112_fields", "C112_unknown_error", "C112_bins_error", "C112_bins_refuted", "C112_gti_changed_refuted", "C112_event_bins_refuted"], "note": "REFUTED: n of the objects is 2 len(freq), which is never the number of bins (C112_bins_error, C112_bins_refuted); the good time intervals of both inputs are overwritten by their intersection (C112_gti_changed_refuted); event lists with a segment size that is not a multiple of dt are counted in bins wider than dt while frequencies use dt (C112_event_bins_refuted). Proved: the intersection is used, and the other fields are right."},
 {"property": "C113", "status": "partial", "theorems": ["C113_group", "C113_groups", "C113_range", "C113_minus", "C113_blank_error", "C113_decode", "C113_none_error", "C113_open_error", "C113_pha", "C113_outside_error", "C113_between", "C113_first_refuted", "C113_mixed_refuted", "C113_third_refuted", "C113_twice_refuted"], "note": "REFUTED in part: decoding and PHA replacement are proved for all well formed strings, but a channel field directly after the opening parenthesis is not found (ValueError), a range with a colon next to another group raises ValueError, a third number in a group is dropped silently, and reinterpreting a file twice changes the PHA values. Underscores inside integers are not modelled."},
 {"property": "C114", "status": "partial", "theorems": ["C114_energy", "C114_monotone", "C114_detector", "C114_group", "C114_outside_error", "C114_epoch_error", "C114_negative_refuted", "C114_rough", "C114_rough_agree", "C114_case", "C114_unknown_error", "C114_unknown_conversion_error", "C114_smooth", "C114_axaf", "C114_axaf_refuted", "C114_xte"], "note": "REFUTED in part: the values are proved, but a negative channel is accepted and gives the energy of a channel counted from the end, and AXAF is known to get_rough_conversion_function only. Energies are exact rationals with two decimals instead of floats; the table is proved to cover each channel once."},
 {"property": "C115", "status": "partial", "theorems": ["C115_read", "C115_xmm", "C115_xte", "C115_xte_plain", "C115_xmm_plain", "C115_xmm_group_error", "C115_no_colon_error", "C115_conflict_error", "C115_prefix_refuted", "C115_shorter_refuted", "C115_twice_refuted", "C115_list_refuted"], "note": "REFUTED in part: the reading is proved for every compatible database, but a mission name also selects missions whose names it begins (astro-e selects ASTRO-E2), a shorter path given later silently removes all longer ones, applying the XMM correction twice appends GTI0 twice, and a GTI list of several words gets the characters of \",GTI0\" appended one by one."},
 {"property": "C116", "status": "proved", "theorems": ["C116_plain", "C116_default", "C116_case", "C116_no_instrument", "C116_instrument", "C116_mode", "C116_is_instrument", "C116_word_error", "C116_words_error", "C116_search", "C116_search_none"], "note": "Values that are dictionaries come back with lower case keys; an instrument whose entry is a word gives a ValueError (proved), an instrument name used as key gives the default (proved)."},
 {"property": "C117", "status": "proved", "theorems": ["C117_events", "C117_weighted", "C117_one_weight", "C117_numba", "C117_origin", "C117_instant_error"], "note": "Proved for the fast path (events), weights in an array, one weight without numba; equality of the paths for unit weights; invariance under a shift of the times; ZeroDivisionError when all events are at one time. Positive weights and at least one bin and harmonic. The last event is never used (C66)."},
 {"property": "C118", "status": "partial", "theorems": ["C118_no_gti_error", "C118_weight_refuted", "C118_gti_masked_refuted", "C118_gti_origin_refuted"], "note": "REFUTED: with numba a single weight is ignored (C118_weight_refuted); an array of GTIs with as many rows as events is masked as if it were a per-event array, so that the exposure is lost (C118_gti_masked_refuted); times are counted from the first event but GTIs are not, so a shift turns the statistic into nan (C118_gti_origin_refuted). Proved: exposure correction without GTIs is a ValueError."},
 {"property": "C119", "status": "proved", "theorems": ["C119_search", "C119_one_point"], "note": "Under the stated conditions; an empty bin gives nan (C65). expocorr is not modelled."},
 {"property": "C120", "status": "proved", "theorems": ["C120_peaks", "C120_first", "C120_none", "C120_empty_error"], "note": "Empty input is an IndexError (C120_empty_error)."},
 {"property": "C121", "status": "partial", "theorems": ["C121_counts", "C121_total", "C121_periodic", "C121_length_error", "C121_scalar_error", "C121_no_event_error", "C121_epoch_refuted"], "note": "REFUTED: with mjdref given and no pepoch the reference is the middle of the observation minus mjdref days (C121_epoch_refuted). Proved: the counts with the reference actually used, the total, the equality of the two turns, the errors for weights of another length, a single weight and no events."},
 {"property": "C122", "status": "partial", "theorems": ["C122_one_reference", "C122_references", "C122_others", "C122_symmetric", "C122_scale", "C122_bound", "C122_self", "C122_self_refuted", "C122_error_refuted", "C122_pair_error", "C122_number_error", "C122_length_error", "C122_no_bands_error", "C122_one_bin", "C122_empty_std", "C122_bins_error", "C122_references_error", "C122_one_number_error", "C122_others_error"], "note": "REFUTED in two parts. Proved: the values of all bands for one reference, one per band, and the sum of the others (whose covariance is the sum of the covariances), nan exactly when the excess variance of the reference is not positive, the bound, the errors raised for pairs, numbers, wrong lengths and no bands. Refuted: a band against itself gives n/(n-1) times its standard deviation, because covariances divide by n-1 and variances by n (C122_self, C122_self_refuted); the error uses the noise deviation where the formula has the noise variance, so counts and noise twice as large do not give twice the error (C122_error_refuted)."},
 {"property": "C123", "status": "partial", "theorems": ["C123_spectrum", "C123_reference", "C123_photons", "C123_bands", "C123_bands_equal_steps", "C123_bands_refuted", "C123_energies_counted_refuted", "C123_edge_refuted", "C123_pair_ignored", "C123_no_dt_error", "C123_default_bands", "C123_one_reference", "C123_number_error", "C123_length_error"], "note": "REFUTED. Proved: the spectrum of any event list in any order, with the exact content of every band and reference (C123_spectrum, C123_reference), which is the photons if no energy lies in the time range (C123_photons); the bands made from the energies, disjoint from other energies if these are equally spaced (C123_bands, C123_bands_equal_steps). Refuted: energies are counted as if they were arrival times (C123_energies_counted_refuted); a photon at the edge of a band is counted in the band and in its reference (C123_edge_refuted); bands made from unequal energies hold other energies (C123_bands_refuted); a reference band given as a pair is ignored (C123_pair_ignored)."},
 {"property": "C124", "status": "partial", "theorems": ["C124_first_segment", "C124_average_refuted", "C124_one_reference_error", "C124_size_error", "C124_negative_size_error"], "note": "REFUTED: the end of the observation is computed from the segment size, so only the first segment is ever used (C124_first_segment for all inputs, C124_average_refuted with a witness); one light curve as reference always raises AttributeError (C124_one_reference_error); size 0 raises ValueError."},
 {"property": "C125", "status": "partial", "theorems": ["C125_values", "C125_range_values", "C125_unit_range", "C125_sorted", "C125_in_range", "C125_bin_probability", "C125_empty_bin", "C125_single_gti", "C125_several_gtis", "C125_filled", "C125_energies_edges", "C125_energies_centres", "C125_negative_error", "C125_negative_counts_error", "C125_edges_error", "C125_one_bin_refuted", "C125_stretch_refuted", "C125_squeeze_refuted", "C125_first_zero", "C125_no_gti_error"], "note": "REFUTED in two corners. Proved: the value for every random number, the exact share of every bin, no value in empty bins or outside, the order, the intervals (one or several, sorted and inside), the energies, the errors for negative values and wrong edges; with the older library a random number of exactly 0 before an empty first bin gives nan (C125_first_zero). Refuted: with a single bin the edges are ignored, so an energy spectrum of one bin 5-10 gives energies between 0 and 1 (C125_one_bin_refuted); with a single interval the light curve is stretched or squeezed to fill it, also when its bins cover more or less than the interval (C125_stretch_refuted, C125_squeeze_refuted). Cubic interpolation (use_spline) is left out."},
 {"property": "C126", "status": "partial", "theorems": ["C126_inverse", "C126_curve", "C126_model", "C126_power_law", "C126_spectrum", "C126_long_curve", "C126_long_spectrum", "C126_odd_refuted", "C126_no_powers_error", "C126_no_bins_error", "C126_poisson_means"], "note": "REFUTED for an odd number of bins: the imaginary part of the last amplitude is set to 0 although its frequency is not the Nyquist frequency (C126_odd_refuted). Proved: the transform of numpy.fft.irfft, the amplitudes at all frequencies, the exact mean and standard deviation, nan exactly when the curve is constant, models, power laws, given spectra, the piece of a longer light curve; a spectrum given together with red_noise is read at the resolution of the longer curve (C126_long_spectrum). The normal numbers come from the global generator, not from random_state; Poisson noise is left out."},
 {"property": "C127", "status": "partial", "theorems": ["C127_full", "C127_same", "C127_filtered", "C127_delta", "C127_total", "C127_simple_response", "C127_half_bin", "C127_time_response", "C127_time_response_default", "C127_energy_response", "C127_too_small_error", "C127_one_bin_error", "C127_zero_bin_error", "C127_negative_error", "C127_below_error", "C127_empty_band_error", "C127_reversed_band", "C127_delta_width_refuted", "C127_square_refuted", "C127_estart_refuted", "C127_more_energies_refuted", "C127_one_bin_refuted", "C127_relativistic", "C127_relativistic_order_error", "C127_relativistic_refuted", "C127_relativistic_later_refuted", "C127_relativistic_negative_error"], "note": "REFUTED in several parts. Proved: the content of every bin and the times in the three modes for responses of two bins or more, delays by delta responses, the total, the constant response, the shape of the relativistic response, the averages of channels when energies start at 0. Refuted: a response of one bin gives an empty light curve (C127_one_bin_error, C127_one_bin_refuted); width=1 is not a delta unless dt=1 (C127_delta_width_refuted); the default range of time_response takes the number of times for the number of energies and drops the last channel of a square table (C127_square_refuted); energies are offset by estart in the wrong direction (C127_estart_refuted); tables with more energies than times are refused (C127_more_energies_refuted); the decay of relativistic_ir starts at 1, or at exp(-decay (t2-4)/dt), instead of the secondary peak (C127_relativistic_refuted, C127_relativistic_later_refuted). The times of these light curves are half a bin later than those of the other simulated light curves (C127_half_bin)."},
 {"property": "C128", "status": "partial", "theorems": ["C128_one_list", "C128_two_lists", "C128_error_units_refuted"], "note": "REFUTED for the error bars. Proved: the value and the error formula as coded for every band, one and two event lists, bands that are too faint. Refuted: the error contains 2 rms noise where the published formula has 2 rms^2 noise^2, so the error of a fractional rms changes with the unit of time."},
 {"property": "C129", "status": "partial", "theorems": ["C129_rms_column", "C129_lag_column", "C129_covariance_column", "C129_use_pi_refuted", "C129_reference_refuted"], "note": "REFUTED. Proved: the rms, lag and covariance spectra do not depend on use_pi at all. Refuted: an event list with channels only works for the counts and fails for the rms; the reference band is taken from the second list, so a second list without photons in it fails although the first list has them."},
 {"property": "C130", "status": "proved", "theorems": ["C130_counts", "C130_no_column_error", "C130_total", "C130_centres", "C130_lengths_error"], "note": "exact counts, additivity over non-decreasing edges, centres, TypeError without the column"},
 {"property": "C131", "status": "partial", "theorems": ["C131_nan", "C131_excess_variance_refuted", "C131_band_light_curve"], "note": "REFUTED. The function returns its results and the constructor drops them: every value and error is nan for every input (C131_nan); witness with a variable light curve."},
 {"property": "C132", "status": "proved", "theorems": ["C132_one_list", "C132_two_lists", "C132_bound", "C132_self", "C132_delay"], "note": "values, phase errors (overlapping and separate bands), nan and AttributeError cases for one and two event lists; bound; zero lag of the reference; exact delay in one bin. The noise in the error counts all photons of the band, also those outside the segments."},
 {"property": "C133", "status": "proved", "theorems": ["C133_one_list", "C133_two_lists", "C133_modulus", "C133_self"], "note": "values and errors for one and two event lists, nan and TypeError cases, modulus, covariance with itself equals the rms value of C128"},
 {"property": "C134", "status": "partial", "theorems": ["C134_runs_all", "C134_runs_close", "C134_runs_apart", "C134_split", "C134_split_gtis", "C134_short_error", "C134_step_gap_refuted", "C134_lost_samples_refuted"], "note": "REFUTED for gaps equal to the smallest step (the new intervals touch and are not separate) and for samples closer than dt (the first and last are dropped). Proved: with the default GTI, dt the smallest and median step and min_gap larger, the pieces are exactly the runs of at least min_points samples; with given GTIs every piece lies in one run and in the GTIs; one sample is an error."},
 {"property": "C135", "status": "proved", "theorems": ["C135_sort_counts"], "note": "For every argsort that sorts, also with ties."},
 {"property": "C136", "status": "partial", "theorems": ["C136_apply_gtis", "C136_tstart_refuted"], "note": "REFUTED for tstart: it becomes an array with one value per sample. Proved: kept bins, columns, dt, GTIs, tseg."},
 {"property": "C137", "status": "proved", "theorems": ["C137_checks", "C137_no_gti"], "note": "With GTIs that hold at least one sample each, or without numba."},
 {"property": "C138", "status": "partial", "theorems": ["C138_segments", "C138_gtis", "C138_once_refuted"], "note": "REFUTED for a GTI that is not a whole number of bins: the last bin reaches past its end and counts an event of the next GTI. Proved: for segments and for GTIs of whole numbers of bins the counts of every bin are those of the event list."},
 {"property": "C139", "status": "proved", "theorems": ["C139_segments", "C139_gtis"], "note": "Segments with fewer than two events are not analysed although their start is returned (C140)."},
 {"property": "C140", "status": "partial", "theorems": ["C140_segments", "C140_gtis", "C140_no_segment_error", "C140_aligned_refuted"], "note": "REFUTED: a segment with fewer than two events has a start and stop but no rate, so that rates are shifted against starts. Proved: which rates are returned, for segments and GTIs; no analysed segment is a ValueError."},
 {"property": "C141", "status": "partial", "theorems": ["C141_averaged_ignored", "C141_single_ignored", "C141_single_several", "C141_events_replaced", "C141_curve_replaced", "C141_constructor_refuted", "C141_own_refuted"], "note": "REFUTED. Proved: the constructors give the same result for every gti (one interval for Powerspectrum, TypeError for several); the functions replace the intervals of the data by gti. Refuted: a spectrum with gti [0,2] averages the three segments of [0,6]; gti [0,6] for data good in [0,2] averages segments outside the good time."},
 {"property": "C142", "status": "proved", "theorems": ["C142_events", "C142_averaged", "C142_averaged_curve", "C142_checks", "C142_list_joined", "C142_list", "C142_list_one", "C142_events_any_mean", "C142_single", "C142_single_curve", "C142_no_dt_error", "C142_list_common_gti"], "note": "table of the spectrum including the saved spectra of segments, checks of the constructors, lists of light curves without extra intervals"},
 {"property": "C143", "status": "partial", "theorems": ["C143_segments", "C143_pairing_refuted", "C143_lists_common_gti"], "note": "REFUTED. Proved: the result is the averaged cross spectrum of the segments of the two lists paired by position. Refuted: two light curves with the same times and good time [0,4] and [2,6] give [1,2] paired with [3,4] and [3,4] with [5,6]."},
 {"property": "C144", "status": "partial", "theorems": ["C144_matrix", "C144_matched", "C144_checks", "C144_quiet_refuted", "C144_size_refuted"], "note": "REFUTED. Proved: columns, times, frequencies, mean rate and conversion factor for all event lists; as many columns as times when every segment has two events and is a whole number of bins. Refuted: a segment with fewer than two events has a time and no column; a segment of 2.5 bins gives five columns and four times."},
 {"property": "C145", "status": "proved", "theorems": ["C145_rms", "C145_rms_frac", "C145_lengths"], "note": "value, error and failure for columns of a different length; for spectra in fractional normalization the integral of the powers of the object"},
 {"property": "C146", "status": "partial", "theorems": ["C146_columns", "C146_kept", "C146_changed_refuted", "C146_row"], "note": "REFUTED. Proved: the colors are those of power_color of each column, and without excluded intervals dyn_ps is unchanged. Refuted: with an excluded interval the powers inside it are overwritten in dyn_ps, because columns are views."},
 {"property": "C147", "status": "partial", "theorems": ["C147_plain", "C147_rebin", "C147_spacing", "C147_width_refuted"], "note": "REFUTED. Proved: without rebinning the bins with data of shift_and_add, df their distance; with rebinning by m the mean frequency, mean power and sum of weights of m bins, frequencies m df apart. Refuted: df of the rebinned spectrum is that of the object."},
 {"property": "C148", "status": "proved", "theorems": ["C148_segments", "C148_whole", "C148_light_curves", "C148_events_is", "C148_curves_is", "C148_no_common_error"], "note": "Values of all attributes for all inputs: events per segment, events over the whole interval (one interval, all events inside), light curves with Poisson errors and equal times."},
 {"property": "C149", "status": "partial", "theorems": ["C149_exchange", "C149_resolution_refuted"], "note": "REFUTED when the time resolutions of the two lists differ: the bin time is made compatible with the first list only (C149_resolution_refuted: dt 2 and 3, 6 and 4 bins). Proved when the resolutions are equal (C149_exchange)."},
 {"property": "C150", "status": "partial", "theorems": ["C150_kept", "C150_common", "C150_changed_refuted", "C150_restricted", "C150_whole", "C150_segments", "C150_refused_error"], "note": "REFUTED for segment_size=None: the GTIs of both inputs are replaced with the common ones (C150_common for all inputs, C150_changed_refuted). Proved unchanged with a segment size (C150_kept)."},
 {"property": "C151", "status": "proved", "theorems": ["C151_bound", "C151_error", "C151_error_sum", "C151_overlap", "C151_same", "C151_phase_lag", "C151_time_lag", "C151_many", "C151_no_auxil_error"], "note": "Both cases (overlap or not); lag errors that are not numbers are None."},
 {"property": "C152", "status": "partial", "theorems": ["C152_corrected", "C152_halves", "C152_segments", "C152_halves_refuted", "C152_halves_errors", "C152_refused_error", "C152_rest"], "note": "REFUTED for pds1 and pds2: unnorm_power and errors are corrected, power is not (C152_halves for all inputs, C152_halves_refuted). Proved for the spectrum itself (C152_corrected) and its segments (C152_segments)."},
 {"property": "C153", "status": "partial", "theorems": ["C153_counts", "C153_gauss", "C153_none_refuted"], "note": "REFUTED the last part: with the default power_type='real' the imaginary part is dropped also for norm='none' (C153_none_refuted). The values are proved (C153_counts, C153_gauss)."},
 {"property": "C154", "status": "proved", "theorems": ["C154_array", "C154_internal", "C154_meta", "C154_one_place", "C154_empty"], "note": "Exact contents of the lists; main array None gives empty lists. Values that are neither numbers, texts nor arrays of numbers are taken as objects."},
 {"property": "C155", "status": "partial", "theorems": ["C155_equal", "C155_reflexive", "C155_main_ignored", "C155_times_refuted", "C155_symmetric_refuted", "C155_nan_refuted", "C155_empty_refuted"], "note": "REFUTED: the main array is never compared (C155_main_ignored for all objects, C155_times_refuted: event lists with different times and even different numbers of events are equal); not symmetric once a mask has been read; an object with a nan number differs from itself; two empty lists raise TypeError. The exact meaning of True (C155_equal) and reflexivity without nan are proved."},
 {"property": "C156", "status": "partial", "theorems": ["C156_table", "C156_round_trip", "C156_empty_error", "C156_any_case", "C156_case_refuted", "C156_equal_refuted", "C156_empty_refuted"], "note": "REFUTED for names with upper case letters (renamed, may overwrite another attribute), for objects without rows (meta data lost) and for the mask (cleared by the gti setter, so that the object read back is not equal to the original). Proved attribute by attribute for lower case names."},
 {"property": "C157", "status": "partial", "theorems": ["C157_dates", "C157_date", "C157_total", "C157_numbers", "C157_init_dates", "C157_init_lost_error", "C157_init_columns", "C157_init_empty", "C157_reference_refuted"], "note": "REFUTED: StingrayTimeseries drops the reference found by interpret_times, so dates (MJD > 10000) given without mjdref become seconds since the first date with mjdref 0 (C157_init_lost_error for all lists). interpret_times itself and series with a reference other than 0 are proved, as is the length check of array attributes."},
 {"property": "C158", "status": "partial", "theorems": ["C158_grid", "C158_length_error", "C158_dt_error", "C158_exceeds_refuted", "C158_limits"], "note": "REFUTED for the end: np.arange(min_freq, max_freq + df, df) exceeds max_freq when the range is not a multiple of df (C158_exceeds_refuted: 0.15 to 0.5 by 0.1 gives 0.55). Proved: the exact grid, that it reaches max_freq and stays below max_freq + df, and the errors. Exact arithmetic: rounding of arange not modelled."},
 {"property": "C159", "status": "proved", "theorems": ["C159_periodogram", "C159_undefined", "C159_shift", "C159_linear", "C159_zero", "C159_list", "C159_negative", "C159_even_negative", "C159_even_positive", "C159_lengths_error"], "note": "Over exact reals; nan and infinity are None. C159_periodogram, C159_undefined (exact domain), C159_shift, C159_linear, C159_zero, C159_even_negative, C159_even_positive."},
 {"property": "C160", "status": "partial", "theorems": ["C160_even", "C160_slow_refuted", "C160_frequencies_refuted"], "note": "REFUTED twice: trig_sum returns (sines, cosines) and the code names them csum, ssum for the phase tau (C160_slow_refuted: power 4 for 3 with three points and three frequencies), and the number of frequencies is used where the number of points belongs (C160_frequencies_refuted: adding a frequency changes the value at the others). Proved: agreement for evenly spaced times at Fourier frequencies other than Nyquist, for any number of frequencies (C160_even), where all these sums vanish. trig_sum of astropy is taken as exact."},
 {"property": "C161", "status": "partial", "theorems": ["C161_symmetric", "C161_full", "C161_cross_even", "C161_values", "C161_power_even", "C161_df_ignored", "C161_df_refuted", "C161_unnorm_refuted", "C161_rms_error", "C161_bookkeeping", "C161_type_error", "C161_bin_width", "C161_rms_refuted"], "note": "REFUTED in three points: LombScargleCrossspectrum hands on df=None (C161_df_ignored, C161_df_refuted); with power_type real or absolute unnorm_power is the normalized power (C161_values, C161_unnorm_refuted); df of spectra made from data is None and compute_rms raises TypeError (C161_rms_error for all inputs). Proved: values, factor, symmetry, agreement with the ordinary spectra for slow transforms (C161_cross_even, C161_power_even)."},
 {"property": "C162", "status": "proved", "theorems": ["C162_candidates", "C162_candidates_gaps", "C162_no_acceleration", "C162_no_level", "C162_no_photons"], "note": "C162_candidates: the table is a permutation of the list in S_accel; C162_candidates_gaps after filling of gaps; C162_no_acceleration: z = 0 is the search in the power spectrum. Overlap-and-save convolution is taken as the central part of the linear convolution (proved for real arrays in C40). Without interbinning, fft_rescale, files and plots. Templates with an even number of bins (|int(2z)| odd and above 40) are not covered."},
 {"property": "C163", "status": "partial", "theorems": ["C163_increasing", "C163_transform_order", "C163_length_refuted", "C163_sign_refuted", "C163_lengths"], "note": "REFUTED for the documented length and sign: the result has 2n-1 entries (C163_length_refuted) and the middle value is pi/4 (A_(k+1) - A_k) (C163_sign_refuted; harmless for powers). Proved: C163_increasing, C163_transform_order."},
 {"property": "C164", "status": "partial", "theorems": ["C164_filled", "C164_low_rate", "C164_high_rate", "C164_one_interval_ignored", "C164_one_interval_refuted", "C164_zmax_error", "C164_zmax_refuted", "C164_no_acceleration_error"], "note": "REFUTED: a single good time interval is ignored (C164_one_interval_ignored for all inputs, C164_one_interval_refuted), +zmax is never searched (C164_zmax_error, C164_zmax_refuted), zmax = 0 raises ValueError (C164_no_acceleration_error). Proved for two or more intervals: C164_filled, C164_low_rate, C164_high_rate."},
 {"property": "C165", "status": "proved", "theorems": ["C165_normalize", "C165_sound", "C165_unique", "C165_fuel"], "note": "Exact reals; the loops carry fuel and C165_fuel shows that enough fuel exists for every phase."},
 {"property": "C166", "status": "partial", "theorems": ["C166_bracket", "C166_bracket_found", "C166_length_error", "C166_guess", "C166_solution", "C166_copy", "C166_sinusoid", "C166_same_fit", "C166_short_error", "C166_short_refuted", "C166_flat_error", "C166_error_origin_refuted"], "note": "REFUTED in part: profiles with fewer than 32 bins raise ValueError (C166_short_refuted, C166_short_error); constant profiles raise ValueError (C166_flat_error); the standard deviation of the transform leaves out the first bin, so rotating a profile changes the error of the amplitude (C166_error_origin_refuted). Proved: the first guess (C166_guess), the equation solved and the formulas returned (C166_solution), exact recovery of copies (C166_copy) and sinusoids (C166_sinusoid). The bracketing search returns the first trial value with another sign (C166_bracket, C166_bracket_found)."},
 {"property": "C167", "status": "proved", "theorems": ["C167_toa", "C167_sinusoid"], "note": "The plot and the unused arguments are left out. Delays of C167_sinusoid are on the grid of 64 trial shifts; at least 32 bins (see C166)."},
 {"property": "C168", "status": "partial", "theorems": ["C168_width_zero", "C168_model", "C168_shape_unique", "C168_slope_unique", "C168_amplitude", "C168_peak", "C168_standard", "C168_iff", "C168_deriv_refuted"], "note": "REFUTED: the derivatives with respect to mean and width use x instead of (x - mean) / width before the cosine (C168_deriv_refuted); C168_iff gives the exact condition under which they are right. Proved: the curve (C168_model), the derivative by the amplitude (C168_amplitude), all three at the peak (C168_peak) and for mean 0 and width 1 (C168_standard). Missing: right derivatives elsewhere, which the code does not compute."},
 {"property": "C169", "status": "partial", "theorems": ["C169_length_zero", "C169_obs_length", "C169_plain", "C169_leak_refuted"], "note": "REFUTED: the default dictionary of fixed is changed in place, so after one call with obs_length the width stays fixed in later calls without it (C169_leak_refuted). Proved: C169_obs_length, C169_plain. The fitter of astropy is not modelled."},
 {"property": "C170", "status": "partial", "theorems": ["C170_incomplete", "C170_gamma", "C170_same_tail", "C170_forever_refuted"], "note": "REFUTED in part: for half-integer a the series diverges and the loop does not end while its terms stay above 1e-15, e.g. a = 3/2, z = 23 (C170_forever_refuted; in floating point the terms overflow and the result is nan). Proved for whole a: C170_incomplete, C170_gamma."},
 {"property": "C171", "status": "partial", "theorems": ["C171_even", "C171_two", "C171_two_error", "C171_branches", "C171_few_error", "C171_three_refuted", "C171_three_error", "C171_monotone_refuted"], "note": "REFUTED in part: with 3 degrees of freedom and 45 < chi2 <= 60 it never returns in exact arithmetic (C171_three_refuted, C171_three_error; nan in floating point); the jump of 3e-4 at the limit of the asymptotic regime makes the probability increase with chi squared (C171_monotone_refuted). Proved for even degrees of freedom: C171_even; exact formula for two: C171_two."},
 {"property": "C172", "status": "proved", "theorems": ["C172_inverse", "C172_extended_increasing", "C172_extended_bounds"], "note": "The Gaussian tail is the library's. The accuracy of the approximation of Abramowitz and Stegun is not proved."},
 {"property": "C173", "status": "partial", "theorems": ["C173_pds", "C173_z2", "C173_fold", "C173_pds_large", "C173_phase_level", "C173_phase_order", "C173_phase_log", "C173_four_bins_refuted", "C173_four_bins_error"], "note": "REFUTED in part: a folded profile of four bins with a statistic between 45 and 60 has no log probability (C173_four_bins_refuted). Proved: C173_pds, C173_z2, C173_fold, C173_pds_large, C173_phase_level, C173_phase_order, C173_phase_log."},
 {"property": "C174", "status": "partial", "theorems": ["C174_odd", "C174_two_tones", "C174_origin", "C174_even_error", "C174_even_lost_error", "C174_even_refuted", "C174_nearest_short"], "note": "REFUTED for segments with an even number of bins: np.searchsorted runs on the unsorted output of fftfreq, and both harmonics are read at the last bin, whatever the centroids (C174_even_error, C174_even_lost_error, C174_even_refuted). Proved for an odd number of bins: C174_odd, C174_two_tones, C174_origin."},
 {"property": "C175", "status": "partial", "theorems": ["C175_mean", "C175_rms", "C175_reversed_error", "C175_reversed_refuted"], "note": "REFUTED in part: get_parameters returns phases of cos(x + phi), waveform uses cos(x - phi), the result is the light curve run backwards (C175_reversed_error, C175_reversed_refuted). Proved: C175_mean, C175_rms."},
 {"property": "C176", "status": "partial", "theorems": ["C176_near", "C176_low", "C176_high_error", "C176_distance_refuted", "C176_wrap_refuted", "C176_equal_segments", "C176_no_segments_error", "C176_lag", "C176_stddev_refuted"], "note": "REFUTED in part: psi_distance tests avg_psi instead of the distance and puts the whole array in place of each entry (C176_high_error, C176_distance_refuted, C176_wrap_refuted); the standard deviation is the mean over the number of segments (C176_stddev_refuted). Proved: C176_near, C176_low, C176_equal_segments, C176_lag."},
 {"property": "C177", "status": "partial", "theorems": ["C177_rms", "C177_rms_refused", "C177_positive", "C177_ccf", "C177_ccf_error", "C177_few_segments_error", "C177_moduli_error", "C177_peak_error", "C177_lag_refuted"], "note": "REFUTED in part: ccf_error transforms the moduli of the cross spectra, phases have no effect and the largest correlation is always at lag zero (C177_moduli_error, C177_peak_error, C177_lag_refuted); one segment fails (C177_few_segments_error). Proved: C177_rms, C177_positive, C177_ccf, C177_ccf_error."},
 {"property": "C178", "status": "partial", "theorems": ["C178_grid", "C178_above_error", "C178_faint_error", "C178_no_bins_error", "C178_quantiles", "C178_quantile_below", "C178_faint_source_refuted"], "note": "REFUTED in part: five counts in 2000 s without background raise ValueError, negative number of points (C178_faint_source_refuted); bins below 0.01 counts per second with any bin not above the background are always refused (C178_faint_error); rates below 0.1 are below all the grid (C178_above_error). Proved: C178_grid, C178_quantiles."},
 {"property": "C179", "status": "proved", "theorems": ["C179_weights", "C179_prob", "C179_no_weight_error", "C179_transform", "C179_empty_grid_error", "C179_loglike", "C179_loglike_low", "C179_bins", "C179_no_background", "C179_no_ratio", "C179_no_fraction", "C179_input"], "note": "gammaincinv, poisson.pmf and norm.pdf are parameters; the nested sampler is not modelled. If every probability is zero all weights are nan (C179_no_weight_error)."},
 {"property": "C180", "status": "proved", "theorems": ["C180_mean", "C180_between", "C180_weights", "C180_scaled", "C180_one", "C180_no_weight_error", "C180_selected", "C180_best", "C180_all"], "note": "Zero weights give nan (C180_no_weight_error)."},
 {"property": "C181", "status": "partial", "theorems": ["C181_sound", "C181_fixed", "C181_ones", "C181_few", "C181_no_variation_error", "C181_constant_refuted", "C181_tolerance"], "note": "REFUTED in part: a constant light curve has zero plain spectrum but nan adaptive spectrum (C181_constant_refuted). Proved: C181_sound, C181_fixed, C181_ones, C181_few."},
 {"property": "C182", "status": "partial", "theorems": ["C182_variance", "C182_scaled", "C182_equal", "C182_single_error", "C182_bandwidth", "C182_one_taper_error", "C182_default_refuted"], "note": "REFUTED in part: half-bandwidths from 0.5 to 1 give one taper, and all the default jackknife variances are nan (C182_default_refuted, C182_one_taper_error). Proved: C182_variance, C182_scaled, C182_equal."},
 {"property": "C183", "status": "partial", "theorems": ["C183_columns", "C183_shift", "C183_scale", "C183_even", "C183_frequency", "C183_odd_error", "C183_bandwidth_error", "C183_white", "C183_white_periodogram", "C183_odd_refuted", "C183_leahy_refuted", "C183_powers", "C183_normalizations"], "note": "REFUTED in part: an odd number of bins loses the highest frequency (C183_odd_refuted, C183_odd_error); Leahy powers are twice too large (C183_leahy_refuted; C183_white gives 2 n times the variance before normalization, less the leak at zero frequency, C183_white_periodogram n times the variance). Proved: C183_columns, C183_shift, C183_scale, C183_even."},
 {"property": "C184", "status": "partial", "theorems": ["C184_same_error", "C184_several_error", "C184_energy", "C184_gti_refuted", "C184_energy_refuted", "C184_no_times_error"], "note": "REFUTED: the intervals given are checked but the data are selected by those of the light curve (C184_gti_refuted, C184_same_error); the taper is divided by its energy, not by the root of it (C184_energy_refuted). Proved: C184_energy, C184_several_error."},
 {"property": "C185", "status": "proved", "theorems": ["C185_distinct", "C185_logarithms", "C185_others", "C185_complete", "C185_order", "C185_value", "C185_types", "C185_known", "C185_types_error", "C185_few_error", "C185_which_logs"], "note": "tinygp's log probability is a parameter; jax transformations are not modelled."},
 {"property": "C186", "status": "proved", "theorems": ["C186_red_noise", "C186_qpo", "C186_sum", "C186_other_error"], "note": "tinygp's Exp and Celerite kernels are given by their formulas."},
 {"property": "C187", "status": "partial", "theorems": ["C187_gaussian", "C187_exponential", "C187_constant", "C187_skew_gaussian", "C187_skew_exponential", "C187_fred", "C187_other_error", "C187_gaussian_peak", "C187_exponential_peak", "C187_skew_gaussian_peak", "C187_skew_exponential_peak", "C187_skew_gaussian_same", "C187_skew_exponential_same", "C187_fred_peak", "C187_fred_only", "C187_fred_before_error", "C187_fred_maximum_refuted", "C187_fred_amplitude_refuted"], "note": "REFUTED for the FRED flare: the maximum is at t0 - delta (C187_fred_maximum_refuted, C187_fred_peak, C187_fred_only), and before -delta the value is at least A exp(4 phi) (C187_fred_amplitude_refuted, C187_fred_before_error). All else proved."},
 {"property": "C188", "status": "proved", "theorems": ["C188_counts", "C188_column", "C188_column_given", "C188_no_width_error", "C188_gti_table", "C188_gti_condition", "C188_alphabet", "C188_field_case", "C188_field_ambiguous_error", "C188_field_missing_error", "C188_gti_columns", "C188_no_unit_error"], "note": "Times that are nan are not modelled."},
 {"property": "C189", "status": "partial", "theorems": ["C189_shift", "C189_shifts", "C189_seconds", "C189_days", "C189_no_mjdref_error", "C189_no_timedel_error", "C189_no_tstart_error", "C189_timezero_refuted", "C189_mjdref_refuted", "C189_timedel_refuted"], "note": "REFUTED in part: TIMEZERO = TSTART is added twice (C189_timezero_refuted); no MJDREF with seconds is an AttributeError (C189_mjdref_refuted, C189_no_mjdref_error); no TIMEDEL with seconds is a TypeError (C189_timedel_refuted, C189_no_timedel_error). Proved: C189_shift, C189_shifts, C189_seconds, C189_days."},
 {"property": "C190", "status": "partial", "theorems": ["C190_patterns", "C190_pattern", "C190_complete", "C190_exact_partial", "C190_none_error", "C190_own", "C190_file", "C190_table", "C190_gti_file_refuted", "C190_extension", "C190_extension_error", "C190_load_default", "C190_load_error", "C190_two_digits", "C190_digits", "C190_split"], "note": "REFUTED for separate files: the comma separated list of names is used as the name of one extension (C190_gti_file_refuted). Exactness only without touching intervals (C190_exact_partial); no time of the intersection is ever lost (C190_complete)."},
 {"property": "C191", "status": "partial", "theorems": ["C191_first", "C191_next", "C191_unique", "C191_some_minimum", "C191_regular", "C191_normal_equations", "C191_balanced", "C191_stretched", "C191_upside_down", "C191_line", "C191_singular", "C191_short_error", "C191_no_turns_error", "C191_exact_refuted"], "note": "REFUTED in part: data met in all points by the curve (a straight line, a constant) get weight zero everywhere and the next system is singular (C191_exact_refuted, C191_singular). Proved for an exact linear solver while two points are off the curve: C191_first, C191_next, C191_unique, C191_balanced, C191_stretched, C191_upside_down, C191_line."},
 {"property": "C192", "status": "proved", "theorems": ["C192_parts", "C192_centred", "C192_mean", "C192_points", "C192_few", "C192_defaults"], "note": "The least squares fit of a constant (scipy curve_fit) is a parameter with a specification."},
 {"property": "C193", "status": "partial", "theorems": ["C193_outside", "C193_inside", "C193_short_error", "C193_short_refuted"], "note": "REFUTED in part: an interval with fewer than two bins raises ValueError for the whole light curve (C193_short_refuted, C193_short_error). Proved: C193_outside, C193_inside."},
 {"property": "C194", "status": "partial", "theorems": ["C194_ratio", "C194_nested", "C194_posterior", "C194_calibrated", "C194_members", "C194_short_error", "C194_one_error", "C194_classes_error", "C194_mismatch_refuted", "C194_one_refuted", "C194_draws"], "note": "REFUTED in part: the observed statistic uses the argument max_post (False unless given), the simulations take max_post from the class of the posterior, so a Posterior with max_post=False compares a maximum likelihood fit with maximum a posteriori fits: simulated data equal to the observed data all count as more extreme (C194_mismatch_refuted). One simulation of a model with several parameters raises TypeError (C194_one_error, C194_one_refuted). Proved when both choices agree: C194_calibrated, C194_ratio, C194_nested, C194_posterior, C194_members, C194_short_error, C194_classes_error."},
 {"property": "C195", "status": "partial", "theorems": ["C195_calibrated", "C195_sample_ignored", "C195_likelihood_error", "C195_mismatch_refuted", "C195_method_refuted"], "note": "REFUTED in part: the data are fitted with self.max_post and self.fitmethod, the simulations with the argument max_post (False unless given) and always with BFGS (C195_mismatch_refuted, C195_method_refuted); the sample given is ignored when max_post is False (C195_sample_ignored). Proved when the choices agree: C195_calibrated; C195_likelihood_error."},
 {"property": "C196", "status": "partial", "theorems": ["C196_given", "C196_absent", "C196_diagonal", "C196_sign", "C196_covariance_refuted"], "note": "REFUTED: without hess_inv the Hessian taken is that of the log-posterior itself, not of its negative; at every maximum with a negative definite Hessian all variances are negative and the errors are not numbers (C196_sign for all dimensions, C196_covariance_refuted, C196_diagonal). Proved: C196_given, C196_absent."},
 {"property": "C197", "status": "proved", "theorems": ["C197_same", "C197_value", "C197_peak", "C197_half", "C197_symmetric", "C197_falls", "C197_wings", "C197_order_error", "C197_no_width", "C197_few_error"], "note": "A width of zero gives 0 everywhere and nan in the centre (C197_no_width). Real powers of negative numbers are left out."},
 {"property": "C198", "status": "proved", "theorems": ["C198_same", "C198_value", "C198_mirror", "C198_one", "C198_break", "C198_low", "C198_high", "C198_slope", "C198_between", "C198_no_break", "C198_zero", "C198_flat", "C198_few_error"], "note": "A break at zero, and frequency zero with a positive low index, give no number (C198_no_break, C198_zero)."},
 {"property": "C199", "status": "partial", "theorems": ["C199_new", "C199_taken_error", "C199_distinct", "C199_get", "C199_get_error", "C199_delete", "C199_delete_error", "C199_delete_many", "C199_delete_many_error", "C199_get_many", "C199_get_all", "C199_order_refuted", "C199_missing_refuted", "C199_none"], "note": "REFUTED in part: get_channels gives the curves in the order of the simulations, not in the order asked for (C199_order_refuted), and leaves out missing names silently where delete_channels raises KeyError (C199_missing_refuted); get_channel raises IndexError for a missing name (C199_get_error). Proved: C199_new, C199_taken_error, C199_distinct, C199_get, C199_delete, C199_delete_many, C199_delete_many_error, C199_get_many, C199_get_all."},
 {"property": "C200", "status": "partial", "theorems": ["C200_likelihood", "C200_posterior", "C200_priors_unused", "C200_length_error", "C200_default", "C200_default_fixed_error", "C200_other_ignored", "C200_tied_error", "C200_fixed_refuted", "C200_start_refuted", "C200_max_post_refuted", "C200_tied_refuted", "C200_cross_likelihood", "C200_cross_posterior", "C200_cross_unused", "C200_cross_length_error"], "note": "REFUTED in part: without starting guesses a model with a fixed parameter always fails with ValueError, because all parameters are taken and only the free ones are accepted (C200_default_fixed_error, C200_fixed_refuted); guesses in an iterable other than a list or array are silently replaced (C200_other_ignored, C200_start_refuted); max_post without priors is no error but a maximum likelihood fit (C200_max_post_refuted, against the documentation); with a tied parameter and priors no start at all is accepted (C200_tied_error, C200_tied_refuted). Proved: C200_likelihood, C200_posterior, C200_priors_unused, C200_length_error, C200_default."},
 {"property": "C201", "status": "partial", "theorems": ["C201_value", "C201_names", "C201_parameters", "C201_few", "C201_zero_refuted", "C201_single_refuted", "C201_posterior", "C201_likelihood"], "note": "REFUTED in part: nlor <= 0 fits one Lorentzian (C201_few, C201_zero_refuted); one Lorentzian without noise has names without number, so that priors by the documented names are not found (C201_single_refuted). Proved for one Lorentzian or more with noise: C201_value, C201_names, C201_parameters."},
 {"property": "C202", "status": "partial", "theorems": ["C202_right", "C202_recorded", "C202_twice", "C202_default", "C202_stale_error", "C202_length_error", "C202_time", "C202_simulated", "C202_cleared", "C202_dt", "C202_none_refuted", "C202_time_refuted", "C202_dt_refuted", "C202_simulate_refuted", "C202_again_refuted"], "note": "REFUTED in part: a mask that was read before stays after gti = None (C202_none_refuted), after new times (C202_time_refuted), after a new dt (C202_dt_refuted) and after EventList.simulate_times (C202_simulate_refuted); C202_stale_error says so for all objects. simulate_times on a list with another number of events is a ValueError (C202_length_error, C202_again_refuted). Proved: after any sequence of reading the mask, reading the intervals and writing intervals the mask is right (C202_right, C202_recorded, C202_twice, C202_default)."},
 {"property": "C203", "status": "partial", "theorems": ["C203_rows", "C203_limits", "C203_gti", "C203_columns", "C203_energy", "C203_instrument", "C203_extension", "C203_column", "C203_missing_error", "C203_ephemeris", "C203_ephemeris_error", "C203_no_ephemeris", "C203_timezero_refuted", "C203_start_refuted", "C203_missing_refuted", "C203_ephemeris_refuted", "C203_instrument_refuted", "C203_key_error", "C203_ephemeris_number"], "note": "REFUTED in part: TIMEZERO is added to the times of the events but not to TSTART, TSTOP and the intervals (C203_limits, C203_gti, C203_timezero_refuted); without TSTART the limits are the first and the last row even if the rows are not in order, and the default interval is reversed (C203_start_refuted); a column that is missing is filled with zeros, energy is always in additional_data, and the list of the caller is changed (C203_missing_error, C203_columns, C203_missing_refuted); names of ephemerides lose all leading letters J, P, L (C203_ephemeris_error, C203_ephemeris_refuted); a file without an instrument is an AttributeError (C203_instrument, C203_instrument_refuted). Proved: rows stay together and times are in order (C203_rows), columns and energies (C203_column, C203_energy), choice of the extension (C203_extension)."},
 {"property": "C204", "status": "partial", "theorems": ["C204_probe", "C204_no_mission_error", "C204_forced_error", "C204_header", "C204_detectors_ignored", "C204_detectors_given", "C204_detectors_first", "C204_energy", "C204_pi", "C204_no_start_error", "C204_no_pi_error", "C204_no_start_refuted", "C204_no_pi_refuted", "C204_forced_refuted", "C204_detectors_refuted", "C204_text", "C204_mission", "C204_mode", "C204_no_mode"], "note": "REFUTED in part: an extension that is asked for and missing is a KeyError, the first one is not tried (C204_forced_error, C204_forced_refuted); without TELESCOP and MISSION the error is an UnboundLocalError (C204_no_mission_error); without TSTART no slice can be read, a TypeError (C204_no_start_error, C204_no_start_refuted); without channels and energies it is an AttributeError (C204_no_pi_error, C204_no_pi_refuted); the detectors of the slice are replaced by those of the first hundred rows of the file (C204_detectors_ignored, C204_detectors_refuted). Proved: C204_probe, C204_header, C204_energy, C204_pi, C204_detectors_given, C204_detectors_first."},
 {"property": "C205", "status": "partial", "theorems": ["C205_check_a", "C205_same_terms", "C205_detected_error", "C205_check_a_refuted", "C205_check_b", "C205_agree", "C205_zero_rate", "C205_saturated"], "note": "REFUTED for detected rates: check_A takes the limit of the detected rate as if it were incident (C205_check_a_refuted; C205_detected_error: every drawn value is too high, for all rates and positive dead times). Proved: the curve and terms for incident rates (C205_check_a), the same terms for both kinds of rate (C205_same_terms), B, its orders and the error band k^3 max(tb/td,1) 10^-15 (C205_check_b), agreement of the two checks (C205_agree), and the ZeroDivisionErrors. Exact reals; the figure itself is left out."},
 {"property": "C206", "status": "proved", "theorems": ["C206_rms", "C206_ignored", "C206_mixed", "C206_constant"], "note": "K and M both numbers or both arrays, proportional to each other (C206_rms); an array M that is not constant with a number K is a ValueError (C206_mixed), a constant one is a number (C206_constant). min_freq, max_freq, freq_bins and deadtime have no effect (C206_ignored). Exact rationals; squares of rms and error."},
 {"property": "C207", "status": "partial", "theorems": ["C207_round_trip", "C207_flat", "C207_fails_only", "C207_empty_error", "C207_no_main", "C207_readonly", "C207_empty_refuted", "C207_equal_refuted", "C207_dimension_refuted"], "note": "REFUTED in general: an object without rows loses its meta data (C207_empty_refuted), one whose mask was read comes back unequal (C207_equal_refuted), and a column called like a dimension of another array is a ValueError (C207_dimension_refuted). Proved: whenever the dataset can be written, every attribute comes back, names with capitals included (C207_round_trip); arrays with one dimension can always be written (C207_flat); missing main array and read-only attributes (C207_no_main, C207_readonly)."},
 {"property": "C208", "status": "partial", "theorems": ["C208_round_trip", "C208_empty_error", "C208_no_main", "C208_name_refuted", "C208_parts_refuted", "C208_order_refuted", "C208_clash_refuted", "C208_empty_refuted"], "note": "REFUTED in general: a column called x_dim0 comes back as x with two dimensions (C208_name_refuted) or replaces a part of x (C208_clash_refuted); an array with more dimensions whose name contains _dim comes back in parts (C208_parts_refuted); eleven columns come back in another order (C208_order_refuted); no rows (C208_empty_refuted). Proved for objects whose columns have one dimension and no _dim in their names (C208_round_trip); see C53 for the helper functions on arrays with more dimensions."},
 {"property": "C209", "status": "partial", "theorems": ["C209_check_partial", "C209_regular", "C209_bin_times", "C209_bad_gtis", "C209_last_bin_refuted"], "note": "REFUTED for the last bin: istop is at most time.size - 1 and is used as the end of a slice, so the spacing of the last two bins is never looked at (C209_last_bin_refuted). Proved: the exact condition with that exception (C209_check_partial), no false alarm (C209_regular), arrays of bin times (C209_bin_times), invalid GTIs (C209_bad_gtis)."},
 {"property": "C210", "status": "proved", "theorems": ["C210_neg", "C210_twice", "C210_empty", "C210_error_attrs"], "note": "Arrays behind names with an underscore are not array attributes and stay as they are."},
 {"property": "C211", "status": "partial", "theorems": ["C211_neg", "C211_rest_refuted", "C211_rest_error", "C211_rest_names_error"], "note": "REFUTED: mission, instrument, header, background, exposure and error distribution are lost (C211_rest_refuted, C211_rest_error). Proved: times, errors, GTIs, reference and bin time are kept and the counts are the opposite (C211_neg)."},
 {"property": "C212", "status": "partial", "theorems": ["C212_one", "C212_many_error", "C212_many_refuted", "C212_fine", "C212_lengths", "C212_values", "C212_places_refuted"], "note": "REFUTED: np.any(n_ave) < 30 is always true, so arrays always cause the warning (C212_many_refuted, C212_many_error); the indices of the report are the places of the non-zero values among the values that differ (C212_places_refuted). Proved: one number (C212_one), when the check passes (C212_fine), different lengths (C212_lengths), the reported values (C212_values)."},
 {"property": "C213", "status": "partial", "theorems": ["C213_accepted", "C213_empty", "C213_errors", "C213_averaged", "C213_segment", "C213_drift_partial", "C213_drift_refuted", "C213_events_error", "C213_lists_error", "C213_lists_kind_error"], "note": "REFUTED for the drift: np.isclose keeps its atol of 1e-8, so light curves with 100 microsecond bins that end 10 s apart pass (C213_drift_refuted; the bound that does hold is C213_drift_partial). Proved: the exact conditions (C213_accepted, C213_empty, C213_averaged) and exceptions (C213_errors, C213_segment)."},
 {"property": "C214", "status": "partial", "theorems": ["C214_matrix", "C214_empty", "C214_errors", "C214_second_refuted"], "note": "REFUTED for the second input, which is not looked at (C214_second_refuted). Proved: the exact condition of the code (C214_matrix), the empty object (C214_empty) and the exceptions (C214_errors)."},
 {"property": "C215", "status": "partial", "theorems": ["C215_seed", "C215_out_of_range", "C215_given", "C215_none", "C215_other", "C215_zero_refuted"], "note": "REFUTED for seed 0, which is falsy and gives the global generator: results depend on what was drawn before (C215_zero_refuted). Proved for all other seeds (C215_seed, C215_out_of_range, C215_given, C215_none, C215_other)."},
 {"property": "C216", "status": "partial", "theorems": ["C216_warning_partial", "C216_seconds", "C216_table", "C216_between", "C216_order", "C216_one_time_error", "C216_warning_refuted"], "note": "REFUTED for the list in the warning: np.any(mjds > xvals[-1]) is a scalar, so that one time above the table makes the warning list every time (C216_warning_refuted; when it is given and that it misses nothing is C216_warning_partial). Proved: the values at the table, between and outside (C216_table, C216_between, C216_seconds), order (C216_order); a table of one time corrects nothing (C216_one_time_error)."},
 {"property": "C217", "status": "partial", "theorems": ["C217_one", "C217_two", "C217_three", "C217_more_error", "C217_none_error", "C217_frequencies", "C217_count", "C217_model_string", "C217_number_refuted", "C217_text_refuted"], "note": "REFUTED: numbers that are not int or float (np.float32) are taken for a power spectrum (C217_number_refuted), a text with two more arguments for a light curve (C217_text_refuted), and no argument raises IndexError (C217_none_error). Proved: the choice for every list of arguments (C217_one, C217_two, C217_three, C217_more_error), the frequencies (C217_frequencies, C217_count) and the models by name (C217_model_string: every name of the module is accepted)."},
 {"property": "C218", "status": "partial", "theorems": ["C218_round_trip", "C218_rates", "C218_errors_partial", "C218_other_errors", "C218_no_values_error", "C218_table_kept", "C218_table_marked", "C218_read_again", "C218_errors_refuted", "C218_table_refuted", "C218_constructor_error", "C218_constructor", "C218_table_values", "C218_default_statistic"], "note": "REFUTED for the errors: a light curve of rates with errors whose counts were looked at comes back with rate errors taken for count errors (C218_errors_refuted; exact rule in C218_other_errors, kept when values and errors are of the same kind: C218_errors_partial). REFUTED that the table stays: its meta dictionary is filled with the arguments, and the err_dist of the first reading stays (C218_table_refuted, C218_table_marked; what does stay: C218_table_kept). Proved: everything else of the round trip and the warning about meancounts (C218_round_trip, C218_rates), a second reading gives the same (C218_read_again), ValueError without values (C218_no_values_error)."},
 {"property": "C219", "status": "partial", "theorems": ["C219_to", "C219_from", "C219_round_trip_partial", "C219_round_trip_refuted", "C219_empty_error", "C219_reference"], "note": "REFUTED: the flux written is counts, the flux read is a rate, so that the counts come back multiplied by dt; the GTIs are lost (C219_round_trip_refuted). Proved: what is written and read (C219_to, C219_from) and that absolute times are kept (C219_round_trip_partial)."},
 {"property": "C220", "status": "partial", "theorems": ["C220_written", "C220_read", "C220_one_complex_partial", "C220_binary", "C220_first_column_error", "C220_all_complex_error", "C220_empty_error", "C220_clash_error", "C220_round_trip_refuted", "C220_split_refuted", "C220_order_refuted", "C220_case_refuted"], "note": "REFUTED: with two complex columns, the real part of the second one is multiplied by 1j (the variable is_imag keeps the value of the column before, since 'or' does not look at its second operand), so that every complex column but the first comes back as i (re + im) (C220_round_trip_refuted; exact result in C220_read). REFUTED: a complex column whose first value is real is not split (C220_split_refuted), a file with .imag before .real gives wrong values (C220_order_refuted), names that differ by case collide (C220_case_refuted). Proved: the table written (C220_written), the table read back (C220_read), the round trip with one complex column (C220_one_complex_partial), other formats (C220_binary), UnboundLocalError when the first column is a real part or all columns are complex (C220_first_column_error, C220_all_complex_error), empty columns (C220_empty_error), .imag beside a real column of the same name (C220_clash_error). Reading and writing of files by astropy is taken to keep the table."},
 {"property": "C221", "status": "partial", "theorems": ["C221_integer_partial", "C221_last_error", "C221_slice", "C221_down_partial", "C221_reversed_error", "C221_zero_step_error", "C221_other_error", "C221_last_refuted", "C221_reversed_refuted", "C221_hidden_refuted"], "note": "REFUTED: obj[-1] is empty (C221_last_refuted), so is obj[::-1] and every slice with a negative step and no stop (C221_reversed_refuted, C221_reversed_error); indices out of range give empty objects and hidden arrays are lost (C221_hidden_refuted, C221_last_error). Proved: integers other than -1 (C221_integer_partial), slices with positive step with all combinations of bounds (C221_slice), negative steps with both bounds given (C221_down_partial), step 0 and other indices (C221_zero_step_error, C221_other_error)."},
 {"property": "C222", "status": "proved", "theorems": ["C222_window", "C222_negative_width", "C222_optimal", "C222_range", "C222_best", "C222_no_model_error"], "note": "C222_window, C222_negative_width (a negative width selects nothing), C222_optimal (no number where the model is zero), C222_range, C222_best, C222_no_model_error. Compound models are sums of components."},
 {"property": "C223", "status": "partial", "theorems": ["C223_meta_partial", "C223_trouble_error", "C223_double_partial", "C223_long_list_error", "C223_meta_refuted"], "note": "REFUTED: a list that holds numpy numbers raises TypeError, a text that mentions np.float or np.int raises ValueError, a list of longdoubles raises AttributeError (C223_meta_refuted). Proved: exactly these values fail (C223_trouble_error, C223_long_list_error), all others go to the table (C223_meta_partial, C223_double_partial). numpy 2 is assumed; reading a number from a text that holds np.float or np.int fails (hypothesis on float() and int())."},
 {"property": "C224", "status": "partial", "theorems": ["C224_round_trip_partial", "C224_table", "C224_empty_error", "C224_elapsed", "C224_moments_partial", "C224_zero_error", "C224_no_reference_error", "C224_round_trip_refuted", "C224_moments_refuted"], "note": "REFUTED: an empty series gives a table without a column of times, and reading it raises KeyError (C224_round_trip_refuted, C224_empty_error); with absolute times and the reference 0 the moments are counted from the first one and the reference is dropped (C224_moments_refuted, C224_zero_error); absolute times without a reference raise TypeError (C224_no_reference_error). Proved: every other series comes back (C224_round_trip_partial), moments are kept when the reference is not 0 or some MJD is at most 10000 (C224_moments_partial). Numbers are exact; columns are lists; no meta entry is called like a read-only property."},
 {"property": "C225", "status": "partial", "theorems": ["C225_rebin_partial", "C225_no_dof_error", "C225_no_dof_any_error", "C225_no_width_error", "C225_finer_error", "C225_lomb_scargle_refuted", "C225_integer_dof_refuted"], "note": "REFUTED: spectra of the Lomb-Scargle method have no degrees of freedom (None), and rebinning them raises IndexError (C225_lomb_scargle_refuted, C225_no_dof_error, C225_no_dof_any_error); without jackknife and adaptive weights the degrees of freedom are integers and each partial sum is truncated: 14 everywhere becomes 13.6 (C225_integer_dof_refuted). Proved for real degrees of freedom: C225_rebin_partial. Numbers are exact; the errors are those of C18 (sums of errors, not of squares)."},
 {"property": "C226", "status": "partial", "theorems": ["C226_prior_partial", "C226_names_partial", "C226_order", "C226_missing_error", "C226_other_error", "C226_name_refuted"], "note": "REFUTED: a jaxns prior is used with its own name, so that two parameters can be sampled under one name (C226_name_refuted). Proved: distributions come in the order of the list (C226_order), with the right names when jaxns priors have the names of their parameters (C226_prior_partial, C226_names_partial); the first missing entry raises KeyError, the first entry of another kind ValueError. What jaxns draws is a function of the name and the distribution."},
 {"property": "C227", "status": "partial", "theorems": ["C227_matrix_partial", "C227_none", "C227_columns", "C227_times_refuted"], "note": "REFUTED: segments without photons in one of the bands give no column but keep their time, so that later columns stand beside the times of other segments (C227_times_refuted). Proved: the columns are those of the segments with a signal in both bands, in order, and the times are right if and only if there are no others (C227_matrix_partial). The segments of the fluxes are taken to be those of time_intervals_from_gtis; the cross spectrum of two segments is a parameter."},
 {"property": "C228", "status": "partial", "theorems": ["C228_window_partial", "C228_value", "C228_wide_error", "C228_empty_error", "C228_window_refuted", "C228_gti", "C228_default"], "note": "REFUTED: the widths of the first and last bin of the whole series are used, not those of the kept bins (C228_window_refuted, C228_wide_error). Proved: the window is right if and only if these widths are the same (C228_window_partial); an empty selection raises IndexError (C228_empty_error). start and stop are not negative. The new GTIs are the part of the old ones in the window (C228_gti), under the conditions of C01."}
]}
