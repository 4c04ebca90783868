{"id": "C01", "title": "Intersecting two GTI lists gives exactly the common good time", "statement": "For two valid GTI lists whose intervals all have positive length, cross_two_gtis returns a valid GTI list (sorted, non-overlapping, positive lengths) such that a time lies strictly inside a returned interval only if it lies in an interval of both inputs, and every time interior to an interval of both inputs is covered by the result.", "quantifier": "all pairs of valid GTI lists of any length and all times", "why_tests_cant": "The algorithm scans sorted interval ends with several skip conditions; the number of relative orderings of interval edges grows exponentially with list length, so samples never cover it.", "anchors": ["stingray/gti.py: cross_two_gtis, join_equal_gti_boundaries"]}
{"id": "C02", "title": "Intersecting many GTI lists is exact and independent of list order", "statement": "cross_gtis applied to any non-empty collection of valid GTI lists returns a valid list that covers exactly the (interior) times common to all of them; permuting the collection changes nothing about which times are covered.", "quantifier": "all finite collections of valid GTI lists, all permutations", "why_tests_cant": "Needs closure of the pairwise algorithm under its own output, for any number of lists.", "anchors": ["stingray/gti.py: cross_gtis"]}
{"id": "C03", "title": "Joining two GTI lists gives exactly their union", "statement": "For two valid GTI lists, join_gtis returns a valid list with no touching intervals that covers exactly the times covered by at least one input.", "quantifier": "all pairs of valid GTI lists (including touching and duplicate boundaries) and all times", "why_tests_cant": "The sweep over merged edges relies on the order of equal boundaries, which random tests hit with probability zero.", "anchors": ["stingray/gti.py: join_gtis"]}
{"id": "C04", "title": "Appending separate GTI lists keeps all good time and rejects overlap", "statement": "append_gtis raises an error when the two lists overlap, and otherwise returns a sorted non-overlapping list covering exactly the union of the inputs.", "quantifier": "all pairs of valid GTI lists", "why_tests_cant": "Requires an equivalence between the separation check and true disjointness for all interleavings.", "anchors": ["stingray/gti.py: append_gtis, check_separate"]}
{"id": "C05", "title": "Bad time intervals are the complement of the good ones", "statement": "get_btis with explicit start/stop enclosing the GTIs returns disjoint intervals such that every time between start and stop is in a good interval or a bad interval and no interior time is in both; total good plus total bad length equals stop minus start.", "quantifier": "all valid GTI lists, all start/stop enclosing them", "why_tests_cant": "Edge cases (GTI touching start/stop, adjacent GTIs) combine arbitrarily over list length.", "anchors": ["stingray/gti.py: get_btis"]}
{"id": "C06", "title": "The separation test is exactly disjointness", "statement": "check_separate returns True if and only if no time is interior to an interval of both lists (with at least one empty list counting as separate).", "quantifier": "all pairs of valid GTI lists", "why_tests_cant": "Both directions range over all interleavings of edges.", "anchors": ["stingray/gti.py: check_separate"]}
{"id": "C07", "title": "GTI validation accepts exactly well-formed lists", "statement": "check_gtis succeeds exactly on non-empty lists of intervals whose ends are not before their starts and which are sorted without overlap; accepted lists are therefore globally sorted (every edge of an earlier interval is <= every edge of a later one).", "quantifier": "all lists of pairs of numbers", "why_tests_cant": "The code compares neighbours only; global order for every pair of positions is an inductive consequence.", "anchors": ["stingray/gti.py: check_gtis"]}
{"id": "C08", "title": "Segments cut from GTIs lie inside good time, do not overlap and leave no room", "statement": "time_intervals_from_gtis (fraction_step=1) returns segments of exactly the requested length, each inside one GTI, pairwise non-overlapping, and in each GTI the leftover after the last segment is shorter than one segment.", "quantifier": "all valid GTI lists, all positive segment sizes", "why_tests_cant": "Maximality and non-overlap must hold for every number of GTIs and every length ratio.", "anchors": ["stingray/gti.py: time_intervals_from_gtis"]}
{"id": "C09", "title": "The GTI mask selects exactly the bins fully inside good time", "statement": "create_gti_mask and create_gti_mask_complete mark a time bin as good if and only if the whole bin (time +- dt/2, up to the tolerance epsilon*dt) is inside one of the GTIs that are at least min_length long, and report the GTIs actually used.", "quantifier": "all sorted time arrays, all valid GTI lists, all dt, epsilon, min_length", "why_tests_cant": "The default implementation is a state machine advancing along both arrays; agreement with the declarative definition is a statement over all joint layouts.", "anchors": ["stingray/gti.py: create_gti_mask, create_gti_mask_jit, create_gti_mask_complete"]}
{"id": "C10", "title": "Binned GTI borders and bin segments stay inside GTIs", "statement": "For an evenly sampled sorted time array, gti_border_bins returns for each GTI the exact index range of bins fully inside it, and bin_intervals_from_gtis returns only index ranges of the requested number of bins that lie inside a single GTI range, pairwise disjoint and maximal.", "quantifier": "all time arrays, GTI lists, segment sizes", "why_tests_cant": "Index arithmetic at both borders for all alignments of bins and GTIs.", "anchors": ["stingray/gti.py: gti_border_bins, bin_intervals_from_gtis, calculate_segment_bin_start"]}
{"id": "C11", "title": "Exposure accounting", "statement": "get_total_gti_length(gti, minlen) equals the sum of lengths of the intervals at least minlen long; for two valid lists exposure(join)+exposure(intersection)=exposure(a)+exposure(b).", "quantifier": "all valid GTI lists", "why_tests_cant": "A measure identity over all interleavings of the two lists.", "anchors": ["stingray/gti.py: get_total_gti_length, get_gti_lengths, join_gtis, cross_two_gtis"]}
{"id": "C12", "title": "Splitting GTIs partitions them", "statement": "split_gtis_at_indices and split_gtis_by_exposure return consecutive sublists whose concatenation is the original list; each sublist from the exposure split has bounded exposure.", "quantifier": "all GTI lists, all index lists / exposures", "why_tests_cant": "Partitioning must hold for every list and every set of split points.", "anchors": ["stingray/gti.py: split_gtis_at_indices, split_gtis_by_exposure, find_large_bad_time_intervals"]}
{"id": "C13", "title": "GTIs from a condition cover exactly the good samples", "statement": "create_gti_from_condition returns intervals in order; a sample satisfying the condition is inside a returned interval and one violating it is not (safe_interval=0).", "quantifier": "all time arrays, all condition arrays", "why_tests_cant": "Run-detection correctness for every boolean sequence.", "anchors": ["stingray/gti.py: create_gti_from_condition", "stingray/utils.py: contiguous_regions"]}
{"id": "C14", "title": "Segment index generation assigns exactly the events of each segment", "statement": "generate_indices_of_segment_boundaries_unbinned yields for each segment [s,e) indices i<=j such that times[i:j] are exactly the events with s <= t < e.", "quantifier": "all sorted event arrays, all GTIs and segment sizes", "why_tests_cant": "Correctness of binary-search indices for all data including duplicates and events on edges.", "anchors": ["stingray/gti.py: generate_indices_of_segment_boundaries_unbinned"]}
{"id": "C15", "title": "Non-paralyzable dead time keeps exactly the events a real detector would", "statement": "With constant dead time, the non-paralyzable filter keeps the first event and afterwards an event if and only if it arrives at least one dead time after the last kept event; hence kept events are at least one dead time apart, filtering twice changes nothing, and every dropped event is within one dead time after a kept event.", "quantifier": "all sorted event lists, all dead times >= 0", "why_tests_cant": "The loop propagates dead-time ends through arbitrary runs of events.", "anchors": ["stingray/filters.py: _non_paralyzable_dead_time, _nonpar_core, get_deadtime_mask"]}
{"id": "C16", "title": "Paralyzable dead time keeps exactly events isolated from their predecessor", "statement": "The paralyzable filter keeps an event if and only if it is the first or arrives at least one dead time after the previous incoming event (kept or not); its survivors are a subset of the non-paralyzable survivors.", "quantifier": "all sorted event lists, all dead times >= 0", "why_tests_cant": "Subset relation between two different filters for every event pattern.", "anchors": ["stingray/filters.py: _paralyzable_dead_time, _non_paralyzable_dead_time"]}
{"id": "C17", "title": "Dead time with background events filters the right source events", "statement": "get_deadtime_mask with a background list returns a mask with one entry per source event, in the order of the source list, true exactly when that source event survives dead time in the merged stream.", "quantifier": "all source and background event lists, all dead times", "why_tests_cant": "Alignment of the mask with the unsorted input cannot be settled by examples with sorted inputs.", "anchors": ["stingray/filters.py: get_deadtime_mask, filter_for_deadtime"]}
{"id": "C18", "title": "Linear rebinning conserves the signal", "statement": "rebin_data with method 'sum' and an integer rebin factor returns, in each new bin, the sum of the old bins it covers; with method 'mean'/'average' the mean; for non-integer factors, total signal in the covered range is conserved and each old bin is shared with weights adding up to one.", "quantifier": "all arrays, all rebin factors >= 1", "why_tests_cant": "Fractional bin sharing accumulates over all bins; conservation is a telescoping argument.", "anchors": ["stingray/utils.py: rebin_data"]}
{"id": "C19", "title": "Contiguous regions are exactly the maximal runs of True", "statement": "contiguous_regions returns index pairs [a,b) sorted and separated, such that an index is in some returned pair if and only if the condition is True there, and runs are maximal.", "quantifier": "all boolean arrays", "why_tests_cant": "All 2^n boolean arrays of every length.", "anchors": ["stingray/utils.py: contiguous_regions"]}
{"id": "C20", "title": "Histogramming never loses or duplicates events in range", "statement": "The fast histogram places each event in [low, high) in exactly the bin containing it, ignores others, treats the upper edge like numpy, and the total of the histogram equals the number of in-range events.", "quantifier": "all event arrays, ranges and bin numbers", "why_tests_cant": "A counting identity over arbitrary arrays.", "anchors": ["stingray/utils.py: compute_bin, _hist1d_numba_seq, histogram"]}
{"id": "C21", "title": "Building a light curve from photon times conserves photons", "statement": "Lightcurve.make_lightcurve with given tstart/tseg/dt puts every photon in [tstart, tstart+n*dt) into the bin that contains it, so that the sum of counts is the number of photons in range; bin centres are tstart+(i+1/2)*dt; from_lc then gives back a list with the same number of photons in every bin.", "quantifier": "all photon lists, tstart, dt, tseg", "why_tests_cant": "Conservation and round trip for arbitrary photon lists.", "anchors": ["stingray/lightcurve.py: Lightcurve.make_lightcurve", "stingray/events.py: EventList.to_lc, EventList.from_lc"]}
{"id": "C22", "title": "Cached light-curve quantities always reflect the current data", "statement": "After any sequence of attribute reads and assignments, meanrate, meancounts, countrate, countrate_err, counts_err and n equal what a fresh light curve with the same time, counts and errors would report.", "quantifier": "all histories of reads and writes on a Lightcurve", "why_tests_cant": "Stale caches depend on the order of operations; the set of histories is infinite.", "anchors": ["stingray/lightcurve.py: Lightcurve properties and setters"]}
{"id": "C23", "title": "Operations between time series do not modify their operands", "statement": "a + b, a - b, slicing, rebinning and truncation (without inplace) leave a and b unchanged.", "quantifier": "all pairs of time series with any GTIs", "why_tests_cant": "Mutation happens only for particular GTI relations.", "anchors": ["stingray/base.py: StingrayTimeseries._operation_with_other_obj"]}
{"id": "C24", "title": "Shifting times and changing the MJD reference are invertible and preserve durations", "statement": "shift(a) followed by shift(-a) and change_mjdref(m) followed by change_mjdref(original) restore times and GTIs; differences between times, and membership of times in GTIs, are preserved; absolute MJD times are unchanged by change_mjdref.", "quantifier": "all time series, all shifts and MJD references", "why_tests_cant": "Algebraic law over all values.", "anchors": ["stingray/base.py: StingrayTimeseries.shift, change_mjdref"]}
{"id": "C25", "title": "Truncation and GTI splitting select exactly the requested samples", "statement": "truncate by time keeps exactly the samples with start <= t < stop (by index: positions start..stop-1) with GTIs intersected; split_by_gti distributes samples to the GTI containing them.", "quantifier": "all time series, all limits", "why_tests_cant": "Boundary behaviour for all inputs (including limits equal to 0).", "anchors": ["stingray/base.py: StingrayTimeseries.truncate, split_by_gti"]}
{"id": "C26", "title": "Positive-frequency selection", "statement": "positive_fft_bins(n) selects exactly the FFT bins whose frequency is strictly positive (and for include_zero also the zero bin), in order, for even and odd n.", "quantifier": "all n >= 1", "why_tests_cant": "A statement for every transform length.", "anchors": ["stingray/fourier.py: positive_fft_bins"]}
{"id": "C27", "title": "Normalizing and un-normalizing periodograms are inverse", "statement": "unnormalize_periodograms(normalize_periodograms(x)) = x for every normalization (abs, frac, leahy, none), with and without variance.", "quantifier": "all powers, dt, number of bins, number of photons, mean flux, variance", "why_tests_cant": "Algebraic identity over all parameters; a wrong factor is invisible if parameters coincide (e.g. n_ph = n_bin).", "anchors": ["stingray/fourier.py: normalize_periodograms, unnormalize_periodograms"]}
{"id": "C28", "title": "The Poisson noise level is consistent between normalizations", "statement": "The theoretical noise level returned by poisson_level for each normalization is the normalized version of the unnormalized level (the number of photons), so subtracting it commutes with changing the normalization.", "quantifier": "all count rates, backgrounds, numbers of photons", "why_tests_cant": "Algebraic identity over all parameters.", "anchors": ["stingray/fourier.py: poisson_level, normalize_periodograms"]}
{"id": "C29", "title": "Integrated fractional power equals fractional variance", "statement": "For every light curve the sum over all positive frequencies of fractional-rms power times frequency resolution equals variance/mean^2 (Parseval).", "quantifier": "all light curves of every length", "why_tests_cant": "Exact identity of the discrete Fourier transform for every n and every signal.", "anchors": ["stingray/fourier.py: normalize_frac, avg_pds_from_iterable, get_rms_from_unnorm_periodogram", "stingray/powerspectrum.py: Powerspectrum.compute_rms"]}
{"id": "C30", "title": "A cross spectrum of a series with itself is its power spectrum", "statement": "avg_cs_from_iterables(x, x) has zero imaginary part and its real part equals avg_pds_from_iterable(x) for all normalizations and any number of segments, skipping the same segments.", "quantifier": "all lists of segments", "why_tests_cant": "Two separately written loops must agree for every input.", "anchors": ["stingray/fourier.py: avg_cs_from_iterables, avg_cs_from_iterables_quick, avg_pds_from_iterable"]}
{"id": "C31", "title": "Averaged periodogram equals the mean of the per-segment periodograms", "statement": "The averaged unnormalized power is the arithmetic mean over the non-empty segments, m is their number, and with save_all the mean of the stored spectra equals the average.", "quantifier": "all segment sequences including empty and zero segments", "why_tests_cant": "Loop accumulation with skip conditions over arbitrary sequences.", "anchors": ["stingray/fourier.py: avg_pds_from_iterable, avg_cs_from_iterables"]}
{"id": "C32", "title": "Raw coherence lies between 0 and 1", "statement": "The raw (bias-uncorrected) coherence computed from averaged cross and power spectra of the same segments is between 0 and 1.", "quantifier": "all segment lists", "why_tests_cant": "Cauchy-Schwarz for every number of segments and every data set.", "anchors": ["stingray/fourier.py: raw_coherence", "stingray/crossspectrum.py: AveragedCrossspectrum.coherence"]}
{"id": "C33", "title": "A pure delay produces the corresponding phase lag at every frequency", "statement": "If the second light curve is a circular delay of the first, the cross spectrum at each positive frequency bin k has the phase -2*pi*k*d/n times a positive power, i.e. the time lag equals the delay up to its sign convention.", "quantifier": "all light curves, delays and frequencies", "why_tests_cant": "Shift theorem for every n, d, k.", "anchors": ["stingray/fourier.py: avg_cs_from_iterables", "stingray/crossspectrum.py: Crossspectrum.phase_lag, time_lag"]}
{"id": "C34", "title": "Power integrated over adjacent frequency ranges adds up", "statement": "integrate_power_in_frequency_range over [a,b] plus [b,c] equals that over [a,c], and the full covered range gives the total power times df.", "quantifier": "all spectra and ranges", "why_tests_cant": "Fractional edge bins for every position of the edges.", "anchors": ["stingray/fourier.py: integrate_power_in_frequency_range"]}
{"id": "C35", "title": "Pulsed-fraction, amplitude and signal-to-noise conversions are inverse", "statement": "pf_from_a and a_from_pf, ssig_from_a and a_from_ssig, ssig_from_pf and pf_from_ssig are mutually inverse and monotone on their domains.", "quantifier": "all amplitudes in [0,1], all photon numbers", "why_tests_cant": "Algebraic inverse law on a continuum.", "anchors": ["stingray/stats.py: pf_from_a, a_from_pf, ssig_from_a, a_from_ssig"]}
{"id": "C36", "title": "Multi-trial probabilities bound and invert", "statement": "The multi-trial p-value is between the single-trial p-value and n times it, increases with the number of trials, and p_single_trial_from_p_multitrial inverts p_multitrial_from_single_trial.", "quantifier": "all p-values in (0,1), all numbers of trials", "why_tests_cant": "Inequalities over a continuum, with a switch between two formulas.", "anchors": ["stingray/stats.py: p_multitrial_from_single_trial, p_single_trial_from_p_multitrial"]}
{"id": "C37", "title": "Pulse phases are in [0,1) and consistent", "statement": "pulse_phase with to_1=True returns a phase in [0,1) differing from the Taylor-expanded phase by an integer; p_to_f is an involution on real period derivatives.", "quantifier": "all times, frequencies and derivatives", "why_tests_cant": "Statement over the real line.", "anchors": ["stingray/pulse/pulsar.py: pulse_phase, p_to_f"]}
{"id": "C38", "title": "Folding distributes every event to exactly one phase bin", "statement": "fold_events puts every event in exactly one of nbin phase bins, so that the profile total equals the number of events, and phase_exposure sums to the total exposure in units of the period.", "quantifier": "all event lists, frequencies and bin numbers", "why_tests_cant": "Counting identity over arbitrary data, negative times included.", "anchors": ["stingray/pulse/pulsar.py: fold_events, phase_exposure", "stingray/pulse/search.py: _profile_fast"]}
{"id": "C39", "title": "The binned Z^2_n statistic equals its definition and is monotone in n", "statement": "z_n_binned_events computes 2/N * sum_k |sum_j p_j e^{i 2 pi k phi_j}|^2 despite using one cached sine table with strides; it is non-negative, increases with n and is invariant under cyclic rotation of the profile.", "quantifier": "all profiles, all numbers of bins and harmonics", "why_tests_cant": "Trigonometric identity for every (bins, harmonics).", "anchors": ["stingray/pulse/pulsar.py: z_n_binned_events_all, _z_n_fast_cached_sums_unnorm, _cached_sin_harmonics, _cached_cos_harmonics"]}
{"id": "C40", "title": "Overlap-and-save convolution equals direct convolution", "statement": "ols(x, h) equals the 'same'-mode linear convolution of x and h for every chunk size and every FFT length at least chunk+len(h)-1.", "quantifier": "all signals, kernels, chunk sizes, FFT lengths", "why_tests_cant": "Chunk bookkeeping must be right for every combination.", "anchors": ["stingray/pulse/overlapandsave/ols.py: ols, olsStep, prepareh, array_range"]}
{"id": "C41", "title": "Auto-correlation peaks at zero lag", "statement": "For every light curve AutoCorrelation reports time_shift 0, i.e. the maximum correlation is at zero lag.", "quantifier": "all light curves", "why_tests_cant": "An inequality for every signal and every lag, with tie-breaking by argmax.", "anchors": ["stingray/crosscorrelation.py: AutoCorrelation, CrossCorrelation.cal_timeshift"]}
{"id": "C42", "title": "Changing the normalization of a spectrum is path independent", "statement": "spec.to_norm(a).to_norm(b) has the same powers as spec.to_norm(b), and to_norm back to the original normalization restores the powers.", "quantifier": "all spectra, all pairs of normalizations", "why_tests_cant": "Depends on how power was computed (common mean or not).", "anchors": ["stingray/crossspectrum.py: Crossspectrum.to_norm"]}
{"id": "C43", "title": "Rebinning a dynamical spectrum in time leaves the original untouched", "statement": "DynamicalCrossspectrum.rebin_by_n_intervals returns a new object with means (sums) of n consecutive columns and leaves the original dynamical spectrum unchanged, so repeating the call gives the same result.", "quantifier": "all dynamical spectra, all n", "why_tests_cant": "Aliasing between views is a property of every execution.", "anchors": ["stingray/crossspectrum.py: DynamicalCrossspectrum.rebin_by_n_intervals"]}
{"id": "C44", "title": "The traced maximum lies in the requested frequency band", "statement": "DynamicalCrossspectrum.trace_maximum(min_freq, max_freq) returns, for each time, an index whose frequency is inside the band and whose power is the maximum over the band.", "quantifier": "all dynamical spectra and bands", "why_tests_cant": "Fails only for ties between in-band and out-of-band powers.", "anchors": ["stingray/crossspectrum.py: DynamicalCrossspectrum.trace_maximum"]}
{"id": "C45", "title": "Splitting numbers for storage loses nothing", "statement": "split_numbers returns two parts adding up to the input for every decimal shift, the first part being a multiple of 10^-shift, and does not modify its input.", "quantifier": "all numbers, arrays and shifts", "why_tests_cant": "Law over all values; aliasing depends on the input container.", "anchors": ["stingray/io.py: split_numbers"]}
{"id": "C46", "title": "Reference band never contains the channel of interest", "statement": "get_non_overlapping_ref_band returns exactly the energies of the reference band outside the band of interest (for non-negative energies).", "quantifier": "all bands", "why_tests_cant": "Depends on the full generality of interval intersection.", "anchors": ["stingray/varenergyspectrum.py: get_non_overlapping_ref_band"]}
{"id": "C47", "title": "merge_gtis implements its documented strategies", "statement": "merge_gtis ignores None and empty lists; 'union' returns exactly the union of all lists, 'intersection' exactly the common good time (None if empty), 'append' the union of mutually exclusive lists, 'none' one interval from the first to the last edge, and 'infer' the intersection if the lists overlap and the union otherwise.", "quantifier": "all collections of valid GTI lists, None and empty entries, all strategies", "why_tests_cant": "The number of lists and their relative layout are unbounded.", "anchors": ["stingray/gti.py: merge_gtis"]}
{"id": "C48", "title": "Binned segment and GTI boundary generators report the limits of the bins they select", "statement": "For an evenly sampled time array generate_indices_of_segment_boundaries_binned yields (t0, t1, i0, i1) with t0 and t1 the limits of the bins i0..i1-1 (so t1 - t0 is the number of bins times dt), all inside one GTI and disjoint; generate_indices_of_gti_boundaries yields for each GTI exactly the events inside it.", "quantifier": "all evenly sampled arrays, GTI lists, segment sizes", "why_tests_cant": "The off-by-one appears only for a segment reaching the end of the array; all alignments are needed.", "anchors": ["stingray/gti.py: generate_indices_of_segment_boundaries_binned, generate_indices_of_gti_boundaries"]}
{"id": "C49", "title": "Logarithmic rebinning keeps every sample", "statement": "rebin_data_log builds bins whose widths grow by the factor 1+f from the first width; every sample falls in exactly one bin; each bin reports the mean of its samples, the error of that mean and the number of samples; the sample numbers add up to len(x).", "quantifier": "all sorted abscissae, all f, all first widths", "why_tests_cant": "The number of bins is data-dependent; partition and termination need an induction over the generated edges.", "anchors": ["stingray/utils.py: rebin_data_log"]}
{"id": "C50", "title": "find_nearest returns a nearest array element", "statement": "For a sorted non-empty array find_nearest returns an element of the array, its index, and no element is closer to the value; look_for_array_in_array returns the first element of the first array present in the second.", "quantifier": "all sorted arrays, all values, both sides", "why_tests_cant": "Negative-index wrap-around at the left border is only harmless because of sortedness.", "anchors": ["stingray/utils.py: find_nearest, look_for_array_in_array"]}
{"id": "C51", "title": "nearest_power_of_two returns the nearest power of two", "statement": "nearest_power_of_two(x) is a power of two and no power of two is closer to x.", "quantifier": "all integers x >= 1", "why_tests_cant": "Holds for the small values normally tested (2..9) and fails later.", "anchors": ["stingray/utils.py: nearest_power_of_two"]}
{"id": "C52", "title": "Segment sizes and energy ranges are rounded as documented", "statement": "fix_segment_size_to_integer_samples returns an integer number of samples, within one sample of the request, rounding up only within the tolerance; equal_count_energy_ranges returns edges with equal event counts per range up to one event; _int_sum_non_zero sums the positive elements.", "quantifier": "all sizes, sample times, tolerances; all energy lists", "why_tests_cant": "Exact behaviour on both sides of each integer and for ties.", "anchors": ["stingray/utils.py: fix_segment_size_to_integer_samples, equal_count_energy_ranges, _int_sum_non_zero"]}
{"id": "C53", "title": "make_1d_arrays_into_nd inverts make_nd_into_arrays", "statement": "For every n-dimensional array, make_1d_arrays_into_nd(make_nd_into_arrays(a, label), label) equals a.", "quantifier": "all array shapes and contents", "why_tests_cant": "Round trip over all shapes; key ordering depends on decimal representations.", "anchors": ["stingray/utils.py: make_nd_into_arrays, make_1d_arrays_into_nd"]}
{"id": "C54", "title": "Joining light curves averages common samples and keeps the others", "statement": "Lightcurve.join of two light curves with distinct time stamps has exactly the union of their time stamps; at a common time stamp counts and errors are the averages, elsewhere the original values; the GTIs are join_gtis of both.", "quantifier": "all pairs of light curves with distinct time stamps, whichever starts first", "why_tests_cant": "Exact union and values over all overlaps and both orders of the operands.", "anchors": ["stingray/lightcurve.py: Lightcurve.join"]}
{"id": "C55", "title": "Joining time series keeps every row", "statement": "join of a time series with others returns, sorted by time, exactly the rows of all of them (missing attributes filled with nan), refers all times to the MJD reference of the first, merges GTIs with the requested strategy and ignores empty series.", "quantifier": "all lists of time series, all strategies", "why_tests_cant": "Row multisets, attribute sets and reference times vary independently.", "anchors": ["stingray/base.py: StingrayTimeseries._join_timeseries"]}
{"id": "C56", "title": "Sorting a time series permutes whole rows", "statement": "sort gives times in increasing (reverse: decreasing) order, the multiset of rows is unchanged, and GTIs still describe the same good time.", "quantifier": "all time series, any tie order of argsort, both directions, in place or not", "why_tests_cant": "Row consistency for all permutations and unstable sorts.", "anchors": ["stingray/base.py: StingrayTimeseries.sort", "stingray/events.py: EventList.sort"]}
{"id": "C57", "title": "Rebinning a time series rebins each GTI on its own", "statement": "rebin applies rebin_data to exactly the samples of every GTI at least dt_new long, concatenates the results, and the GTIs of the result are those intervals.", "quantifier": "all series, GTIs and new resolutions", "why_tests_cant": "GTI edges against bin edges for all inputs; short GTIs.", "anchors": ["stingray/base.py: StingrayTimeseries.rebin", "stingray/lightcurve.py: Lightcurve.rebin"]}
{"id": "C58", "title": "Slices around a frequency and shift-and-add", "statement": "extract_pds_slice returns nbins values centred on the bin of the given frequency, with missing values outside the spectrum; shift_and_add averages, per output bin, exactly the input powers that fall there with their weights, and the frequency axis names the bin each average comes from.", "quantifier": "all spectra, frequencies, numbers of bins, weights", "why_tests_cant": "Index clipping at both ends of the array interacts with odd/even slice widths and arbitrary centres.", "anchors": ["stingray/fourier.py: _safe_array_slice_indices, extract_pds_slice, _shift_and_average_core, shift_and_add"]}
{"id": "C59", "title": "The quick cross-spectrum average equals the general one", "statement": "avg_cs_from_iterables_quick returns the same table as avg_cs_from_iterables with common mean, positive frequencies and all powers, for plain (error-free) segments.", "quantifier": "all pairs of segment sequences, all normalizations", "why_tests_cant": "Two independent loops over unbounded data with different skip conditions.", "anchors": ["stingray/fourier.py: avg_cs_from_iterables_quick, avg_cs_from_iterables"]}
{"id": "C60", "title": "Error bars of averaged cross spectra and covariance", "statement": "error_on_averaged_cross_spectrum gives non-negative errors satisfying the published variance formulas (real and imaginary variances add up to that of the modulus), and the covariance keeps the phase of the cross spectrum with modulus^2 = |C|^2 df/(P_ref - noise).", "quantifier": "all cross spectra, powers and numbers of averages", "why_tests_cant": "Square roots of differences can be undefined for particular real values; sampling cannot show sign correctness.", "anchors": ["stingray/fourier.py: error_on_averaged_cross_spectrum, cross_to_covariance"]}
{"id": "C61", "title": "Intrinsic coherence stays in range and recognises perfect coherence", "statement": "The intrinsic coherence estimate for zero noise lies between 0 and 1, and is exactly 1 when the two averaged spectra are perfectly coherent (|C|^2 = P1 P2).", "quantifier": "all cross spectra, powers and numbers of averages", "why_tests_cant": "The bias is found by a fixed-point iteration over real values; sampled inputs cannot show that the iteration never leaves the range.", "anchors": ["stingray/fourier.py: _estimate_intrinsic_coherence_single, estimate_intrinsic_coherence, bias_term"]}
{"id": "C62", "title": "Classical p-values are the chi-squared survival function", "statement": "classical_pvalue(power, nspec) is the probability that the average of nspec noise powers exceeds the given power, i.e. the survival function of a chi-squared with 2 nspec degrees of freedom at 2*nspec*power, for every power >= 0 and nspec >= 1.", "quantifier": "all non-negative powers and all numbers of averaged spectra", "why_tests_cant": "The sum runs in logarithms with early exits whose trigger depends on real values; tests sample a few powers.", "anchors": ["stingray/stats.py: classical_pvalue, _pavnosigfun"]}
{"id": "C63", "title": "Detection levels and false-alarm probabilities are consistent", "statement": "For epoch folding, Z^2_n and power spectra the probability of a statistic equal to the detection level for epsilon is epsilon, a statistic above the level has probability below epsilon and one below the level has probability above epsilon.", "quantifier": "all statistics, levels epsilon, numbers of trials, bins, harmonics, averages and rebinnings", "why_tests_cant": "Two code paths through different approximations that switch at a threshold; only a proof shows agreement on both sides for all trials.", "anchors": ["stingray/stats.py: fold_profile_probability, fold_detection_level, z2_n_probability, z2_n_detection_level, pds_probability, pds_detection_level"]}
{"id": "C64", "title": "A profile without pulsation has no H statistic", "statement": "For a flat profile Z^2_n is 0 for every number of harmonics n, and the H test returns (1, 0); for any data the H test returns the maximum over m <= nmax of Z^2_m - 4m + 4 with its first position.", "quantifier": "all flat profiles, numbers of bins and harmonics", "why_tests_cant": "Aliasing appears only when the number of harmonics reaches the number of bins; tests use few harmonics.", "anchors": ["stingray/pulse/pulsar.py: htest, z_n, z_n_binned_events_all"]}
{"id": "C65", "title": "Phase dispersion minimization uses the variance in each phase bin", "statement": "fold_events in mode pdm returns for each bin the sum of squared deviations of the fluxes in the bin, and pdm_profile_stat is a finite number whenever there are more points than bins.", "quantifier": "all phases, fluxes and numbers of bins", "why_tests_cant": "Depends on how the points distribute over the bins; tests use dense phase coverage.", "anchors": ["stingray/pulse/pulsar.py: fold_events, pdm_profile_stat"]}
{"id": "C66", "title": "Folding searches use every event", "statement": "_folding_search without a segment size folds all the events; with a segment size it splits them in consecutive windows, so that every event enters the statistic.", "quantifier": "all event lists and segment sizes", "why_tests_cant": "One event lost in thousands does not change tested statistics.", "anchors": ["stingray/pulse/search.py: _folding_search"]}
{"id": "C67", "title": "nextprod returns the least product of small factors", "statement": "For every non-empty list of integer factors larger than 1 and every x > 0, nextprod(factors, x) terminates and returns the least integer >= x that is a product of these factors.", "quantifier": "all factor lists and all x", "why_tests_cant": "Minimality over an infinite set of candidates; tests check a few values of x.", "anchors": ["stingray/pulse/overlapandsave/ols.py: nextpow, nextprod"]}
{"id": "C68", "title": "Cross-correlation values belong to the reported lags", "statement": "For two light curves with the same dt, the i-th correlation value is the sum over bins of the products of deviations from the mean at the i-th reported lag, time_shift is the first lag with the largest value, and with norm='variance' and no errors the values are between -1 and 1, with 1 reached by equal light curves.", "quantifier": "all light curves, modes and lengths (equal lengths in mode same)", "why_tests_cant": "Index conventions must match for every pair of lengths and every mode.", "anchors": ["stingray/crosscorrelation.py: CrossCorrelation._make_corr, cal_timeshift"]}
{"id": "C69", "title": "Cross-correlation from a cross spectrum has one value for each lag", "statement": "_make_cross_corr gives for every mode a correlation array as long as time_lags, whose values are the inverse transform of the powers at those lags.", "quantifier": "all cross spectra and modes", "why_tests_cant": "Tests look at the default mode and at positive correlations.", "anchors": ["stingray/crosscorrelation.py: CrossCorrelation._make_cross_corr, cal_timeshift"]}
{"id": "C70", "title": "The common part of two names carries no separators at its ends", "statement": "common_name(a, b, default) is symmetric in a and b; for names of equal length it is the sequence of letters equal at the same positions, without underscores and dashes at both ends, or the default if nothing is left; for different lengths it is the default.", "quantifier": "all pairs of strings and defaults", "why_tests_cant": "The order of the four strip calls matters only for mixed runs of separators.", "anchors": ["stingray/io.py: common_name"]}
{"id": "C71", "title": "The file extension is what follows the root of the name", "statement": "get_file_extension returns the part of the file name from the last dot (before a final .gz, which is included) to the end, for every file name.", "quantifier": "all file names", "why_tests_cant": "The replacement of the root acts on every occurrence, so it fails only when the root reappears in the extension.", "anchors": ["stingray/io.py: get_file_extension"]}
{"id": "C72", "title": "Energy specifications give n equal (or equal-ratio) intervals between the given energies", "statement": "(e0, e1, n, 'lin') gives n+1 edges from e0 to e1 at equal distances, (e0, e1, n, 'log') n+1 edges at equal ratios; edges grow when e0 < e1, the n intervals are the pairs of neighbouring edges and the energies their midpoints; anything that is not a tuple or has another flag raises ValueError.", "quantifier": "all energies (positive for log) and all n", "why_tests_cant": "Law over real energies and every n.", "anchors": ["stingray/varenergyspectrum.py: _decode_energy_specification, VarEnergySpectrum.__init__, VarEnergySpectrum.energy"]}
{"id": "C73", "title": "Every segment is turned into the light curve of exactly its own data", "statement": "For an event list and a segment size, the segments are the grid cells that fit in each GTI; each yields the number of events in each of its n equal bins, with both histogram back ends, or nothing if it has fewer than two events. For a light curve, each segment yields the fluxes and errors of consecutive bins lying inside one GTI, segments do not overlap and every run of good bins long enough meets one. Without a segment size, the whole observation is cut in bins of width dt and only events in GTIs count.", "quantifier": "all sorted event lists or increasing light curves, GTIs, segment sizes and bin numbers", "why_tests_cant": "Events on bin edges, uneven GTIs and every segment size.", "anchors": ["stingray/fourier.py: get_flux_iterable_from_segments", "stingray/gti.py: generate_indices_of_segment_boundaries_unbinned, generate_indices_of_segment_boundaries_binned"]}
{"id": "C74", "title": "The average count rate is the number of photons in the segments over their total length", "statement": "get_average_ctrate returns the sum over all segments of the photons in them divided by the number of segments times their length, for events and for light curves, and agrees with the mean rate of the averaged power spectrum of the same data.", "quantifier": "all sorted event lists or light curves, GTIs and segment sizes", "why_tests_cant": "Segments with few events are rare in tests.", "anchors": ["stingray/fourier.py: get_average_ctrate, avg_pds_from_iterable"]}
{"id": "C75", "title": "The averaged spectrum of an event list is the mean over the segments that fit in the GTIs", "statement": "avg_pds_from_timeseries on events gives the mean periodogram of the binned counts of the grid segments with at least two events, with m the number of these segments, the mean and number of photons per segment counted from the events, and the normalization factor of the norm; avg_cs_from_timeseries is the average cross spectrum of the same segments of both lists, whatever the silent flag.", "quantifier": "all sorted event lists, GTIs, segment sizes that are multiples of dt, norms and flags", "why_tests_cant": "It composes segmentation, histogram, FFT and normalization for all inputs.", "anchors": ["stingray/fourier.py: avg_pds_from_timeseries, avg_cs_from_timeseries, avg_pds_from_iterable, avg_cs_from_iterables_quick"]}
{"id": "C76", "title": "Segment by segment analysis applies the function to the samples of each segment", "statement": "analyze_segments on event-like data cuts the GTIs in consecutive segments of the given size and calls the function on exactly the samples in [start, start+size) with GTI [start, start+size), for each segment with at least two samples; analyze_by_gti does the same with the GTIs as segments; on binned data the pieces are runs of consecutive bins of the right number. Results correspond one to one to start and stop times.", "quantifier": "all series, GTIs, segment sizes and functions", "why_tests_cant": "The boundaries and skipped segments depend on all GTIs and sample positions.", "anchors": ["stingray/base.py: StingrayTimeseries.analyze_segments, analyze_by_gti"]}
{"id": "C77", "title": "Lists of GTIs split a series in the samples each list spans", "statement": "apply_gti_lists yields for each non-empty list of GTIs the samples from the first start to the last end (included), with that list as GTIs; filter_at_time_intervals does it for each interval.", "quantifier": "all strictly increasing series, GTI lists", "why_tests_cant": "Edges coinciding with samples and special cases depend on the data.", "anchors": ["stingray/base.py: apply_gti_lists, filter_at_time_intervals"]}
{"id": "C78", "title": "estimate_segment_size returns the first size for which all segments have enough counts", "statement": "If estimate_segment_size returns a size, all segments of that size in the GTIs contain at least min_counts counts and min_samples samples; the size is the first on the grid start + k*step; the search ends.", "quantifier": "all event-like series, GTIs, minima", "why_tests_cant": "Loop over sizes; termination and minimality for all data.", "anchors": ["stingray/base.py: estimate_segment_size, _ts_sum"]}
{"id": "C79", "title": "Filling short gaps keeps the good samples and adds samples and values only from the data", "statement": "fill_bad_time_intervals keeps all good samples with their attributes, adds samples in the gaps no longer than max_length with attribute values among the good ones, sorts them together and adds the filled gaps to the GTIs; with no short gap it returns a copy.", "quantifier": "all series, GTIs, random generators", "why_tests_cant": "Random generator and positions universally quantified.", "anchors": ["stingray/base.py: fill_bad_time_intervals"]}
{"id": "C80", "title": "Power colors are ratios of integrated powers", "statement": "power_color returns the ratios of the powers integrated over the first and third and over the second and fourth of the four frequency ranges, after the ranges to exclude have been bridged with the mean of the neighbouring powers; its errors follow by linear propagation; multiplying all powers by a constant changes nothing; a wrong number of edges or edges outside the spectrum are refused. The arrays of the caller stay unchanged, errors are not negative, and the error of the logarithm is the propagated error.", "quantifier": "for all contiguous frequency bins of any widths, all powers, noise levels and errors, all five edges at least one bin apart, all lists of frequency ranges to exclude", "why_tests_cant": "tests use one simulated spectrum and compare with rounded numbers; they never look at the input array afterwards and never compare the error of the logarithm with the derivative", "anchors": ["stingray/power_colors.py:279-433", "stingray/fourier.py:28-108"]}
{"id": "C81", "title": "Hues are angles in the power color plane", "statement": "The hue of a point is the clockwise angle from the direction at 135 degrees, between -45 and 315 degrees, and is the only such angle; hue_from_power_color is the hue of the logarithms relative to the centre and only depends on the ratios to the centre; the plotted hue lines run through the points of that hue; _limit_angle_to_360 terminates with the equivalent angle in [0, 360).", "quantifier": "for all points and centres (positive for power colors), all angles", "why_tests_cant": "tests check a handful of points on the axes", "anchors": ["stingray/power_colors.py:104-122", "stingray/power_colors.py:436-497"]}
{"id": "C82", "title": "Integrated rms of a power spectrum equals the integral of its noise-subtracted power", "statement": "For a power spectrum with proper per-bin bookkeeping (k frequencies and m powers averaged in each bin, proportional to each other, single numbers or one per bin), compute_rms returns the square root of the integral, over the bins in the closed band, of the fractional-rms power minus the noise (bin width k*df); a negative integral gives rms 0 and error 0. The error is sqrt(V)/(2 rms), where V is the sum of P^2 df^2/m over the bins, or, for more than four unaveraged bins, the same sum on consecutive groups of four scaled to all bins. A noise level given in the norm of the spectrum is converted back to unnormalised power; with none given it is the number of photons. VIOLATED when the Leahy normalisation used the variance of the measurements: the level is converted back with the photon count, so a pure-noise spectrum at the given level has rms above zero.", "quantifier": "all spectra (any number of bins, nan bins included, any df, photon number, segment length), all bands, all four norms and all noise levels", "why_tests_cant": "Tests compare with a few simulated light curves within tolerance; the exact formula for arbitrary per-bin averaging and band edges, and the grouping by four, cannot be seen from a few noisy examples.", "anchors": ["stingray/powerspectrum.py:149-213", "stingray/fourier.py:843-930", "stingray/fourier.py:933-997", "stingray/fourier.py:588-666"]}
{"id": "C83", "title": "Rebinning a power spectrum keeps its integrated rms", "statement": "Linear rebinning by an integer factor q of an evenly spaced spectrum yields bins whose power and unnormalised power are the means of q consecutive ones, with frequency at their middle, df multiplied by q and m multiplied by q; logarithmic rebinning yields bins with edges growing at least by the factor 1+f, mean power of the frequencies in each cell, k = number of frequencies, m = k times the old m. Both keep the integrated rms for every band that contains a rebinned bin exactly when it contains its original bins, in particular over the whole range. Giving neither df nor f raises ValueError. VIOLATED for spectra already rebinned logarithmically: a second rebin_log leaves k and m inconsistent (compute_rms raises), raises itself, or a rebin afterwards leaves arrays of the old length (IndexError).", "quantifier": "all evenly spaced spectra, all integer factors (given as f or as df), all f >= 0, all bands, all noise levels and norms", "why_tests_cant": "Tests check the lengths and a few values of rebinned spectra; invariance of an integral under every factor and every admissible band is a statement over infinitely many inputs, and chained rebinning is not exercised.", "anchors": ["stingray/crossspectrum.py:739-808", "stingray/crossspectrum.py:936-999", "stingray/powerspectrum.py:124-147", "stingray/powerspectrum.py:149-213"]}
{"id": "C84", "title": "Reported significances of power spectrum bins", "statement": "classical_significances of a Leahy-normalised power spectrum reports, in increasing order of index, exactly the bins whose p-value (chi squared survival function of power*m with 2m degrees of freedom, combined over all bins when trial_correction is set) is below the threshold; m may be one number or one per bin. Every bin reported with trial correction is also reported without, with a smaller p-value; every bin below threshold/N without is reported with the correction. Other norms raise ValueError. Positive powers are all reported at threshold 1 in a single trial; VIOLATED for power 0: documented 'all p-values will be reported' but p = 1 is not below 1.", "quantifier": "all power lists, all m, all thresholds, any survival function", "why_tests_cant": "Tests look at one injected peak; equality of the reported set with the set of all bins below threshold, and the inclusion between corrected and uncorrected reports, concern every possible spectrum.", "anchors": ["stingray/powerspectrum.py:253-330", "stingray/stats.py:655-688"]}
{"id": "C85", "title": "P-values of averaged cospectra follow the law of averaged Laplace variables", "statement": "For every number n of averaged cospectra the single-trial p-value is a strictly decreasing function of the power with values strictly between 0 and 1 and p(-x) = 1 - p(x). For n up to 50 it is the survival function of the mean of n Laplace variables: for n = 1 the Laplace law, and each next law solves G - G'' = F with G(0) = 1/2 and bounded, which has exactly one solution. classical_significances of a cross spectrum reports exactly the indices with p-value below the threshold (divided by the number of powers with trial correction); with threshold 1 and no correction all of them. nspec = 0 and other norms raise ValueError. VIOLATED for powers of integer type and 2 <= n <= 50: the sums are stored in an integer array and every p-value is 1.", "quantifier": "all powers, all numbers of averaged spectra, all lists of powers and thresholds", "why_tests_cant": "Tests compare a handful of p-values with tabulated numbers; symmetry, monotonicity and the law itself for every n and x are statements about a continuum.", "anchors": ["stingray/crossspectrum.py:326-371", "stingray/crossspectrum.py:374-449", "stingray/crossspectrum.py:1144-1214"]}
{"id": "C86", "title": "Coherence of cross spectrum objects", "statement": "The coherence of an averaged cross spectrum lies in [0,1] and its uncertainty is sqrt(2) (1-c) sqrt(c) / sqrt(m), zero at c = 0 and c = 1. The bias that is subtracted should be that of m averages; VIOLATED: the code passes the number n of bins per segment, so the coherence differs from (|C|^2 - bias(m))/(P1 P2). The coherence of a cross spectrum of a single segment is identically 1.", "quantifier": "all cross powers and powers obeying the Cauchy-Schwarz inequality, all noise levels up to the powers, all m and n", "why_tests_cant": "Tests only check shapes and that values are close to 1 for identical light curves, where the bias is invisible.", "anchors": ["stingray/crossspectrum.py:1002-1026", "stingray/crossspectrum.py:2084-2131", "stingray/fourier.py:669-755"]}
{"id": "C87", "title": "Upper limit on a modulation is that of the strongest searched power", "statement": "modulation_upper_limit selects the frequencies above zero within the closed interval [fmin, fmax], takes a bin of largest power among them and returns an amplitude a with a * sinc-response(f/fNyq) * sqrt(0.773) = sqrt(2 * limit(power*m, m, c) / nphots), where fNyq is the largest frequency of the spectrum; the response is strictly between 0 and 1, so a is never below the uncorrected amplitude. The pulsed fraction limit corresponds to the same amplitude. No frequency in the interval raises ValueError.", "quantifier": "all spectra, all frequency limits, all confidence levels, any non-negative power limit function", "why_tests_cant": "One docstring example is tested; the selection and corrections for every spectrum and interval are not.", "anchors": ["stingray/powerspectrum.py:332-414", "stingray/stats.py:1006-1073", "stingray/stats.py:1076-1127"]}
{"id": "C88", "title": "Rows of a time range of an event file", "statement": "For every event file with TIME in non-decreasing order, at least one event and one GTI, and any sequence of calls of _get_idx_from_time_range(start, stop) with start < stop inside the range of the events and GTIs: each call returns exactly (number of events before start, number of events before stop, minus one), whatever edges earlier calls have cached and however coarse the grid of edges is, so that rows lower..upper are the events with start <= t < stop. A range that leaves the events and GTIs raises AssertionError.", "quantifier": "all time-ordered files, all GTI lists, all sequences of queries (all cache states)", "why_tests_cant": "The result must not depend on the number of grid edges, on which edges earlier queries stored, or on repeated times at the edges; tests use one file and a few ranges.", "anchors": ["stingray/io.py:1069-1122", "stingray/io.py:1179-1223"]}
{"id": "C89", "title": "Pieces of an event file", "statement": "apply_gti_lists gives one piece for each non-empty list, with the events of its span [first start, last stop) and the list as GTIs, or the whole file if the first list is within 1e-3 of the GTIs of the file. split_by_number_of_samples of a file with valid GTIs gives pieces that together contain every event in good time exactly once and in order, whose GTIs cover the good time (timezero 0), none of them longer than 3/2 of the mean exposure plus the longest GTI plus 2e-3 per GTI. VIOLATED: with timezero != 0 the times of the pieces are shifted and their GTIs are not; an event at the very end of the GTIs is in no piece although it is kept when there is only one piece.", "quantifier": "all time-ordered files, all valid GTI lists, all sample numbers, all timezero values", "why_tests_cant": "No loss and no duplication over all cuts, including events at cut points, needs all files; the tests use a file with timezero 0.", "anchors": ["stingray/io.py:1124-1177", "stingray/io.py:1225-1252", "stingray/io.py:830-889"]}
{"id": "C90", "title": "Event file filtered at time intervals", "statement": "filter_at_time_intervals gives, for each requested interval with good time in it, one piece whose GTIs are exactly the good time inside the interval and that contains every event of these GTIs. VIOLATED: if the first interval covers the observation (to within 1e-3) all other intervals are ignored and the single piece contains also the events outside the GTIs; an interval that exactly fills a gap between two GTIs gives a piece with the gap as good time.", "quantifier": "all time-ordered files, all valid GTI lists, all lists of intervals", "why_tests_cant": "Tests use intervals that neither touch GTI borders nor cover the observation.", "anchors": ["stingray/io.py:1254-1286", "stingray/io.py:1148-1158"]}
{"id": "C91", "title": "Header keywords in one or two parts", "statement": "high_precision_keyword_read returns the value of the keyword if present; otherwise, with the keyword cut to 7 letters if it has 8, the sum of the values of keyword+I and keyword+F; otherwise None. VIOLATED for ref_mjd, documented to read MJDREFI and MJDREFF and only failing these MJDREF: it takes MJDREF if present, dropping the fractional part of the other two.", "quantifier": "all headers with distinct keys, all keywords", "why_tests_cant": "Tests have headers with either the whole or the two halves.", "anchors": ["stingray/io.py:140-176", "stingray/io.py:1330-1357"]}
{"id": "C92", "title": "Energies of PI channels", "statement": "pi_to_energy returns one energy per event, in the same order: the mean of the bounds of the (last) row of the table with that channel, and 0 for a channel that is not in the table.", "quantifier": "all channel lists, all tables (channels in any order, repeated or missing)", "why_tests_cant": "Tests use complete tables with increasing channels.", "anchors": ["stingray/io.py:94-118"]}
{"id": "C93", "title": "Dynamical spectrum rebinned by resolution", "statement": "For a dynamical spectrum whose frequencies (or times) are equally spaced and a new resolution that is m times the old one, rebin_frequency and rebin_time return a new object with one bin per m complete old bins: every new power is the sum or mean of those m powers, the new axis holds the mean of those m values, the number of averaged spectra is multiplied by m, and the other axis does not change; a finer resolution, an unknown method and an empty table are refused.", "quantifier": "all tables, all spacings, all integer factors, both methods", "why_tests_cant": "the tests rebin two fixed tables; no test looks at the table length not divisible by the factor, at times with gaps, or at m for a non-integer factor", "anchors": ["stingray/crossspectrum.py:2312-2346", "stingray/crossspectrum.py:2348-2395", "stingray/utils.py:489-631"]}
{"id": "C94", "title": "Window functions", "statement": "create_window returns |N| values for every available window; hamming, hanning, blackmann and flat-top are the published cosine sums, welch the published parabola, and parzen the Parzen window; every window is symmetric about its middle, lies in [0, 1] (flat-top excepted), is 1 in the middle of an odd number of points, and hanning and welch are 0 at both ends; unknown names are refused.", "quantifier": "all lengths N and all eight window types", "why_tests_cant": "the tests check one length and only the shape and type errors; they never look at symmetry, range or a one-point window", "anchors": ["stingray/utils.py:1225-1333"]}
{"id": "C95", "title": "Excess variance", "statement": "excess_variance returns, for fvar, the square root of the excess variance over the squared mean with the error of Vaughan et al. 2003 eq. B2; for norm_xs the normalized excess variance with the error of eq. 11; for none the excess variance itself with that error times the squared mean. The normalized results do not depend on the unit of the counts. With a negative excess only the variances are defined, not the errors.", "quantifier": "all non-empty light curves and errors", "why_tests_cant": "tests compare two simulated light curves with the rms of a power spectrum within a tolerance; the errors and the negative case are not looked at", "anchors": ["stingray/utils.py:1168-1222"]}
{"id": "C96", "title": "Small numerical helpers", "statement": "standard_error is the root of the sample variance over the number of rows; poisson_symmetrical_errors gives for every count the mean half-width of its confidence interval, whatever the other counts are; check_isallfinite holds exactly when every value is finite; heaviside is 1 for positive numbers and 0 otherwise; check_iterables_close holds exactly when the two iterables have equally many, pairwise close values.", "quantifier": "all inputs", "why_tests_cant": "the tests use a few fixed arrays and compare the look-up table with the direct computation for one random array", "anchors": ["stingray/utils.py:1336-1380", "stingray/utils.py:1383-1406", "stingray/utils.py:210-223", "stingray/utils.py:365-404", "stingray/utils.py:1465-1499"]}
{"id": "C97", "title": "Third-order cumulant of a light curve", "statement": "For a largest lag L (given with either sign, or half of the number of points) the cumulant has 2L+1 rows and columns; the entry at lags (t1, t2) is the sum over the data of the products of the deviations from the mean at t, t+t1 and t+t2, divided by the number of points (biased) or by the number of terms in the sum (unbiased); it is symmetric under exchange of the lags and under (t1, t2) -> (-t1, t2-t1); the lags are the multiples of the bin size.", "quantifier": "all light curves, all bin sizes, all largest lags", "why_tests_cant": "the tests compare one random curve with a stored result; the Toeplitz construction, the scaling matrix glued from four pieces and negative indices that wrap around are exercised for one size only", "anchors": ["stingray/bispectrum.py:150-186", "stingray/bispectrum.py:227-261", "stingray/bispectrum.py:263-310"]}
{"id": "C98", "title": "Bispectrum: transform, windows and frequencies", "statement": "The bispectrum is the two-dimensional Fourier transform of the cumulant over the lags -L..L; it is symmetric under exchange of the frequencies and conjugate under change of sign; a window multiplies the cumulant by d(t1) d(t2) d(t1-t2), which keeps the symmetries of the cumulant, and a window that is 1 everywhere changes nothing; the frequencies are those of the transform.", "quantifier": "all light curves, largest lags, windows and scalings", "why_tests_cant": "tests look at attribute shapes and one stored result; the symmetry of the window and the frequency axis are never compared with the definition", "anchors": ["stingray/bispectrum.py:200-225", "stingray/bispectrum.py:312-332"]}
{"id": "C99", "title": "Incident and detected count rates with dead time", "statement": "The detected rate is r/(1 + r td) and the incident rate is r0/(1 - r0 td); the two conversions are inverse to each other; the detected rate is positive, at most the incident rate and below 1/td; the limit of the moments is the square of the mean counts per bin.", "quantifier": "all non-negative dead times and positive rates", "why_tests_cant": "tests check one pair of values", "anchors": ["stingray/deadtime/model.py:87-112", "stingray/deadtime/model.py:222-235"]}
{"id": "C100", "title": "Terms of the dead time model of Zhang et al. 1995", "statement": "The Poisson terms are exact below 50 and have a relative error of at most 1e-10 above, where Stirling's series is used; G_n(x) is the mean of (n - M) where positive, for a Poisson number M of mean x, to a relative accuracy of 1e-15 up to n = 50 and 2e-10 for any n, although the loop stops early; h_k(n) is the mean time left of k bins after n waits of a dead time and an exponential time, in units of the bin, which lies between 0 and k and grows with k; the loops over n contain every term that is not 0.", "quantifier": "all x >= 0, n, k, dead times, bin times and rates", "why_tests_cant": "the early exit depends on x and n and leaves out an unknown tail; tests compare a few values with a tolerance", "anchors": ["stingray/deadtime/model.py:24-39", "stingray/deadtime/model.py:42-84", "stingray/deadtime/model.py:115-142", "stingray/deadtime/model.py:148-196"]}
{"id": "C101", "title": "Power spectrum with dead time", "statement": "With no cut in k the model at frequency j > 0 is the mean Leahy power of N bins whose products have the means A_k; the frequencies are j/(N tb); giving the detected rate is the same as giving the incident rate it corresponds to; a background scales the distance from 2 by the fraction of source counts; rates beyond saturation are refused; by default the model uses as many bins as there are frequencies.", "quantifier": "all N, rates, dead times, bin times, cuts and backgrounds", "why_tests_cant": "tests compare simulations with the model to a tolerance, for even N", "anchors": ["stingray/deadtime/model.py:292-311", "stingray/deadtime/model.py:410-478", "stingray/deadtime/model.py:481-559"]}
{"id": "C102", "title": "Gaussian and Poisson log-likelihoods", "statement": "The value of the Gaussian (Poisson) log-likelihood is the logarithm of the product of the normal densities (Poisson probabilities) of the data around the model evaluated with the given parameters in the places of the parameters that are not fixed; neg flips the sign; data for which this is not finite give -1e16; a wrong number of parameters raises IncorrectParameterError.", "quantifier": "all models without tied parameters, all data, all parameters", "why_tests_cant": "tests compare with the same formula typed again, for one model and one set of data", "anchors": ["stingray/modeling/posterior.py:258-311", "stingray/modeling/posterior.py:348-395", "stingray/utils.py:2359-2391"]}
{"id": "C103", "title": "Log-likelihood of power spectra", "statement": "For one periodogram the value is the logarithm of the product of exponential densities with the model as mean; for m averaged periodograms differences of the value between two sets of parameters are differences of the logarithm of the product of gamma densities of shape m and mean equal to the model; an array of ones for m is the same as the number 1.", "quantifier": "all models without tied parameters, positive powers and model values, all m", "why_tests_cant": "tests retype the formula", "anchors": ["stingray/modeling/posterior.py:438-495"]}
{"id": "C104", "title": "Laplace log-likelihood", "statement": "The value is the logarithm of the product of Laplace densities around the model whose standard deviations are the given errors, as documented.", "quantifier": "all models without tied parameters, all data and positive errors", "why_tests_cant": "tests retype the formula", "anchors": ["stingray/modeling/posterior.py:498-582"]}
{"id": "C105", "title": "Priors and posteriors", "statement": "The log prior is the logarithm of the product of the prior densities of the parameters that are not fixed, in their order; the log posterior is the logarithm of the prior times the likelihood, for the four kinds of posteriors; where a prior is zero, negative or not finite the value is -1e16 whatever the data; missing priors, likelihoods or entries and wrong numbers of parameters raise the documented errors; models with tied parameters have a posterior too.", "quantifier": "all models, priors, parameters and data", "why_tests_cant": "tests use models with one or two free parameters and no tied ones", "anchors": ["stingray/modeling/posterior.py:58-171", "stingray/modeling/posterior.py:637-701", "stingray/modeling/posterior.py:752-897"]}
{"id": "C106", "title": "Criteria and statistics of a fit", "statement": "The deviance is -2 log L, the Akaike criterion -2 log L + 2k, the Bayesian criterion -2 log L + k log n; the figure of merit is the sum of squared relative differences, zero exactly for a perfect model; degrees of freedom, expected and observed sums of residuals are as documented.", "quantifier": "all likelihood values, parameters, data and models without zeros", "why_tests_cant": "tests compare with the same expression", "anchors": ["stingray/modeling/parameterestimation.py:210-241", "stingray/modeling/parameterestimation.py:244-265"]}
{"id": "C107", "title": "Repetition of failed fits", "statement": "fit keeps the first of 21 runs of the optimizer whose value is not a mark of failure, raises RuntimeError if there is none, and ends in any case; a run that only saw the failure value of the posterior is not kept; bounds that are set are passed to the methods that can use them.", "quantifier": "all sequences of results of the optimizer, all bounds and methods", "why_tests_cant": "needs an optimizer that fails a given number of times", "anchors": ["stingray/modeling/parameterestimation.py:403-522"]}
{"id": "C108", "title": "Likelihood ratios and p-values from simulations", "statement": "The likelihood ratio is twice the difference of the log likelihoods; the p-value is the fraction of simulations above the observed value, lies between 0 and 1 and does not grow with the observed value; simulations whose fit failed are skipped.", "quantifier": "all likelihood values, observed values and lists of simulations", "why_tests_cant": "tests use a few simulations whose fits all succeed", "anchors": ["stingray/modeling/parameterestimation.py:528-576", "stingray/modeling/parameterestimation.py:749-778", "stingray/modeling/parameterestimation.py:1385-1510"]}
{"id": "C109", "title": "Highest outliers of a power spectrum", "statement": "The n highest ratios 2 data/model are returned in increasing order with the frequency and index of each; the places are different.", "quantifier": "all data, models and 1 <= n <= number of data", "why_tests_cant": "tests plant one outlier", "anchors": ["stingray/modeling/parameterestimation.py:1729-1808"]}
{"id": "C110", "title": "Convergence criterion of the sampler", "statement": "The value is the weighted average (n-1)/n W + B/n of the variance within the chains and of the variance between their means, and a ratio to W that does not depend on the unit of the parameter.", "quantifier": "all chains of equal lengths", "why_tests_cant": "the value is not compared with anything", "anchors": ["stingray/modeling/parameterestimation.py:999-1001", "stingray/modeling/parameterestimation.py:1041-1074"]}
{"id": "C111", "title": "Dead time correction by Fourier amplitude differences", "statement": "Each column of the table is the average over the segments present in both channels of the power (or cross power) times 2 over the smoothed squared real part of the difference of the transforms in Leahy units, times the factor of the normalization; the scatter of the corrected differences decides compliance. The total equals the sum of the two powers and twice the real cross power, the cross power obeys the Cauchy-Schwarz bound, exchanging the channels exchanges the columns, and in the Leahy normalization the result does not depend on the brightness.", "quantifier": "all fluxes, numbers of bins and segments, filters that keep the length, normalizations, time steps", "why_tests_cant": "tests compare averaged powers of simulated data with loose tolerances", "anchors": ["stingray/deadtime/fad.py:122-288"]}
{"id": "C112", "title": "Inputs and objects of the Fourier amplitude difference correction", "statement": "The inputs are left unchanged, events are counted in bins of the requested width, and the objects made from the table carry the columns and the number of bins of the segments.", "quantifier": "all tables, good time intervals, event lists and segment sizes", "why_tests_cant": "tests use segment sizes that are multiples of dt and do not look at n or at the inputs after the call", "anchors": ["stingray/deadtime/fad.py:122-126", "stingray/deadtime/fad.py:412-461", "stingray/crossspectrum.py:107-125"]}
{"id": "C113", "title": "RXTE channel notation is decoded to the channel groups it denotes", "statement": "For every TEVTB2 string made of fields that start with a capital letter, whose first field without a leading C is followed by a field C[...] listing groups (one channel, two full numbers, or two numbers where the second one leaves out the leading digits it shares), the decoded list contains exactly the first and last channel of each group, in order; the PHA value of every event is replaced by the truncated mean of its group, which lies inside the group.", "quantifier": "all channel strings built from any number of groups of decimal numbers of any length, all lists of PHA values", "why_tests_cant": "tests decode a handful of literal strings; the notation has unboundedly many groups and digit counts", "anchors": ["stingray/mission_support/rxte.py:23-97", "stingray/mission_support/rxte.py:313-391"]}
{"id": "C114", "title": "Channel energies of RXTE/PCA and of the rough calibrations", "statement": "For every epoch inside the calibrated range and every channel 0..255 the energy is the one of the unique table row containing the channel, in the column of the epoch (and of detector 0 or 1-4 in epoch 5); energies never decrease with the channel; outside the range of epochs or channels an error is raised. The rough calibration of NuSTAR, XMM, NICER and IXPE is the documented straight line whatever the case of the mission name, and both functions that give it agree.", "quantifier": "all rational epochs, all channels, all detectors, all mission and instrument names", "why_tests_cant": "tests look at a few channels and epochs; the statement covers each row, epoch boundary and spelling", "anchors": ["stingray/mission_support/rxte.py:100-310", "stingray/mission_support/missions.py:22-63", "stingray/mission_support/missions.py:142-179"]}
{"id": "C115", "title": "The mission database gives each path the last value assigned to it", "statement": "Reading the lines of a mission database whose paths are equal or not nested in each other yields nested dictionaries in which a path has a value exactly when the last line about it gives that value, comments and lines about other missions being skipped; XMM and XTE get their corrections and nothing else changes; a line without colon is an IndexError and a path below a value is a TypeError.", "quantifier": "all lists of lines with any spacing, all missions", "why_tests_cant": "tests read the one database that is shipped", "anchors": ["stingray/mission_support/missions.py:66-132"]}
{"id": "C116", "title": "Mission keys: mode before instrument before mission, whatever the case", "statement": "get_key_from_mission_info returns the value of the last entry for the key (up to case) of the mode of the instrument, else of the instrument, else of the mission, else the default; the case-insensitive search returns the first element equal up to case and None when there is none.", "quantifier": "all nested dictionaries, keys, instruments, modes and defaults", "why_tests_cant": "tests use two literal dictionaries", "anchors": ["stingray/io.py:179-191", "stingray/io.py:236-297", "stingray/utils.py:150-180"]}
{"id": "C117", "title": "Pulsation searches average the statistic of each window", "statement": "epoch_folding_search and z_n_search return, for every frequency and derivative, the average over the consecutive windows whose events span at least a fifth of the window of the chi squared of the folded profile (or of its Z^2_n), one derivative giving flat arrays and several giving grids; the result is the same with and without numba for unit weights, and does not change when all times are shifted.", "quantifier": "for all event times, weights, grids of frequencies and derivatives, numbers of bins and harmonics and segment sizes", "why_tests_cant": "tests look for the position of one simulated peak; the value of every cell and the equality of the two code paths concern all grids and all times", "anchors": ["stingray/pulse/search.py:30-70", "stingray/pulse/search.py:141-171", "stingray/pulse/search.py:313-340"]}
{"id": "C118", "title": "Weights and good time intervals in pulsation searches", "statement": "A search weighted by one number, or corrected for exposure with good time intervals, gives a result that depends neither on the presence of numba nor on the number of intervals nor on the origin of the times.", "quantifier": "for all weights, intervals and times", "why_tests_cant": "tests use intervals starting at the first event and in a number different from that of the events", "anchors": ["stingray/pulse/search.py:55-62", "stingray/pulse/search.py:141-161"]}
{"id": "C119", "title": "Phase dispersion search", "statement": "phase_dispersion_search returns at every cell the average over the windows of the ratio between the variance inside the phase bins, with n - nbin degrees of freedom, and the variance of the sample, with n - 1.", "quantifier": "for all times, fluxes and grids such that in every window used there are more points than bins, every bin is occupied, the fluxes are not constant and not all 1", "why_tests_cant": "tests check the position of the minimum for one signal", "anchors": ["stingray/pulse/search.py:174-245", "stingray/pulse/pulsar.py:316-336"]}
{"id": "C120", "title": "Best peaks of a periodogram", "statement": "search_best_peaks returns one entry for each maximal run of values at or above the threshold, at the first maximum of the run, in decreasing order of the statistic; the first entry is the maximum of the periodogram and the lists are empty when no value reaches the threshold.", "quantifier": "for all periodograms, thresholds and sorting algorithms", "why_tests_cant": "three doctest cases cannot cover ties, runs touching the ends and every number of runs", "anchors": ["stingray/pulse/search.py:343-411"]}
{"id": "C121", "title": "Phaseogram", "statement": "Row k, column i of the phaseogram is the weight of the events with phase in bin k (modulo the number of bins) and time in bin i; both turns are equal, the total is twice the total weight, and the default reference time is the middle of the observation.", "quantifier": "for all event times, pulse solutions, numbers of bins and weights", "why_tests_cant": "tests only check that the profile is constant for one simulated pulsar", "anchors": ["stingray/pulse/search.py:500-625"]}
{"id": "C122", "title": "Covariance spectrum of light curves", "statement": "Covariancespectrum of a list of light curves holds, for every band, the sample covariance with its reference (the one given, the one given for this band, or the sum of all other bands), this covariance divided by the root of the excess variance of the reference, and the error of Wilkinson & Uttley; the covariance is bounded by the variances of band and reference, and the spectrum of a band against itself is its standard deviation.", "quantifier": "for all lists of light curves with a common number of bins (two or more), references and noise levels", "why_tests_cant": "tests compare the number of values in the result; the value of every band and the behaviour for one band against itself concern all counts", "anchors": ["stingray/covariancespectrum.py:103-194", "stingray/covariancespectrum.py:267-337", "stingray/covariancespectrum.py:404-445"]}
{"id": "C123", "title": "Bands and references of an event list", "statement": "Covariancespectrum of an event list counts, for every energy band, the photons of the band in each time bin, against a reference of all other photons; without bands it makes one band around every energy that holds no other energy; a reference band that is given is used.", "quantifier": "for all event lists, bands and time resolutions", "why_tests_cant": "tests use energies far from the times and count results; which numbers are counted concerns all energies, times and bands", "anchors": ["stingray/covariancespectrum.py:196-247", "stingray/covariancespectrum.py:356-402"]}
{"id": "C124", "title": "Averaged covariance spectra", "statement": "AveragedCovariancespectrum is the average of covariances, errors and excess variances over all segments of the given size.", "quantifier": "for all light curves, references and segment sizes", "why_tests_cant": "tests check that the attributes exist; the average concerns every number of segments", "anchors": ["stingray/covariancespectrum.py:514-587"]}
{"id": "C125", "title": "Random values drawn from a histogram, a light curve or a spectrum", "statement": "simulate_with_inverse_cdf returns, for every random number u, the value below which lies the fraction u of the histogram: the value falls inside a bin exactly when u falls in the share of this bin, never inside an empty bin, never outside the edges, and in increasing order when sorted values are asked for. simulate_times_from_count_array draws in every good time interval from the bins of this interval only, and simulate_energies from the given edges or from bins centred on evenly spaced energies.", "quantifier": "for all histograms without negative values and with a positive sum, all edges, ranges, good time intervals and random numbers in [0, 1)", "why_tests_cant": "tests draw a few random values and compare their number or range; the probability of every bin concerns every possible random number", "anchors": ["stingray/simulator/base.py:63-141", "stingray/simulator/base.py:144-252", "stingray/events.py:456-494"]}
{"id": "C126", "title": "Light curves simulated from a power spectrum", "statement": "Simulator._timmerkoenig gives a light curve of N bins with exactly the mean and the rms asked for, whose Fourier amplitude at every frequency below the highest is, up to one common factor, the two normal numbers drawn for it times the root of half the power, and is real at the Nyquist frequency; model spectra and power laws are evaluated at the frequencies k/(N dt); with red noise the light curve is a piece of one red_noise times longer, with the exact mean.", "quantifier": "for all numbers of bins, spectra, means, rms and normal numbers", "why_tests_cant": "tests compare averaged periodograms within wide limits; the relation of each amplitude with its random numbers concerns all draws", "anchors": ["stingray/simulator/simulator.py:340-400", "stingray/simulator/simulator.py:402-498", "stingray/simulator/simulator.py:539-570"]}
{"id": "C127", "title": "Impulse responses and transfer functions", "statement": "Simulator.simulate(s, h) returns the signal convolved with the response: as many bins as the signal in mode same, the bins not affected by the border in mode filtered, all in mode full. simple_ir and relativistic_ir build the responses they describe, and TransferFunction.time_response averages the channels of the chosen energies (all by default), energy_response all times.", "quantifier": "for all signals, responses, time resolutions and tables", "why_tests_cant": "tests use one response and compare lags; the content of every bin and the channels of every energy range concern all inputs", "anchors": ["stingray/simulator/simulator.py:255-338", "stingray/simulator/simulator.py:502-537", "stingray/simulator/transfer.py:51-116", "stingray/simulator/transfer.py:225-321"]}
{"id": "C128", "title": "Rms spectra", "statement": "RmsSpectrum gives for every energy band the root of the mean power in the frequency range less the Poisson noise, times the width of the range, as a rate or as a fraction of the mean rate, and nan for bands with fewer than ten photons in a segment or no frequency bin; with two event lists it uses the modulus of the mean cross spectrum in the common good time. Its error does not depend on the unit of time when the value is a fraction.", "quantifier": "for all event lists with sorted times, good time intervals, bands, frequency ranges, bin and segment lengths", "why_tests_cant": "tests compare one simulated observation with an approximate value and look at the size of the error bar only; the formula for every observation and its behaviour under a change of unit need a proof", "anchors": ["stingray/varenergyspectrum.py:305-330", "stingray/varenergyspectrum.py:347-351", "stingray/varenergyspectrum.py:440-464", "stingray/varenergyspectrum.py:555-628"]}
{"id": "C129", "title": "Options of spectra against energy", "statement": "use_pi=True selects photons by channel, and with two event lists LagSpectrum takes the energy bands from the second and the reference band from the first, as documented.", "quantifier": "for all event lists and bands", "why_tests_cant": "tests use event lists where energies and channels agree and the same list twice", "anchors": ["stingray/varenergyspectrum.py:305-330", "stingray/varenergyspectrum.py:780-782", "stingray/varenergyspectrum.py:831-927", "stingray/varenergyspectrum.py:1003-1122"]}
{"id": "C130", "title": "Count spectra", "statement": "CountSpectrum gives for every band the number of photons with an energy (or channel) in it and its root; the counts of adjacent bands add up to the number of photons between the first and the last edge, and the energies reported are the centres of the bands.", "quantifier": "for all event lists and edges", "why_tests_cant": "one test checks one list; the sum over all bands needs the half-open bands for all edges", "anchors": ["stingray/varenergyspectrum.py:224", "stingray/varenergyspectrum.py:257-265", "stingray/varenergyspectrum.py:756-773"]}
{"id": "C131", "title": "Excess variance spectra", "statement": "ExcessVarianceSpectrum stores the excess variance of the light curve of every band.", "quantifier": "for all event lists, bands and bin lengths", "why_tests_cant": "tests only call the constructor", "anchors": ["stingray/varenergyspectrum.py:254", "stingray/varenergyspectrum.py:707-718"]}
{"id": "C132", "title": "Lag spectra", "statement": "LagSpectrum gives for every band the phase of the mean cross spectrum with the reference band over 2 pi times the mean frequency, weighted with the modulus of the cross spectrum, in segments where both have photons. A lag is never longer than half the period of the lowest frequency, the lag of the reference band itself is zero, and in one frequency bin a band that repeats the reference d bins later has a lag of d bins. Bands count as overlapping exactly when an energy lies in both.", "quantifier": "for all event lists with sorted times, good time intervals, bands, reference bands, frequency ranges, bin and segment lengths", "why_tests_cant": "tests look at one simulated delay with a tolerance; sign, bound and exactness concern all inputs", "anchors": ["stingray/varenergyspectrum.py:831-927", "stingray/fourier.py:712-755", "stingray/fourier.py:1137-1164"]}
{"id": "C133", "title": "Covariance spectra of events", "statement": "ComplexCovarianceSpectrum gives for every band the mean cross spectrum with the reference band, less the noise when the bands overlap, times the root of the frequency width over the noise-free power of the reference; CovarianceSpectrum is its modulus; the covariance of a band with itself is its rms.", "quantifier": "for all event lists with sorted times, good time intervals, bands, reference bands, frequency ranges, bin and segment lengths", "why_tests_cant": "tests compare with approximate values of one simulation", "anchors": ["stingray/varenergyspectrum.py:1003-1122", "stingray/fourier.py:1167-1195"]}
{"id": "C134", "title": "Splitting a light curve at gaps", "statement": "Lightcurve.split cuts the light curve exactly where neighbouring samples are min_gap or more apart: the pieces are the runs of samples closer than min_gap that have at least min_points samples, each with its own rows of all columns; with GTIs given every piece lies in one run and inside the GTIs. No sample is lost.", "quantifier": "for all sorted light curves, gap lengths, GTIs and minimum numbers of points", "why_tests_cant": "tests split a few light curves with equal spacing; the behaviour at a gap equal to the sampling step or with samples closer than dt is not tried", "anchors": ["stingray/lightcurve.py:1162-1213", "stingray/base.py:1386-1440"]}
{"id": "C135", "title": "Sorting a light curve by counts", "statement": "Lightcurve.sort_counts returns the same rows (time, counts and all other columns together) with counts in nondecreasing order, or nonincreasing with reverse.", "quantifier": "for all light curves with columns of the right length and all argsort functions", "why_tests_cant": "tests sort one light curve of distinct counts", "anchors": ["stingray/lightcurve.py:1252-1287"]}
{"id": "C136", "title": "Restricting a light curve to its GTIs", "statement": "Lightcurve.apply_gtis keeps exactly the bins inside the GTIs with their columns, leaves dt and the GTIs, sets tseg to the span of the GTIs and tstart to the start of the first bin.", "quantifier": "for all sorted light curves and GTIs", "why_tests_cant": "tests check counts and times of two light curves; tstart is not read back", "anchors": ["stingray/lightcurve.py:1708-1731"]}
{"id": "C137", "title": "Checks of counts and errors", "statement": "A light curve with values that are not finite is refused with a ValueError exactly when one of them, in counts or errors, is inside the GTIs (or anywhere without GTIs).", "quantifier": "for all times, counts, errors and GTIs", "why_tests_cant": "tests put one nan inside and one outside a GTI", "anchors": ["stingray/lightcurve.py:486-527"]}
{"id": "C138", "title": "Light curves of segments of an event list", "statement": "EventList.to_lc_iter and to_lc_list give one light curve per segment (or per GTI), each with the number of events in every bin of its segment; no event is counted in two light curves.", "quantifier": "for all sorted event times, GTIs, bin and segment lengths", "why_tests_cant": "tests sum the counts of one event list with segments that fit", "anchors": ["stingray/events.py:342-397", "stingray/gti.py:1484-1521"]}
{"id": "C139", "title": "Color in segments", "statement": "get_color_evolution gives for every analysed segment the ratio of the numbers of events in the second and first energy range with its error, or nan when one is zero.", "quantifier": "for all sorted event lists, energy ranges, segments, GTIs", "why_tests_cant": "tests check one event list with all segments populated", "anchors": ["stingray/events.py:786-828"]}
{"id": "C140", "title": "Intensity in segments", "statement": "get_intensity_evolution returns for every start and stop of a segment the rate of events of the energy range in it and its error; the lists have the same length.", "quantifier": "for all sorted event lists, energy ranges, segments, GTIs", "why_tests_cant": "tests use event lists with events in every segment", "anchors": ["stingray/events.py:830-864", "stingray/base.py:2584-2680"]}
{"id": "C141", "title": "Good time intervals given by the user", "statement": "The gti argument is used as documented: given to Powerspectrum or AveragedPowerspectrum it overrides the good time intervals of the data, and given to powerspectrum_from_events or powerspectrum_from_lightcurve it is intersected with them.", "quantifier": "for all event lists, light curves and intervals", "why_tests_cant": "tests pass the good time intervals of the data themselves, where using them, ignoring them and intersecting them all agree", "anchors": ["stingray/powerspectrum.py:100-122", "stingray/powerspectrum.py:875-941", "stingray/powerspectrum.py:1256-1323", "stingray/powerspectrum.py:1326-1391"]}
{"id": "C142", "title": "Spectra of event lists and lists of light curves", "statement": "The averaged power spectrum of an event list is the normalized mean of the periodograms of the segments with at least two events, with the bin time adapted to the resolution of the events; the spectrum of a list of light curves averages the segments of all of them, and a list of one light curve gives the spectrum of that light curve.", "quantifier": "for all sorted event lists, intervals, bin times, segment sizes and lists of evenly sampled light curves", "why_tests_cant": "tests compare a few simulated observations within noise; the exact value for every observation needs a proof", "anchors": ["stingray/powerspectrum.py:707-768", "stingray/powerspectrum.py:1186-1323", "stingray/powerspectrum.py:1474-1566", "stingray/crossspectrum.py:605-737", "stingray/crossspectrum.py:2048-2082"]}
{"id": "C143", "title": "Cross spectra of lists of light curves", "statement": "crossspectrum_from_lc_iterable correlates segments of the two lists that were observed at the same times.", "quantifier": "for all pairs of lists of light curves", "why_tests_cant": "tests use the same good time intervals in both lists", "anchors": ["stingray/crossspectrum.py:3028-3131"]}
{"id": "C144", "title": "Matrix of the dynamical power spectrum", "statement": "DynamicalPowerspectrum has one column of dyn_ps for each element of time: the normalized periodogram of the segment centred on that time; unnorm_conversion is the factor between normalized and unnormalized powers.", "quantifier": "for all sorted event lists, intervals, bin times and segment sizes", "why_tests_cant": "tests use bright light curves with segments that are whole numbers of bins", "anchors": ["stingray/powerspectrum.py:1023-1049", "stingray/powerspectrum.py:1102-1135"]}
{"id": "C145", "title": "Rms of dynamical spectra", "statement": "DynamicalCrossspectrum.compute_rms gives for each column the square of the rms, the integral of the fractional powers above the Poisson level over the frequencies in [min_freq, max_freq], 0 when the integral is negative, with its error.", "quantifier": "for all dynamical spectra with positive df, m, number of photons and segment size, all ranges and levels", "why_tests_cant": "tests compare one simulated spectrum with a tolerance", "anchors": ["stingray/crossspectrum.py:2615-2673"]}
{"id": "C146", "title": "Power colors of dynamical spectra", "statement": "DynamicalCrossspectrum.power_colors gives the power colors of each column and leaves the object as it was.", "quantifier": "for all dynamical spectra, edges, excluded intervals and noise levels", "why_tests_cant": "tests look at the colors, not at the object after the call", "anchors": ["stingray/crossspectrum.py:2559-2613", "stingray/power_colors.py:279-434"]}
{"id": "C147", "title": "Shift and add of dynamical spectra", "statement": "DynamicalCrossspectrum.shift_and_add returns the averaged spectrum of the shifted columns with the bins that have data, m the number of averaged powers and df the distance of the frequencies.", "quantifier": "for all dynamical spectra, central frequencies, numbers of bins and rebinning factors that are whole numbers", "why_tests_cant": "tests check the position of the maximum", "anchors": ["stingray/crossspectrum.py:2491-2557", "stingray/fourier.py:1508-1586"]}
{"id": "C148", "title": "Cross spectra of two event lists or light curves", "statement": "For two event lists, crossspectrum_from_events gives the average over the segments of the GTIs (given, or common) with at least two events of both lists of the cross powers of the binned light curves, normalized with the geometric mean of the photons; pds1 and pds2 are the normalized power spectra of the two lists over the same segments. With segment_size=None it is the cross spectrum of the whole interval. If no segment is usable there is an AttributeError. Light curves with the same times: the same with the samples of the segments.", "quantifier": "all event lists, GTIs, resolutions, segment sizes, norms, power types, fullspec, save_all", "why_tests_cant": "Tests use a few simulated lists and compare to constants within tolerance", "anchors": ["stingray/crossspectrum.py:2760-2923", "stingray/crossspectrum.py:2926-3025", "stingray/crossspectrum.py:3134-3222"]}
{"id": "C149", "title": "Exchange of the channels conjugates the cross spectrum", "statement": "If the two event lists are exchanged, the frequencies, number of averages and photons are the same, the cross powers are complex conjugate and pds1 and pds2 are exchanged.", "quantifier": "all pairs of event lists with GTIs given", "why_tests_cant": "Only one order of channels is tested", "anchors": ["stingray/crossspectrum.py:2760-2840", "stingray/events.py:676-701"]}
{"id": "C150", "title": "Making a cross spectrum leaves the event lists as they were", "statement": "After Crossspectrum(ev1, ev2, ...) or AveragedCrossspectrum(ev1, ev2, ...) the attributes of ev1 and ev2 are those before the call.", "quantifier": "all pairs of event lists and arguments", "why_tests_cant": "Tests do not look at the inputs after the call", "anchors": ["stingray/crossspectrum.py:1590-1685"]}
{"id": "C151", "title": "Error bars and lags of averaged cross spectra", "statement": "For every table made from segments |z|^2 <= P1 P2 (C151_bound); then the errors a, b of the real and imaginary part of a cross power satisfy 2 m a^2 = P1 P2 + Re^2 - Im^2, 2 m b^2 = P1 P2 - Re^2 + Im^2, a^2 + b^2 = P1 P2 / m and the default for invalid errors is never used; with overlapping bands both are sqrt(P2/(2m) (P1 - (|z|^2 - b)/(P2 - noise2))) or the default. The phase lag is the angle of the cross power with the error of Ingram (2019), the time lag is phase/(2 pi f).", "quantifier": "all cross powers, powers, numbers of averages", "why_tests_cant": "Error formulas are only checked statistically", "anchors": ["stingray/crossspectrum.py:1784-1843", "stingray/crossspectrum.py:2134-2159", "stingray/fourier.py:1082-1170"]}
{"id": "C152", "title": "deadtime_correct multiplies all powers with 2/model", "statement": "deadtime_correct returns a spectrum whose power, unnorm_power, power_err, unnorm_power_err, cs_all and unnorm_cs_all are those of the spectrum times 2/model, bin by bin, and the same holds for the power spectra of the two channels.", "quantifier": "all spectra, all values of the dead time model", "why_tests_cant": "Tests only look at the power of the result", "anchors": ["stingray/crossspectrum.py:1694-1781"]}
{"id": "C153", "title": "Deprecated normalization functions", "statement": "normalize_crossspectrum multiplies with the factor of the norm for dt = tseg/nbins, the geometric mean of the photons and its value per bin, normalize_crossspectrum_gauss with the factor for the mean flux times dt and the variance; for norm='none' the imaginary part is returned as well.", "quantifier": "all powers, photon numbers, norms and power types", "why_tests_cant": "Tests compare a handful of values", "anchors": ["stingray/crossspectrum.py:212-323"]}
{"id": "C154", "title": "Lists of array, internal and meta attributes", "statement": "array_attrs lists exactly the public attributes other than the main array (and not in not_array_attr) that are arrays with as many rows as the main array; internal_array_attrs the same for names with an underscore (not empty, not the ones behind the main array or not_array_attr); meta_attrs the other public numbers, texts and arrays plus not_array_attr. Every public attribute with data other than the main array is in exactly one of the lists.", "quantifier": "all classes, objects, attribute names and values", "why_tests_cant": "Tests check a few objects with a fixed set of attributes", "anchors": ["stingray/base.py:109-135", "stingray/base.py:137-164", "stingray/base.py:166-199", "stingray/base.py:201-221"]}
{"id": "C155", "title": "Comparison of objects with ==", "statement": "a == b is True exactly when both have the same array and meta attributes and all the array, meta and internal attributes of a have the same value in b (nan equal to nan only inside arrays). It should compare all attributes and be an equivalence.", "quantifier": "all classes and pairs of objects with a main array", "why_tests_cant": "Tests compare copies and objects with one changed attribute, never with a changed main array", "anchors": ["stingray/base.py:292-335"]}
{"id": "C156", "title": "Round trip of objects through astropy tables", "statement": "to_astropy_table has the main, array and internal arrays as columns and the non-None meta attributes as meta; from_astropy_table of it gives back the main array, the array and internal attributes and the meta attributes, all other attributes being those of a new object.", "quantifier": "all classes and objects with at least one row and lower case names", "why_tests_cant": "Tests do round trips of a few objects with lower case names", "anchors": ["stingray/base.py:344-352", "stingray/base.py:354-393", "stingray/base.py:396-445", "stingray/base.py:1246-1253"]}
{"id": "C157", "title": "Reading of times and dates", "statement": "interpret_times gives seconds and a reference such that seconds/86400 + reference is the date; plain numbers, Quantity and TimeDelta are kept as seconds; other formats are errors. A time series made of dates should keep them; array attributes must have the length of the times.", "quantifier": "all lists of dates, references and array attributes", "why_tests_cant": "Tests of time series give the reference explicitly", "anchors": ["stingray/base.py:2787-2876", "stingray/base.py:1277-1285", "stingray/base.py:1190-1229"]}
{"id": "C158", "title": "Grid of Lomb-Scargle frequencies", "statement": "_autofrequency returns the frequencies min_freq + i df, i = 0, 1, ..., with df = 1/length when df is missing or not positive, min_freq = df/2 when missing or not positive, max_freq = nyquist_factor/(2 dt) when missing. They reach max_freq and do not go beyond it. Missing information raises ValueError.", "quantifier": "all min_freq, max_freq, df, dt, length, nyquist_factor (given or missing)", "why_tests_cant": "The examples in the documentation only use ranges that are multiples of df", "anchors": ["stingray/lombscargle.py:30-80"]}
{"id": "C159", "title": "Lomb-Scargle transform of arbitrary times", "statement": "The squared modulus of lsft_slow at a frequency f > 0 is n/2 times Scargle's periodogram of the mean-subtracted values, with a phase that makes sine and cosine orthogonal over the times. It is undefined exactly when all times agree up to half periods. It scales with the values, ignores a constant and does not depend on the origin of times. At zero frequency it is 0. For evenly spaced times and the Fourier frequencies (not Nyquist) it equals the discrete Fourier transform (sign < 0), or its conjugate times a phase (sign > 0).", "quantifier": "all values, times (any spacing and order), frequencies, signs other than 0, shifts, factors", "why_tests_cant": "Tests compare the power with one precomputed array", "anchors": ["stingray/fourier.py:2596-2678"]}
{"id": "C160", "title": "Fast Lomb-Scargle transform", "statement": "With exact trigonometric sums lsft_fast returns the same transform as lsft_slow, at every frequency of an evenly spaced grid.", "quantifier": "all values, times, evenly spaced frequencies", "why_tests_cant": "Tests compare with precomputed output of the same function, and for evenly sampled data", "anchors": ["stingray/fourier.py:2498-2593"]}
{"id": "C161", "title": "Lomb-Scargle cross and power spectra", "statement": "The spectrum at each frequency is F1 conj(F2) times the factor of the normalization; full spectra are mirrored with complex conjugates and 0 at zero frequency; for evenly sampled data the powers at Fourier frequencies are those of the ordinary (cross) spectrum. df sets the spacing of the frequencies, unnorm_power holds the powers before normalization, compute_rms works.", "quantifier": "all light curves, norms, power types, frequency ranges", "why_tests_cant": "Tests check attributes and lengths", "anchors": ["stingray/fourier.py:2681-2710", "stingray/lombscargle.py:180-235", "stingray/lombscargle.py:305-342", "stingray/lombscargle.py:405-468", "stingray/lombscargle.py:592-639", "stingray/lombscargle.py:642-749", "stingray/lombscargle.py:752-803"]}
{"id": "C162", "title": "Candidates of the search for accelerated pulsations", "statement": "accelsearch returns one row for every frequency derivative z of the grid and every bin with a frequency in [fmin, fmax) whose power exceeds the detection level, and no other row. The power is that of the Leahy-normalized transform convolved, centred, with the template of eq. 39 of Ransom et al. 2002; for z = 0 it is the ordinary Leahy power. Frequency is r/T, derivative z/T^2.", "quantifier": "all evenly spaced times, counts with a positive sum, frequency ranges, grids of z whose templates have an odd number of bins, any order of the results of the pool, any Fresnel and chi squared functions", "why_tests_cant": "Tests check that one strong simulated signal is among the candidates", "anchors": ["stingray/pulse/accelsearch.py:66-73", "stingray/pulse/accelsearch.py:81-122", "stingray/pulse/accelsearch.py:125-194", "stingray/pulse/accelsearch.py:197-283", "stingray/pulse/accelsearch.py:286-455"]}
{"id": "C163", "title": "Interbinning of a Fourier transform", "statement": "interbin_fft keeps the values at the given frequencies and adds, halfway between neighbours, pi/4 times their difference A_k - A_(k+1); frequencies in the order of the transform (negative ones last) come back in that order. The arrays have twice the original length.", "quantifier": "all evenly spaced frequencies, increasing or in transform order, all values, any argsort", "why_tests_cant": "One example with five bins in the documentation", "anchors": ["stingray/pulse/accelsearch.py:458-522"]}
{"id": "C164", "title": "Gaps and limits of the search for accelerated pulsations", "statement": "Counts outside the good time intervals are replaced by the mean of the good counts (the median when the mean rate exceeds 10 counts per bin), and the exposure is the fraction of good bins, whatever the number of intervals. Frequency derivatives from -zmax to zmax, both included, are searched; zmax = 0 searches without acceleration.", "quantifier": "all times, counts, good time intervals, zmax, delta_z > 0", "why_tests_cant": "Tests use two intervals and never look at the ends of the grid", "anchors": ["stingray/pulse/accelsearch.py:351-371", "stingray/pulse/accelsearch.py:399-407"]}
{"id": "C165", "title": "Phases brought between minus one half and one half", "statement": "normalize_phase_0d5 ends for every finite phase and returns the only number in (-1/2, 1/2] that differs from the phase by a whole number of turns.", "quantifier": "all real phases", "why_tests_cant": "The doctests show four phases; the loops take a number of turns that grows with the phase.", "anchors": ["stingray/pulse/fftfit.py:178-196"]}
{"id": "C166", "title": "Fit of a template to a pulse profile", "statement": "fftfit starts at the trial shift, of 64, with the largest correlation of 15 harmonics; the shift it returns is in (-1/2, 1/2] and is a zero of the slope of the correlation of the strong harmonics; the amplitude and the errors follow the formulas of Taylor (1992) with one harmonic less; a delayed, scaled copy of the template (delay on the grid of 64 shifts, few strong harmonics) gives back its delay and its scale exactly. A profile that is a copy of the template should always be fitted and its amplitude error should not depend on the bin the profile starts with.", "quantifier": "all profiles and templates, all root finders that return roots in the interval", "why_tests_cant": "Tests fit noisy profiles of fixed shapes with tolerances of several sigma and never use fewer than 32 bins.", "anchors": ["stingray/pulse/fftfit.py:5-175", "stingray/pulse/pulsar.py:741-771"]}
{"id": "C167", "title": "Times of arrival", "statement": "get_TOA returns the start time plus the fitted phase (with the additional phase, up to whole turns) times the period, between the start and one period later; its error is the phase error times the period; for a sinusoid delayed by m of n bins it is the start plus m/n of a period.", "quantifier": "all profiles, templates, periods and start times", "why_tests_cant": "Tests compare one simulated time of arrival within three errors.", "anchors": ["stingray/pulse/pulsar.py:741-771", "stingray/pulse/pulsar.py:805-863"]}
{"id": "C168", "title": "Sinc squared curve and its partial derivatives", "statement": "sinc_square_model is the amplitude times (sin z / z)^2 with z = (x - mean) / width, the amplitude at the mean; sinc_square_deriv returns its partial derivatives with respect to amplitude, mean and width at every point.", "quantifier": "all x, amplitudes, means and non-zero widths", "why_tests_cant": "The tests compare the derivative with nothing but its value at the peak; a wrong slope only makes the fit slower or less exact.", "anchors": ["stingray/pulse/modeling.py:8-107"]}
{"id": "C169", "title": "Start of the fit of a sinc squared curve", "statement": "With obs_length, fit_sinc fixes the width to 1 / (pi obs_length) and changes no other constraint; without it the start values and constraints are those given. A call does not influence later calls.", "quantifier": "all start values, constraints and observation lengths", "why_tests_cant": "The leak of the default dictionary appears only in a second call in the same process.", "anchors": ["stingray/pulse/modeling.py:119-169"]}
{"id": "C170", "title": "Asymptotic gamma functions", "statement": "For whole a and z at least 2a the loop of _log_asymptotic_incomplete_gamma ends and its exponential is (a-1)! times the tail of the chi squared distribution with 2a degrees of freedom, up to 1e-15; _log_asymptotic_gamma is within 0.0042 of the log of the factorial for every whole number. The loop ends for every a and z of the asymptotic regime.", "quantifier": "all whole a and all z >= 2a", "why_tests_cant": "The doctests compare a few values with a tolerance of 0.1 and never use half-integer a.", "anchors": ["stingray/stats.py:119-161"]}
{"id": "C171", "title": "Log of the tail probability of chi squared", "statement": "chi2_logp raises ValueError below two degrees of freedom, is the library value for small reduced chi squared, and is within 0.0042 of the true log probability for large reduced chi squared. Larger chi squared never gives larger probability.", "quantifier": "all chi squared and all even numbers of degrees of freedom", "why_tests_cant": "Tests sample few points with a tolerance of 0.1 in the log.", "anchors": ["stingray/stats.py:119-200"]}
{"id": "C172", "title": "Equivalent number of Gaussian sigmas", "statement": "equivalent_gaussian_Nsigma inverts the Gaussian tail for p of at least exp(-300); the extended formula grows strictly as the probability falls and stays within 0.6 of sqrt(-2 ln p).", "quantifier": "all probabilities", "why_tests_cant": "Tests compare five tabulated values within 0.1.", "anchors": ["stingray/stats.py:41-116"]}
{"id": "C173", "title": "Log probabilities of powers, folded profiles and phase dispersion", "statement": "pds_logprobability, z2_n_logprobability and fold_profile_logprobability are the logs of the probabilities outside the asymptotic regime; large powers give the log within 0.0042 before the correction for trials; the phase dispersion level has the asked probability, smaller values are less probable, and the log version agrees.", "quantifier": "all statistics, bins, trials and averaged spectra", "why_tests_cant": "Random draws of a few powers; profiles of four bins are never tried.", "anchors": ["stingray/stats.py:405-426", "stingray/stats.py:457-563", "stingray/stats.py:593-618", "stingray/stats.py:691-737"]}
{"id": "C174", "title": "Phases of the harmonics of a light curve segment", "statement": "get_parameters returns the mean count rate, the phases of the Fourier bins nearest to the two centroids of the model and their phase difference modulo pi; a light curve made of two sine waves gives back their phases; the phase difference does not depend on where the segment starts.", "quantifier": "all light curves, bin widths, centroids, harmonics and cyclic delays", "why_tests_cant": "The test compares one light curve with stored numbers.", "anchors": ["stingray/spectroscopy.py:158-218", "stingray/utils.py:1430-1462"]}
{"id": "C175", "title": "Waveform of the oscillation", "statement": "The waveform has the given mean and its fractional variance is the sum of the squared rms of the harmonics; with the parameters of a light curve of two harmonics it repeats the light curve.", "quantifier": "all means, rms, phases and numbers of phases (at least 5)", "why_tests_cant": "The test checks one stored array.", "anchors": ["stingray/spectroscopy.py:221-256", "stingray/spectroscopy.py:158-218"]}
{"id": "C176", "title": "Mean phase difference between harmonics", "statement": "x_2_function is the sum of the squared distances modulo pi between the phase differences of the segments and a value; segments that agree give back their phase difference modulo pi, with no spread.", "quantifier": "all phase differences, numbers of segments and light curves", "why_tests_cant": "The test checks one number to two digits.", "anchors": ["stingray/spectroscopy.py:259-378"]}
{"id": "C177", "title": "Rms and cross-correlation of filtered cross spectra", "statement": "compute_rms is the root of the summed model over the selected bins; ccf of a cross spectrum is the circular cross-correlation; ccf_error returns the correlation of the average and the standard error of the segments, and finds the lag.", "quantifier": "all spectra, filters, segments and lags", "why_tests_cant": "Tests check stored arrays of one file.", "anchors": ["stingray/spectroscopy.py:53-155", "stingray/spectroscopy.py:381-422"]}
{"id": "C178", "title": "Grid of source count rates of the Bayesian excess variance", "statement": "The grid of log rates is evenly spaced, goes from 5% below the lowest background subtracted rate (never below -1) to 5% above the highest rate, and has the asked density; every list of positive counts has a grid that contains its rates.", "quantifier": "all lists of bins, all quantile functions of the gamma distribution, all densities", "why_tests_cant": "Tests use one bright light curve; faint sources (below 0.1 counts per second) are never tried.", "anchors": ["stingray/bexvar.py:30-86", "stingray/bexvar.py:193-276"]}
{"id": "C179", "title": "Weights, priors, likelihood and bins of the Bayesian excess variance", "statement": "The weights of a bin are proportional to the marginalized Poisson probabilities, not negative and sum to one; the prior maps the unit square onto the grid and 0.01..100; the likelihood is bounded below; only bins exposed more than a tenth are used, in order, with the defaults of the missing lists.", "quantifier": "all grids, bins, probability functions and tables", "why_tests_cant": "Tests compare one stored result.", "anchors": ["stingray/bexvar.py:89-138", "stingray/bexvar.py:141-190", "stingray/bexvar.py:193-276"]}
{"id": "C180", "title": "Combining the tapers of a multitaper spectrum", "statement": "The spectrum is the weighted mean of twice the squared moduli of the tapered transforms: between the extremes of the single tapers, the same for proportional weights, quadratic in the data; the tapers used are those concentrated more than 0.9, or else the first best one.", "quantifier": "all transforms, weights and tapers", "why_tests_cant": "Tests only check that the attributes are not None.", "anchors": ["stingray/multitaper.py:387-419", "stingray/multitaper.py:343-350"]}
{"id": "C181", "title": "Adaptive weights of a multitaper spectrum", "statement": "The iterations end with a positive spectrum between the extremes of the single tapers and positive weights; spectrum and weights satisfy one of the two equations exactly; perfectly concentrated tapers give the plain mean; fewer than three tapers are combined with the roots of the concentrations; the result is finite whenever the plain spectrum is.", "quantifier": "all transforms and concentrations, any number of iterations", "why_tests_cant": "Tests only check that the attributes are not None; constant data are never tried.", "anchors": ["stingray/multitaper.py:421-520"]}
{"id": "C182", "title": "Jackknife variances of a multitaper spectrum", "statement": "The variance is Thomson's factor times the squared deviations of the logs of the leave-one-out spectra: not negative, independent of the scale of the data, zero when all tapers agree, and a number for every accepted half-bandwidth.", "quantifier": "all transforms, concentrations and scales", "why_tests_cant": "Tests only check that the attribute is not None, which is also true for an array of nan.", "anchors": ["stingray/multitaper.py:554-622", "stingray/multitaper.py:334-341"]}
{"id": "C183", "title": "Frequencies and powers of a multitaper spectrum", "statement": "The transforms are those of the tapered data without its mean, so constants do not matter and the spectrum is quadratic; all positive frequencies below the Nyquist frequency are there; white noise has a flat spectrum with the power of the periodogram, 2 with Leahy normalization.", "quantifier": "all light curves, tapers, ensembles of white noise", "why_tests_cant": "Tests compare the two multitaper methods with each other, never with the level of the noise; all light curves have an even number of bins.", "anchors": ["stingray/multitaper.py:293-385", "stingray/multitaper.py:281-283", "stingray/multitaper.py:522-552"]}
{"id": "C184", "title": "Good time intervals and uneven data of a multitaper spectrum", "statement": "The data inside the good time intervals given are used; tapers interpolated at uneven times are normalized again.", "quantifier": "all light curves, intervals, tapers", "why_tests_cant": "No test gives good time intervals or checks the energy of the tapers.", "anchors": ["stingray/multitaper.py:239-247", "stingray/multitaper.py:759-768"]}
{"id": "C185", "title": "Parameters of the Gaussian process model", "statement": "The names listed for a kernel and a mean are distinct, also without the leading log_, and are all the likelihood needs; each argument arrives under its name, logarithms as exponentials; the order of the parameters does not matter; unknown kernels or means and missing arguments are refused.", "quantifier": "all kernel and mean names, arguments, times and counts", "why_tests_cant": "Tests try a few pairs of kernel and mean with the default order.", "anchors": ["stingray/modeling/gpmodeling.py:348-426", "stingray/modeling/gpmodeling.py:544-555"]}
{"id": "C186", "title": "Kernels are covariances", "statement": "The red noise kernel is arn exp(-crn |lag|), the QPO kernel aqpo exp(-cqpo |lag|) cos(2 pi freq lag), their combination the sum; each is positive semidefinite on every ordered list of times.", "quantifier": "all nonnegative amplitudes, decay rates, frequencies and ordered times", "why_tests_cant": "Positive semidefiniteness is a statement about all vectors and all sets of times.", "anchors": ["stingray/modeling/gpmodeling.py:43-90"]}
{"id": "C187", "title": "Flare shapes", "statement": "Each mean is the sum over the flares of its documented shape; with nonnegative amplitude Gaussian, exponential and skewed flares are between 0 and A with the maximum A at t0; skewed flares with equal widths are the symmetric ones; t0 is the location of the maximum of a FRED flare.", "quantifier": "all lists of flares, all times", "why_tests_cant": "Tests compare a few values with the same formula.", "anchors": ["stingray/modeling/gpmodeling.py:93-345"]}
{"id": "C188", "title": "Counts of a FITS light curve", "statement": "The first of the columns RATE, RATE1, COUNTS is read; a bin with a rate and enough exposure gets rate times width (for rates) divided by the exposed fraction, with its error treated the same way; all other bins get zero counts; the good time intervals are those of the file or, on an even grid, cover exactly the good bins.", "quantifier": "all tables, limits and widths", "why_tests_cant": "Tests read two sample files.", "anchors": ["stingray/io.py:430-473"]}
{"id": "C189", "title": "Times of a FITS light curve", "statement": "All times are moved by the same amount, found from TIMEZERO, TSTART and the last time; days in the header are converted to seconds after MJDREF; without TIMEDEL the median difference is the width; without MJDREF the light curve can still be read.", "quantifier": "all headers and times", "why_tests_cant": "Tests read two sample files whose headers are complete.", "anchors": ["stingray/io.py:300-427"]}
{"id": "C190", "title": "Good time intervals from the extensions of a FITS file", "statement": "The intervals of a file are the intersection of those of all extensions whose name matches one of the accepted names, alone or followed by a detector number; matching several patterns or the order of the extensions makes no difference; a separate file of intervals is read in the same way.", "quantifier": "all lists of extensions, patterns, detector numbers and regular expression matchers", "why_tests_cant": "Tests use two extensions.", "anchors": ["stingray/gti.py:103-291", "stingray/io.py:1031-1067"]}
{"id": "C191", "title": "Asymmetric least squares baseline", "statement": "Each turn of the fit gives the only curve that minimises the weighted sum of squares plus lambda times the sum of squared second differences, with weight p for points above the curve of the turn before, 1 - p for points below; the weighted residuals have no sum and no slope; stretching the data and adding a straight line does the same to the baseline; turning them upside down exchanges p and 1 - p; the fit is defined for all data.", "quantifier": "all data of two points or more, lambda > 0, 0 < p < 1, all numbers of turns", "why_tests_cant": "Tests check one curve within a tolerance.", "anchors": ["stingray/utils.py:1001-1053"]}
{"id": "C192", "title": "Baseline and offset", "statement": "The two curves returned by baseline_als add up to the data in every point; without the offset correction the baseline is the fitted curve; with it the baseline is moved by the constant for which the residuals within ten deviations (all of them if these are fewer than ten) have mean zero.", "quantifier": "all data, solvers and estimates of the deviation", "why_tests_cant": "Tests look at one sine curve.", "anchors": ["stingray/utils.py:980-998", "stingray/utils.py:1101-1165"]}
{"id": "C193", "title": "Baseline of a light curve", "statement": "The baseline is zero in bins outside the good time intervals and in each interval it is the baseline of the bins of that interval alone; a light curve with any intervals has a baseline.", "quantifier": "all light curves and good time intervals", "why_tests_cant": "Tests use one or two long intervals.", "anchors": ["stingray/lightcurve.py:776-815"]}
{"id": "C194", "title": "Calibrated likelihood ratio", "statement": "The likelihood ratio statistic of two models is twice the difference of their largest log-likelihoods and is never negative for nested models; the calibrated p-value is the fraction of the simulated data sets whose statistic, computed the same way as the observed one, is above it; simulations use parameter sets of the sample given.", "quantifier": "all models, data, samples and numbers of simulations, for every minimizer that returns minima", "why_tests_cant": "Tests check that a p-value exists or lies in a range for one simulated spectrum.", "anchors": ["stingray/modeling/parameterestimation.py:528-576", "stingray/modeling/parameterestimation.py:1424-1510", "stingray/modeling/parameterestimation.py:792-912"]}
{"id": "C195", "title": "Calibrated highest outlier", "statement": "The p-value of the highest outlier is the fraction of the simulated data sets whose highest outlier, after the same fit as that of the data, is above the observed one.", "quantifier": "all models, data, samples and numbers of simulations", "why_tests_cant": "Tests check one seed and one constant model.", "anchors": ["stingray/modeling/parameterestimation.py:1512-1648", "stingray/modeling/parameterestimation.py:1650-1727"]}
{"id": "C196", "title": "Covariance of a fit", "statement": "The errors of a fit are the roots of the diagonal of the covariance; a minimizer's inverse Hessian is used as it is; without one the covariance is the inverse of the Hessian of the function minimised, so that the variances are positive at a regular maximum.", "quantifier": "all dimensions and all negative definite Hessians", "why_tests_cant": "Tests fit with L-BFGS-B or BFGS, which give an inverse Hessian; the other branch is not checked for signs.", "anchors": ["stingray/modeling/parameterestimation.py:155-194"]}
{"id": "C197", "title": "Generalized Lorentzian", "statement": "The generalized Lorentzian has the given value at its centre and exactly half of it at half the given width on both sides, whatever its order; it is symmetric, positive and falls with the distance; its wings lie between half of and the whole power law value (half width / distance)^order; the function and the astropy model give the same numbers; orders that are not positive are refused.", "quantifier": "all centres, widths, values, orders and frequencies", "why_tests_cant": "Tests check that a light curve is simulated.", "anchors": ["stingray/simulator/models.py:6-39", "stingray/simulator/models.py:76-99"]}
{"id": "C198", "title": "Smooth broken power law", "statement": "The smooth broken power law behaves as norm x^-gamma_low at small and as norm b^(gamma_high - gamma_low) x^-gamma_high at large frequencies, its local slope is the mean of both indices with weights 1 and (x/b)^2 and lies between them; equal indices give a plain power law; the function and the astropy model give the same numbers.", "quantifier": "all norms, indices, break frequencies and positive frequencies", "why_tests_cant": "Tests check that a light curve is simulated; limits cannot be tested.", "anchors": ["stingray/simulator/models.py:44-73", "stingray/simulator/models.py:102-123"]}
{"id": "C199", "title": "Energy channels of a simulator", "statement": "Channel names stay distinct; a simulated channel can be read back and the others are untouched; deleting one or several channels removes exactly these and fails, changing nothing, when a name is missing or repeated; get_channels gives the light curves of the names asked for, one for each and in their order.", "quantifier": "all lists of channels and names", "why_tests_cant": "Tests use three channels in the order of their creation.", "anchors": ["stingray/simulator/simulator.py:173-253"]}
{"id": "C200", "title": "Fits of spectra with one call", "statement": "fit_powerspectrum minimises the negative log-likelihood, or with max_post and priors the negative log-posterior, from the starting guesses given, or from the parameters of the model if none are given; max_post without priors is an error.", "quantifier": "all models, data, starts, priors and minimizers", "why_tests_cant": "Tests fit one power law and a few Lorentzians from lists.", "anchors": ["stingray/modeling/scripts.py:11-129", "stingray/modeling/scripts.py:132-195", "stingray/modeling/parameterestimation.py:403-406"]}
{"id": "C201", "title": "Fits of several Lorentzians", "statement": "fit_lorentzians fits the sum of nlor Lorentzians and a constant; the parameters are amplitude, centre and width of each Lorentzian in turn and then the noise, with the documented names.", "quantifier": "all numbers of Lorentzians, parameters and frequencies", "why_tests_cant": "Tests use three Lorentzians with noise.", "anchors": ["stingray/modeling/scripts.py:198-318"]}
{"id": "C202", "title": "The GTI mask of a time series", "statement": "Reading mask gives the bins that are inside the good time intervals that the object has now, or all of them without intervals, whatever was done to the object before.", "quantifier": "all times, bin widths, intervals and sequences of operations", "why_tests_cant": "Tests read the mask once, or after new intervals were set.", "anchors": ["stingray/base.py:1212", "stingray/base.py:1231-1271", "stingray/base.py:1322-1340", "stingray/events.py:419-454"]}
{"id": "C203", "title": "Loading events and good time intervals", "statement": "load_events_and_gtis returns the events in the order of time, each with its own channel, energy, detector and additional columns, TIMEZERO added to events, limits and intervals alike; additional_data has the columns asked for; the ephemeris is the name without JPL-.", "quantifier": "all files, columns, orders of rows, missions and headers", "why_tests_cant": "Tests load a few files that are in order and have no TIMEZERO.", "anchors": ["stingray/io.py:489-724", "stingray/io.py:194-233", "stingray/utils.py:862-880"]}
{"id": "C204", "title": "The reader of event files", "statement": "FITSTimeseriesReader takes the mission from the first header that has it, the events from the extension asked for or else from the first one, and reads any file with a column of times; times and limits are shifted by TIMEZERO; intervals are those of the detectors of the slice.", "quantifier": "all files, headers, missions and slices", "why_tests_cant": "Tests read a few files with complete headers.", "anchors": ["stingray/io.py:809-890", "stingray/io.py:892-1029", "stingray/io.py:1031-1067"]}
{"id": "C205", "title": "The checks of the dead time model", "statement": "check_A draws what is left of the terms A of Zhang et al. over the square of the mean counts, and check_B returns their B up to max_k, for an incident and for the detected rate that belongs to it alike.", "quantifier": "all rates, dead times, bin times and orders", "why_tests_cant": "The tests look at the returned terms for a few rates, not at the drawn curve, whose limit is wrong for detected rates.", "anchors": ["stingray/deadtime/model.py:199-219", "stingray/deadtime/model.py:238-289", "stingray/deadtime/model.py:314-349", "stingray/deadtime/model.py:352-407"]}
{"id": "C206", "title": "rms_calculation", "statement": "rms_calculation gives the square root of the integral of the given powers above the noise, in fractional rms normalisation, over bins of width K / T, with the error from M powers averaged in each bin.", "quantifier": "all powers, noise levels, photon counts, lengths and rebinnings", "why_tests_cant": "Only one spectrum is tested, with one kind of K and M.", "anchors": ["stingray/fourier.py:1000-1080"]}
{"id": "C207", "title": "Objects as xarray datasets", "statement": "from_xarray gives back the object that to_xarray wrote: the main array, every array attribute and every meta attribute with the values and shapes they had.", "quantifier": "all classes, objects, names and shapes", "why_tests_cant": "Tests convert a few objects with columns of fixed names.", "anchors": ["stingray/base.py:447-472", "stingray/base.py:475-506"]}
{"id": "C208", "title": "Objects as pandas data frames", "statement": "from_pandas gives back the object that to_pandas wrote, arrays with more than one dimension included.", "quantifier": "all classes, objects, names and shapes", "why_tests_cant": "Tests use names without _dim and arrays with few columns.", "anchors": ["stingray/base.py:508-541", "stingray/base.py:543-585", "stingray/utils.py:242-361"]}
{"id": "C209", "title": "The check for unequal bins of a light curve", "statement": "check_lightcurve warns exactly when two neighbouring bins inside one good time interval are not dt apart (within the tolerances of numpy); it raises ValueError for invalid GTIs and always warns when dt is an array.", "quantifier": "all sorted times, bin times and GTIs", "why_tests_cant": "Tests use one light curve with a gap in the middle.", "anchors": ["stingray/lightcurve.py:529-558"]}
{"id": "C210", "title": "Negation of an object", "statement": "-obj changes the sign of every array attribute except the main one and those whose name ends with _err, leaves every other attribute as it is, and -(-obj) is obj.", "quantifier": "all classes and objects", "why_tests_cant": "Tests negate one object with two columns.", "anchors": ["stingray/base.py:337-342", "stingray/base.py:1023-1037"]}
{"id": "C211", "title": "Negation of a light curve", "statement": "-lc changes the sign of the counts and keeps everything else; -(-lc) is lc.", "quantifier": "all light curves that are not empty", "why_tests_cant": "Tests compare the counts only.", "anchors": ["stingray/lightcurve.py:689-716"]}
{"id": "C212", "title": "Warnings and reports on input", "statement": "error_on_averaged_cross_spectrum warns exactly when some number of averages is below 30; check_allclose_and_print raises exactly when two values are not close and reports the values that differ and their places.", "quantifier": "all numbers and arrays", "why_tests_cant": "Tests look only for the presence of a warning or exception.", "anchors": ["stingray/fourier.py:1131-1139", "stingray/utils.py:1502-1535"]}
{"id": "C213", "title": "Which inputs a cross spectrum accepts", "statement": "initial_checks accepts exactly valid norms and power types with two inputs of the same kind: event lists with a bin time, light curves whose bin times drift apart by at most a hundredth of a bin over the light curve, lists or tuples that start with light curves, generators; an averaged spectrum also needs a finite segment size, one that is not averaged a single GTI.  Two missing inputs give an empty object; everything else raises the documented exception.", "quantifier": "all pairs of inputs, norms, power types, bin times and segment sizes", "why_tests_cant": "Tests try a few wrong inputs; whether the tolerance on the bin times protects long light curves depends on numbers they do not use.", "anchors": ["stingray/crossspectrum.py:605-737", "stingray/crossspectrum.py:2048-2082"]}
{"id": "C214", "title": "Which inputs a dynamical cross spectrum accepts", "statement": "The matrix is computed exactly when both inputs and a segment size are given, events come with a sample time, the segment is at least two bins long and not longer than the light curves; otherwise the documented exception is raised or, with no argument at all, the object is empty.", "quantifier": "all inputs, segment sizes and sample times", "why_tests_cant": "Tests use pairs of equal light curves.", "anchors": ["stingray/crossspectrum.py:2243-2271"]}
{"id": "C215", "title": "Seeds give reproducible generators", "statement": "get_random_state(seed) gives a new generator started from the seed for every whole number 0 <= seed < 2^32, the given generator for a RandomState, the global one for None, and ValueError otherwise.", "quantifier": "all seeds", "why_tests_cant": "Tests use one seed.", "anchors": ["stingray/utils.py:949-972"]}
{"id": "C216", "title": "Orbital corrections from a table of delays", "statement": "The functions returned by get_orbital_correction_from_ephemeris_file subtract the delay of the ephemeris: exactly so at the times of the table, on the straight line between two neighbouring delays elsewhere (the first and last pieces are continued outside), and events keep their order whenever the corrected table grows.  A warning that lists the times outside the table is given exactly when there are such times.", "quantifier": "all delays, intervals, sizes of the table, event times and reference MJDs", "why_tests_cant": "The test has one ephemeris and compares a few times with a tolerance; it never looks at which times the warning lists.", "anchors": ["stingray/pulse/pulsar.py:915-963"]}
{"id": "C217", "title": "Which simulation a call asks for", "statement": "Simulator.simulate chooses the method from the number and kinds of the arguments and hands all of them over: a number is the index of a power law, an astropy model a model, a text with parameters a model by name, one other argument a power spectrum, two or three a light curve with an impulse response; anything else raises ValueError.  The frequencies used for models are the k/(n dt), k = 1 .. n/2, positive and not above Nyquist.", "quantifier": "all lists of arguments, numbers of bins, red-noise factors and bin times", "why_tests_cant": "Tests call each branch once with the usual types; other number types and argument lists are not tried.", "anchors": ["stingray/simulator/simulator.py:152-171", "stingray/simulator/simulator.py:455-500"]}
{"id": "C218", "title": "Round trip of light curves through astropy tables", "statement": "A light curve written with to_astropy_table or to_astropy_timeseries and read back has the same times, bin time, GTIs, reference MJD, instrument, mission, statistic, counts, count rates and errors, and reading leaves the table as it was.", "quantifier": "all light curves, in every state of their cached arrays, and all tables", "why_tests_cant": "Tests convert a freshly made light curve; what is read back depends on which cached properties were looked at before.", "anchors": ["stingray/lightcurve.py:1455-1568"]}
{"id": "C219", "title": "Light curves to and from lightkurve", "statement": "to_lightkurve gives the MJDs, counts and errors of the light curve; from_lightkurve keeps the absolute times and takes the flux for a count rate; going there and back gives the same light curve.", "quantifier": "all light curves and lightkurve objects", "why_tests_cant": "The tests use bins of one second, for which counts and rates are the same numbers.", "anchors": ["stingray/lightcurve.py:1383-1424"]}
{"id": "C220", "title": "Complex columns in text files", "statement": "A table with complex columns that is written to a text format and read back has the same columns with the same complex values; the real and imaginary parts are found by the names of the columns, in whatever order they come.", "quantifier": "all tables with named columns of real and complex numbers", "why_tests_cant": "The round-trip test has a single complex column, whose first value has an imaginary part; a cross spectrum has two complex arrays.", "anchors": ["stingray/base.py:588-721", "stingray/base.py:64-72"]}
{"id": "C221", "title": "Indexing of stingray objects", "statement": "For an object with n rows, obj[i] has the row i of every array (counted from the end if i is negative; IndexError out of range), and obj[a:b:s] has the rows that a[a:b:s] has in Python, for all bounds and steps, left out or given; meta data and hidden arrays come along.", "quantifier": "all objects, indices and slices", "why_tests_cant": "Negative indices and steps are an unbounded family that the tests do not enter.", "anchors": ["stingray/base.py:1049-1083"]}
{"id": "C222", "title": "Window and optimal filters of spectra", "statement": "The window filter is 1 within the full width at half maximum around the centroid of the first component and 0 elsewhere; the optimal filter is the first component over the sum of all, lies between 0 and 1 for components that are not negative, and is the weight with the least mean squared error.", "quantifier": "all centroids, widths, models and frequencies", "why_tests_cant": "Tests evaluate the filters for one fitted model on one grid.", "anchors": ["stingray/filters.py:39-78"]}
{"id": "C223", "title": "Meta data of tables", "statement": "Every meta attribute of an object goes to the meta dictionary of its table with its value; numpy numbers become Python numbers, and numbers and arrays of extended precision become doubles if that is asked for.", "quantifier": "all dictionaries of numbers, texts, lists and arrays", "why_tests_cant": "Whether a value is taken for a number depends on its printed form, for an unbounded family of values.", "anchors": ["stingray/base.py:379-391", "stingray/base.py:2879-2940"]}
{"id": "C224", "title": "Time series and astropy tables of times", "statement": "A time series written to an astropy TimeSeries and read back is the same, and a TimeSeries with absolute times is read with the same moments.", "quantifier": "all series and all tables with any number of rows and columns", "why_tests_cant": "Tests convert one filled series with a reference; empty series, absolute times and missing references are not tried.", "anchors": ["stingray/base.py:1428-1464", "stingray/base.py:1466-1505", "stingray/base.py:2843-2876"]}
{"id": "C225", "title": "Rebinning of multitaper spectra", "statement": "Rebinning a multitaper spectrum with the mean averages its powers (in each normalization) and its degrees of freedom over the new bins, by the length of the overlap with the old ones, and multiplies the number of averaged spectra by the number of old bins per new one.", "quantifier": "all spectra with any number of frequencies, all widths and factors", "why_tests_cant": "Tests rebin a few jackknifed spectra by whole factors; fractional widths and the other methods are not tried.", "anchors": ["stingray/multitaper.py:624-693", "stingray/multitaper.py:378-383", "stingray/multitaper.py:794", "stingray/utils.py:547-625"]}
{"id": "C226", "title": "Priors of Gaussian process models", "statement": "The prior draws one value for each parameter, in the order of the list and under its name, from the distribution given for it.", "quantifier": "all lists of parameters and all dictionaries of priors", "why_tests_cant": "Tests sample a few fixed models; the order and names for any list of parameters need an argument over all dictionaries.", "anchors": ["stingray/modeling/gpmodeling.py:429-497"]}
{"id": "C227", "title": "Times of dynamical cross spectra", "statement": "Each column of a dynamical cross spectrum is the cross spectrum of one segment, and the time at the same place is the middle of that segment.", "quantifier": "all numbers of segments and all fluxes of the two bands", "why_tests_cant": "Tests have photons in every segment of both bands; which segments are skipped depends on the data.", "anchors": ["stingray/crossspectrum.py:2273-2310", "stingray/fourier.py:2021-2023"]}
{"id": "C228", "title": "Truncation of series with bins of different widths", "statement": "When a time series whose dt is an array is truncated, the window of its new GTIs goes from the start of the first kept bin to the end of the last kept one.", "quantifier": "all times, widths, starts and stops", "why_tests_cant": "Tests truncate series with one width; the error shows only for widths that differ.", "anchors": ["stingray/base.py:1793-1810", "stingray/base.py:1243-1252"]}
