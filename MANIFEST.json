{
 "claims": [
  {
   "property": "C01",
   "status": "proved",
   "theorems": [
    "C01_stack_is_weighted_mean",
    "C01_stack_order_irrelevant",
    "C01_stack_base_irrelevant"
   ],
   "note": "Proved for every list of compatible records and every permutation (exact rational samples)."
  },
  {
   "property": "C02",
   "status": "proved",
   "theorems": [
    "C02_incompatible_stack_refused",
    "C02_incompatible_sensor_stack_refused",
    "C02_reachable_records_have_positive_stack_count"
   ],
   "note": "Proved for every operand, including objects that are no time series; sensors compare coordinates too."
  },
  {
   "property": "C03",
   "status": "proved",
   "theorems": [
    "C03_zero_pad_reaches_grid",
    "C03_zero_pad_error_cases"
   ],
   "note": "Proved for every record and every df with df*dt<2; the error cases are characterised."
  },
  {
   "property": "C04",
   "status": "proved",
   "theorems": [
    "C04_padding_history_appends_zeros",
    "C04_last_request_wins",
    "C04_zero_pad_idempotent"
   ],
   "note": "Proved for every padding history, failed calls included."
  },
  {
   "property": "C05",
   "status": "partial",
   "theorems": [
    "C05_failed_array_pad_keeps_data_partial",
    "C05_failed_array_pad_refuted",
    "C05_failed_zero_pad_refuted",
    "C05_failed_zero_pad_partial"
   ],
   "note": "Refuted for records and arrays: _multiple is reset before df is checked, so the reported frequency step changes when the call raises (for an array only that of the first sensor). Proved: nothing else changes."
  },
  {
   "property": "C06",
   "status": "proved",
   "theorems": [
    "C06_trim_keeps_interval",
    "C06_trim_refuses",
    "C06_failed_trim_changes_nothing"
   ],
   "note": "Proved for every record with dt>0."
  },
  {
   "property": "C07",
   "status": "partial",
   "theorems": [
    "C07_trim_moves_samples_refuted",
    "C07_trim_on_grid_partial",
    "C07_trim_label_error_partial"
   ],
   "note": "Refuted for start times off the sampling grid (delay is set to the requested start, not to the time of the kept sample). Proved: exact on the grid, error at most dt/2 otherwise."
  },
  {
   "property": "C08",
   "status": "partial",
   "theorems": [
    "C08_array_copy_partial",
    "C08_trimmed_array_copy_refuted",
    "C08_copy_after_trim_refuted",
    "C08_copy_after_pad_refuted",
    "C08_copy_partial"
   ],
   "note": "Refuted: copying after a trim with positive start raises ValueError; copying a padded record loses the frequency multiple. Proved for records and arrays: these are the only two failures."
  },
  {
   "property": "C09",
   "status": "proved",
   "theorems": [
    "C09_best_lag",
    "C09_dissimilar_refused"
   ],
   "note": "Proved over all lags."
  },
  {
   "property": "C10",
   "status": "proved",
   "theorems": [
    "C10_cross_stack_averages_aligned",
    "C10_cross_stack_refuses_otherwise"
   ],
   "note": "Proved, with the exact success condition."
  },
  {
   "property": "C11",
   "status": "partial",
   "theorems": [
    "C11_array_equality",
    "C11_equality_reflexive_partial",
    "C11_sensor_equality_reflexive_partial",
    "C11_equality_characterised_partial",
    "C11_equality_symmetric_refuted",
    "C11_equality_transitive_refuted"
   ],
   "note": "Refuted: == is neither symmetric nor transitive (allclose tolerance relative to the right operand). Proved: reflexivity and the exact meaning, also for arrays."
  },
  {
   "property": "C12",
   "status": "partial",
   "theorems": [
    "C12_seg2_source",
    "C12_source_fields",
    "C12_no_units",
    "C12_receiver_x_partial",
    "C12_receiver_y_partial",
    "C12_receiver_y_refuted",
    "C12_source_partial",
    "C12_segy_zero_scalar_refuted",
    "C12_other_scalars_partial",
    "C12_other_scalars_refuted",
    "C12_degrees_refused",
    "C12_receiver_any_scalar",
    "C12_source_any_scalar",
    "C12_segy_zero_scalar",
    "C12_exact"
   ],
   "note": "Proved for every standard scalar: receiver x, source x and y. Refuted: receiver y is read from the x field for non-negative scalars, a SEGY zero scalar raises OverflowError for the source, scalars that are no power of ten are rounded (error bound proved). For every scalar, a power of ten or not, C12_receiver_any_scalar and C12_source_any_scalar give the coordinates read: the multiple of the leading power of ten nearest to the value meant; C12_exact says when that is the value meant, and C12_segy_zero_scalar that a SEGY source with scalar 0 always raises OverflowError."
  },
  {
   "property": "C13",
   "status": "partial",
   "theorems": [
    "C13_writable",
    "C13_outcome",
    "C13_round_trip_partial",
    "C13_round_trip_error_partial",
    "C13_readable_partial",
    "C13_stack_count_refuted",
    "C13_elevation_refuted",
    "C13_trimmed_refuted",
    "C13_only_su"
   ],
   "note": "Proved exactly on the mm/ms/us grid for one stack, and half a unit otherwise, with the exact condition for reading back. Refuted: stack counts of two or more come back one too small, z is lost, trimmed arrays cannot be read."
  },
  {
   "property": "C14",
   "status": "proved",
   "theorems": [
    "C14_records_are_valid",
    "C14_seg2_defaults",
    "C14_su_defaults"
   ],
   "note": "Proved for every header; formats swprocess does not know raise NotImplementedError."
  },
  {
   "property": "C15",
   "status": "proved",
   "theorems": [
    "C15_array_construction",
    "C15_order_irrelevant",
    "C15_refusal"
   ],
   "note": "Proved for every list of sensors, with the exact success condition, the exception and independence of the given order."
  },
  {
   "property": "C16",
   "status": "partial",
   "theorems": [
    "C16_array_consistency_partial",
    "C16_frequency_step_partial",
    "C16_frequency_step_refuted"
   ],
   "note": "Proved for every history except that the frequency steps agree only when no zero_pad raised; refuted after a failed zero_pad."
  },
  {
   "property": "C17",
   "status": "partial",
   "theorems": [
    "C17_near_to_far_partial",
    "C17_source_at_last_receiver_refuted",
    "C17_order",
    "C17_at_last_receiver"
   ],
   "note": "Proved for sources at or before the first receiver or beyond the last; refuted for a source exactly at the last receiver. C17_order gives the order for every array and C17_at_last_receiver the far-to-near order with the source at the last receiver."
  },
  {
   "property": "C18",
   "status": "partial",
   "theorems": [
    "C18_trim_offsets_partial",
    "C18_only_removes_partial",
    "C18_source_right_refuted",
    "C18_inclusive_bounds_refuted",
    "C18_workflow_limits",
    "C18_workflow_unlimited",
    "C18_workflow_default",
    "C18_exact"
   ],
   "note": "Proved with exclusive bounds for sources left of the array; refuted: receivers exactly on a bound are dropped, and with the source on the right the loop stops at the first receiver. In the workflows the limits may be infinite: without a maximum, exactly the receivers beyond the minimum are kept, wherever the source is (C18_workflow_*). C18_exact gives the result for every consistent array and source position: a ValueError and no change if the first receiver is beyond the maximum, otherwise the receivers strictly between the bounds."
  },
  {
   "property": "C19",
   "status": "partial",
   "theorems": [
    "C19_first_file",
    "C19_next_file",
    "C19_mixed_formats",
    "C19_same_source",
    "C19_multi_file_mean_partial",
    "C19_consistent_partial",
    "C19_missing_trace_refuted",
    "C19_unequal_counts_refuted",
    "C19_trace_order_refuted",
    "C19_mean",
    "C19_consistent_iff",
    "C19_accepted"
   ],
   "note": "Proved when every file has as many traces as receivers. Refuted: missing traces and unequal stack counts are silently accepted; a different trace order is refused. C19_mean states the outcome without any hypothesis on the numbers of traces: receiver i is the weighted mean over exactly those files that have an i-th trace. C19_consistent_iff: the result is consistent exactly if all receivers were stacked equally often. C19_accepted: a further file of the right format and source is accepted exactly if each of its traces that has a receiver fits it, and the first that does not decides the exception."
  },
  {
   "property": "C20",
   "status": "partial",
   "theorems": [
    "C20_single_file_partial",
    "C20_second_file_refuted",
    "C20_read_options_refuted",
    "C20_seg2_source_refuted",
    "C20_several"
   ],
   "note": "Proved for one SU/SEGY file. Refuted: receivers of further files are not mapped, read options reach only the first file, the SEG2 source y is not mapped. C20_several states what several files must satisfy to be accepted: the unmapped places of further files must equal the mapped places of the first."
  },
  {
   "property": "C21",
   "status": "partial",
   "theorems": [
    "C21_mute_partial",
    "C21_mute_exact_partial",
    "C21_last_sample_refuted",
    "C21_positive_delay_refuted",
    "C21_vertical_line",
    "C21_outcome",
    "C21_before_record_refuted",
    "C21_effect"
   ],
   "note": "Proved for non-positive delay and windows inside the record; refuted: with only a start line the last sample is zeroed, and for records trimmed to a positive start the window is shifted the wrong way. C21_outcome decides for all slanted lines when muting succeeds and when it raises ValueError; refuted: with both lines before the record, samples at its end survive. C21_effect gives the samples after every successful call."
  },
  {
   "property": "C22",
   "status": "proved",
   "theorems": [
    "C22_matrix_plain",
    "C22_matrix_each",
    "C22_scaled_row_has_unit_maximum",
    "C22_matrix_all",
    "C22_no_samples"
   ],
   "note": "Proved for every array; silent rows become NaN. Records without samples are refused when scaling is requested."
  },
  {
   "property": "C23",
   "status": "partial",
   "theorems": [
    "C23_xcorrelate_partial",
    "C23_zero_divisor",
    "C23_first_lag_refuted",
    "C23_short_source_refuted",
    "C23_outcome"
   ],
   "note": "Proved: contiguous lags starting one sample after the intended lag; refuted: the off-by-one, and a negative slice start for short source signals."
  },
  {
   "property": "C24",
   "status": "proved",
   "theorems": [
    "C24_array_trim_atomic"
   ],
   "note": "Proved for every reachable array, with the exact success condition."
  },
  {
   "property": "C25",
   "status": "proved",
   "theorems": [
    "C25_frequencies",
    "C25_selection",
    "C25_errors"
   ],
   "note": "Stated for EmptyWavefieldTransform.from_array and for the selection shared by all transforms; the frequencies are exactly grid points lo, lo+multiple, ... up to hi, where lo and hi are the first nearest points."
  },
  {
   "property": "C26",
   "status": "partial",
   "theorems": [
    "C26_history",
    "C26_refused_history",
    "C26_last_partial",
    "C26_refused_partial",
    "C26_no_velocities",
    "C26_silent_refuted",
    "C26_refused_call_refuted"
   ],
   "note": "Partial: proved for sequences of valid names when every divisor asked for is positive; refuted for silent frequencies (0/0 persists) and for refused names after a division (the in-place product at line 100 stays). C26_history gives the exact image after any sequence of accepted normalisations, silent frequencies included: a frequency is lost (NaN) from the first call that divides it by its zero maximum, and an overall division then loses all of them. C26_refused_history gives the exact effect of a refused name after a division: the undivided magnitudes are shown, and all later normalisations are those of the image multiplied by the maxima last divided by."
  },
  {
   "property": "C27",
   "status": "partial",
   "theorems": [
    "C27_first_greatest",
    "C27_unaffected",
    "C27_other_refused",
    "C27_no_velocities",
    "C27_complex_refuted"
   ],
   "note": "Proved for real power; refuted for the complex power stored by the slant-stack transform, which numpy orders by real part."
  },
  {
   "property": "C28",
   "status": "partial",
   "theorems": [
    "C28_image",
    "C28_looked_at_refuted",
    "C28_mean",
    "C28_fresh",
    "C28_order",
    "C28_refused",
    "C28_broadcast",
    "C28_axes_refuted",
    "C28_unused_refuted"
   ],
   "note": "Proved for counts > 0, any initial content, any order; refuted when an empty transform (n=0) is stacked onto an empty one. Shapes are not compared: numpy broadcasting is modelled, incompatible shapes are refused without a change, and an axis of length one is repeated, so an image can get more rows or columns than velocities or frequencies (refuted). C28_image: an empty transform stacked and then normalised shows the magnitudes of the mean; refuted when it is normalised or plotted between two stacks (C28_looked_at_refuted: the stale maxima are multiplied onto the new stack)."
  },
  {
   "property": "C29",
   "status": "proved",
   "theorems": [
    "C29_travelling",
    "C29_slant_stack",
    "C29_array",
    "C29_zero_velocity",
    "C29_nothing"
   ],
   "note": "Slanted sums for every array and velocity list, and what a travelling wave gives at its own velocity."
  },
  {
   "property": "C30",
   "status": "proved",
   "theorems": [
    "C30_power",
    "C30_amplitudes",
    "C30_travelling",
    "C30_no_sensors"
   ],
   "note": "Whole-array theorem over the reals: shape, frequency selection, 0 <= power <= distance between outermost sensors, equality for plane waves (and for any travelling wavelet), NaN when a spectrum vanishes, invariance under per-trace positive gains. Rounding is not modelled; the discrete Fourier transform is defined by its sum."
  },
  {
   "property": "C31",
   "status": "proved",
   "theorems": [
    "C31_matrix",
    "C31_cells",
    "C31_power",
    "C31_zero"
   ],
   "note": "Any number of channels and blocks; all weightings and steerings (the Hankel phase is an arbitrary function). With 'invamp' and a vanishing spectrum the entry is not a number."
  },
  {
   "property": "C32",
   "status": "proved",
   "theorems": [
    "C32_peak",
    "C32_travelling"
   ],
   "note": "Plane steering, every weighting; plane-wave spectra at the frequency, or a wavelet travelling along the array."
  },
  {
   "property": "C33",
   "status": "partial",
   "theorems": [
    "C33_values_partial",
    "C33_unpadded_partial",
    "C33_unequal",
    "C33_padded_refuted",
    "C33_pad_without_step"
   ],
   "note": "Partial: the value of bin i is reported at multiple*i*df, so it is right for multiple=1 and refuted for a padded pair with multiple 2."
  },
  {
   "property": "C34",
   "status": "proved",
   "theorems": [
    "C34_object",
    "C34_linear",
    "C34_logarithmic",
    "C34_edge",
    "C34_unknown"
   ],
   "note": "Linear spacing; np.geomspace is an abstract argument. Logarithmic spacing is exactly np.geomspace's answer, whose contract (ends and constant ratio) is a hypothesis."
  },
  {
   "property": "C35",
   "status": "proved",
   "theorems": [
    "C35_limits",
    "C35_unknown_attribute"
   ],
   "note": "Proved for every object, attribute and limits; limits themselves are kept and missing values never violate a limit. A missing attribute is an AttributeError that changes nothing."
  },
  {
   "property": "C36",
   "status": "proved",
   "theorems": [
    "C36_box",
    "C36_corner_order"
   ],
   "note": "Proved for every object and box, with the corners in any order; points on an edge stay valid."
  },
  {
   "property": "C37",
   "status": "proved",
   "theorems": [
    "C37_history",
    "C37_order_and_repetition",
    "C37_irreversible"
   ],
   "note": "Proved for every history: the final mask depends only on the set of applicable rejections, not on order or repetition, and never grows back."
  },
  {
   "property": "C38",
   "status": "proved",
   "theorems": [
    "C38_aligned",
    "C38_physics",
    "C38_after_history",
    "C38_constructor"
   ],
   "note": "Proved for every constructed object and every history."
  },
  {
   "property": "C39",
   "status": "proved",
   "theorems": [
    "C39_multi",
    "C39_single"
   ],
   "note": "Proved for single- and multi-pick objects: exactly the strongest valid pick of each frequency, the first one on ties."
  },
  {
   "property": "C40",
   "status": "proved",
   "theorems": [
    "C40_round_trip"
   ],
   "note": "Proved for every object and prior file content. An array with no rows is read back one-dimensional (still empty)."
  },
  {
   "property": "C41",
   "status": "partial",
   "theorems": [
    "C41_append_outcome",
    "C41_append_ok",
    "C41_append_duplicate",
    "C41_append_failure",
    "C41_crash_refuted"
   ],
   "note": "Refuted for crashes: dumping truncates the file first. Proved: append keeps the other entries, duplicates raise and leave the file alone."
  },
  {
   "property": "C42",
   "status": "proved",
   "theorems": [
    "C42_round_trip",
    "C42_prefixes"
   ],
   "note": "Proved for every suite and prior content; interruptions between members leave exactly the first members."
  },
  {
   "property": "C43",
   "status": "partial",
   "theorems": [
    "C43_suite_equality",
    "C43_suite_length",
    "C43_compared",
    "C43_equal_data_partial",
    "C43_rejection_counts_refuted",
    "C43_count_refuted",
    "C43_reflexive_partial",
    "C43_reflexive_refuted",
    "C43_symmetric_refuted",
    "C43_suites"
   ],
   "note": "Refuted: == ignores rejections that keep equal values, compares only the common count after masking, is not symmetric and not reflexive with missing values. Proved: exactly what comparison of peaks (C43_compared) and of suites (C43_suites) decides, that it never raises, and reflexivity without missing values."
  },
  {
   "property": "C44",
   "status": "partial",
   "theorems": [
    "C44_empty",
    "C44_history",
    "C44_append_duplicate",
    "C44_append_new",
    "C44_from_peaks",
    "C44_merge",
    "C44_rename_refuted"
   ],
   "note": "Proved for every history of constructions, appends, merges and rejections. Refuted when the identifier of a member is assigned afterwards."
  },
  {
   "property": "C45",
   "status": "proved",
   "theorems": [
    "C45_failures",
    "C45_trimming",
    "C45_axes"
   ],
   "note": "Proved for every sequence of gestures and answers, including sessions that wait or raise. C45_failures lists all reasons for which a session can raise."
  },
  {
   "property": "C46",
   "status": "partial",
   "theorems": [
    "C46_correlation",
    "C46_statistics_partial",
    "C46_too_few",
    "C46_nothing_observed_refuted",
    "C46_long_refuted",
    "C46_outcome",
    "C46_errors"
   ],
   "note": "Proved up to one hundred sampling points if any value is observed. Refuted beyond: a row may be dropped after the points were counted; and with no observed value at all every point is reported without a mean. C46_correlation holds for all data: means, deviations and correlation in terms of the rows and points that remain. The correlation matrix itself (np.corrcoef) is a parameter. C46_outcome gives the exact result of the call for any number of points and C46_errors the ways it fails."
  },
  {
   "property": "C47",
   "status": "proved",
   "theorems": [
    "C47_choice",
    "C47_dense",
    "C47_aligned"
   ],
   "note": "Sub-matrix with aligned labels (aligned); exactly which rows and columns go, by an independent description of the two orders and of the gain that decides between them (choice); all rows or all columns are dense afterwards (dense)."
  },
  {
   "property": "C48",
   "status": "proved",
   "theorems": [
    "C48_not_a_number",
    "C48_infinite_velocity",
    "C48_infinite_wavelength",
    "C48_with_infinities",
    "C48_resampling",
    "C48_errors"
   ],
   "note": "Proved for every suite with finite values and distinct x; missing values and attributes raise. NaN as a sampling point gives NaN. Infinite velocities and wavelengths: stated for two peaks (C48_infinite_velocity, C48_infinite_wavelength). With finite x and infinite y the whole resampling is described (C48_with_infinities), including opposite infinities, which give NaN."
  },
  {
   "property": "C49",
   "status": "proved",
   "theorems": [
    "C49_lines",
    "C49_unsupported"
   ],
   "note": "Proved for every supported combination with nonzero limits and frequencies; all others raise NotImplementedError."
  },
  {
   "property": "C50",
   "status": "partial",
   "theorems": [
    "C50_zero_slowness",
    "C50_too_many",
    "C50_small_letters",
    "C50_document_partial",
    "C50_document_first_partial",
    "C50_numbers",
    "C50_not_numbers",
    "C50_nmaxima",
    "C50_file_partial",
    "C50_first_window_partial",
    "C50_fixed_width",
    "C50_refuted",
    "C50_wildcard_refuted",
    "C50_exponent_refuted",
    "C50_invalid_line_refuted"
   ],
   "note": "Whole-file and first-window theorems for files whose times and frequencies, used as regular expressions, match nothing else; equal-width decimals are shown to satisfy this. C50_document_partial states this for headers and lines as Geopsy writes them, with no reference to the reader's patterns; it needs that no header line looks like a data line (true of every .max file in the repository). Refuted in general: a time that ends another time, '.' as a wildcard, signed exponents, and lines marked invalid. Files that cannot be read: a slowness of zero anywhere is a ZeroDivisionError (C50_zero_slowness), more peaks than announced an IndexError (C50_too_many)."
  },
  {
   "property": "C51",
   "status": "partial",
   "theorems": [
    "C51_announced",
    "C51_unannounced",
    "C51_vertical_refuted",
    "C51_names",
    "C51_each_file_partial",
    "C51_refuted",
    "C51_unknown",
    "C51_unknown_value",
    "C51_version"
   ],
   "note": "Each file is read as it would be alone unless 'rayleigh' was requested and an earlier file was detected as vertical; refuted in that case. Which wave type a file announces is characterised (C51_announced); a header holding 'inf', or a first line whose noise is not a number, hides it, so vertical peaks of such a file are not found as 'rayleigh' (C51_vertical_refuted). Unknown wave types and Geopsy versions are refused."
  },
  {
   "property": "C52",
   "status": "partial",
   "theorems": [
    "C52_dict_partial",
    "C52_dict_refuted",
    "C52_merge_partial",
    "C52_append_partial",
    "C52_sharing_refuted",
    "C52_reject_shared",
    "C52_reject_stops",
    "C52_apart",
    "C52_dict_outcome"
   ],
   "note": "Refuted twice: from_dict removes the mask from the caller's dict, and merged suites share their members with the originals. Proved: a dict without a mask is unchanged, merging and appending change no other suite. Exact outcome: a rejection in a suite changes its members wherever they are held and nothing else (C52_reject_shared), stops at the first refusing member (C52_reject_stops), never reaches a suite without common members (C52_apart); the dictionary loses exactly its mask and a second object built from it has the same curves (C52_dict_outcome)."
  },
  {
   "property": "C53",
   "status": "proved",
   "theorems": [
    "C53_sort"
   ],
   "note": "Proved for every rectangular matrix; rows without values get position = number of entries, hence come last."
  },
  {
   "property": "C54",
   "status": "partial",
   "theorems": [
    "C54_growth",
    "C54_regions_partial",
    "C54_sorted_regions_partial",
    "C54_errors",
    "C54_complete",
    "C54_density",
    "C54_density_refuted",
    "C54_returns_refuted",
    "C54_many_refuted"
   ],
   "note": "Growth terminates, regions inside, each column in exactly one region, maximal, dense when the first cell is observed (guaranteed after sorting if the first column has a value). Refuted: not always dense (first cell missing), not always returning (IndexError; ValueError beyond 100 regions)."
  },
  {
   "property": "C55",
   "status": "partial",
   "theorems": [
    "C55_fill",
    "C55_replacement",
    "C55_replacement_error",
    "C55_replacement_hopeless",
    "C55_replacement_returns",
    "C55_complete",
    "C55_default",
    "C55_given",
    "C55_lonely_refuted"
   ],
   "note": "Proved; the generator is an arbitrary function of the draw number, mean and deviation. The replacement loop of from_data_matrix is characterised too: what it keeps, draws, accepts and rejects. Omitted means and deviations are those of the observed values of the column; a column with fewer than two observed values then has no deviation and its missing values stay missing (refuted)."
  },
  {
   "property": "C56",
   "status": "partial",
   "theorems": [
    "C56_outcome_refuted",
    "C56_filled",
    "C56_errors",
    "C56_overwrites_refuted"
   ],
   "note": "Refuted for every matrix with a missing entry when all locations have finite logarithms: the outcome is exactly ValueError; otherwise the input is returned. For arbitrary locations the outcome is characterised column by column, and an observed correlation can be overwritten."
  },
  {
   "property": "C57",
   "status": "partial",
   "theorems": [
    "C57_constructor_refuted",
    "C57_suite_refuted",
    "C57_data_matrix_refuted",
    "C57_block_refuted",
    "C57_constructor_error_refuted",
    "C57_suite_error_refuted"
   ],
   "note": "Refuted: every constructor path ends in an exception, for all inputs."
  },
  {
   "property": "C58",
   "status": "partial",
   "theorems": [
    "C58_time_domain",
    "C58_single",
    "C58_never_processed",
    "C58_xcorr_never_processed",
    "C58_frequency_partial",
    "C58_xcorr_partial",
    "C58_frequency_refuted",
    "C58_xcorr_refuted"
   ],
   "note": "Time-domain and single workflows refuse with ValueError for every settings dict; frequency-domain and cross-correlation workflows never return when the source is inside, but the exception may be another one because example array trimming / initial trim come before the check (refuted with witnesses)."
  },
  {
   "property": "C59",
   "status": "proved",
   "theorems": [
    "C59_time_domain",
    "C59_single",
    "C59_order"
   ],
   "note": "Complete equation for the time-domain workflow over all arguments of create_settings_dict; settings dicts not produced by create_settings_dict are covered by the model but not by this theorem."
  },
  {
   "property": "C60",
   "status": "partial",
   "theorems": [
    "C60_refuted"
   ],
   "note": "Refuted for every input: window_kwargs is stored under 'window_kwargs' and read as 'window kwargs', so it never has an effect."
  },
  {
   "property": "C61",
   "status": "partial",
   "theorems": [
    "C61_mean_partial",
    "C61_refuses",
    "C61_refuted",
    "C61_str_refuted"
   ],
   "note": "Mean proved when the records of all files agree in time step, delay, length; refuted otherwise (different time steps are accepted) and for a single name given as str."
  },
  {
   "property": "C62",
   "status": "proved",
   "theorems": [
    "C62_last_registered",
    "C62_unique",
    "C62_instances"
   ],
   "note": "All histories of registrations over both registries."
  },
  {
   "property": "C63",
   "status": "partial",
   "theorems": [
    "C63_unchanged_partial",
    "C63_repeated_partial",
    "C63_fk_refuted",
    "C63_refuted"
   ],
   "note": "Unchanged for every transform but fk; refuted for fk with the exact settings left behind."
  },
  {
   "property": "C64",
   "status": "proved",
   "theorems": [
    "C64_settings"
   ],
   "note": "All 27 arguments."
  },
  {
   "property": "C65",
   "status": "proved",
   "theorems": [
    "C65_points",
    "C65_returns"
   ],
   "note": "All theorems quantify over arbitrary sessions (clicks and confirmations) of the user."
  },
  {
   "property": "C66",
   "status": "partial",
   "theorems": [
    "C66_unreadable",
    "C66_minutes",
    "C66_reads_partial",
    "C66_once",
    "C66_refuses",
    "C66_same_hour",
    "C66_table",
    "C66_last_hour_refuted"
   ],
   "note": "Tables of any length; obspy is an arbitrary record of read, add, merge, trim, fill and write functions. Partial only because a block that ends in the last hour of the year 9999 overflows (C66_last_hour_refuted). C66_unreadable and C66_minutes state where a run stops at an unreadable file and at impossible minutes or seconds."
  },
  {
   "property": "C67",
   "status": "proved",
   "theorems": [
    "C67_one_step",
    "C67_prior",
    "C67_information",
    "C67_minimiser",
    "C67_fixed_point",
    "C67_singular"
   ],
   "note": "Exact arithmetic over an arbitrary ordered field, all dimensions; includes the unique-minimiser and fixed-point characterisations and the LinAlgError case."
  },
  {
   "property": "C68",
   "status": "proved",
   "theorems": [
    "C68_information",
    "C68_symmetric",
    "C68_below",
    "C68_singular"
   ],
   "note": "Exact arithmetic over an arbitrary ordered field, all dimensions; includes existence for positive definite inputs, positive definiteness and shrinking variances."
  },
  {
   "property": "C69",
   "status": "proved",
   "theorems": [
    "C69_detrend_removes_line",
    "C69_detrend_lines_vanish",
    "C69_detrend_idempotent",
    "C69_detrend_linear",
    "C69_detrend_least_squares"
   ],
   "note": "Proved for every record: zero sum, zero trend, lines vanish, idempotent, linear, least squares."
  },
  {
   "property": "C70",
   "status": "partial",
   "theorems": [
    "C70_mute_keeps_metadata_partial",
    "C70_failed_mute_refuted",
    "C70_stops"
   ],
   "note": "Refuted: sensors processed before the failing one stay muted. Proved: metadata, positions and source are never changed. C70_stops is exact: the sensors before the first one whose window cannot be placed are muted, the others are not."
  },
  {
   "property": "C71",
   "status": "proved",
   "theorems": [
    "C71_spacing",
    "C71_refused"
   ],
   "note": "Proved with the exact refusal condition."
  },
  {
   "property": "C72",
   "status": "proved",
   "theorems": [
    "C72_first_arrival_picks",
    "C72_one_trace"
   ],
   "note": "Proved for every array and threshold; per trace the pick is characterised exactly, including the failure."
  },
  {
   "property": "C73",
   "status": "partial",
   "theorems": [
    "C73_heard",
    "C73_refused",
    "C73_first_file",
    "C73_source_signal_mean_partial",
    "C73_time_step_refuted",
    "C73_outcome",
    "C73_unreadable",
    "C73_floats",
    "C73_integers_refuted"
   ],
   "note": "Proved for records of equal length; refuted: files with different time steps are averaged; refuted: if the first source file has integer samples (many SEG-2 files) the mean is refused with a TypeError. C73_outcome and C73_unreadable are exact for every list of files."
  },
  {
   "property": "C74",
   "status": "partial",
   "theorems": [
    "C74_fk",
    "C74_missing",
    "C74_settings_refuted"
   ],
   "note": "The transform used is right, but the caller's settings are overwritten (refuted part)."
  },
  {
   "property": "C75",
   "status": "partial",
   "theorems": [
    "C75_xcorr_refuted",
    "C75_workflows"
   ],
   "note": "Masw.run with the registered name time-domain-xcorr always raises TypeError; all other names behave as documented."
  },
  {
   "property": "C76",
   "status": "partial",
   "theorems": [
    "C76_refuted"
   ],
   "note": "Refuted for every input: the reported ratio is that of the first file."
  },
  {
   "property": "C77",
   "status": "partial",
   "theorems": [
    "C77_refuted"
   ],
   "note": "Refuted for every input: a positive trim begin together with a signal-to-noise ratio never returns."
  },
  {
   "property": "C78",
   "status": "partial",
   "theorems": [
    "C78_lines",
    "C78_picks",
    "C78_stop_refuted"
   ],
   "note": "Partial: a key pressed within 0.3 s after the first point ends the picking with IndexError although the user was not asked (C78_stop_refuted)."
  },
  {
   "property": "C79",
   "status": "partial",
   "theorems": [
    "C79_outcome",
    "C79_blocks_partial",
    "C79_names",
    "C79_last_wins",
    "C79_refuted"
   ],
   "note": "Partial: blocks that share folder, array and station overwrite each other (C79_refuted, C79_last_wins). C79_outcome is exact for every table of proper blocks and every way a run can end: the last extracted block of a name remains."
  },
  {
   "property": "C80",
   "status": "proved",
   "theorems": [
    "C80_spectrum",
    "C80_errors",
    "C80_no_sensors"
   ],
   "note": "The transform's values are Fourier sums of the slanted sums at the reported frequencies; errors of the slant stack propagate."
  },
  {
   "property": "C81",
   "status": "partial",
   "theorems": [
    "C81_waterfall",
    "C81_any_normalisation",
    "C81_within_half_spacing",
    "C81_axes",
    "C81_unknown_axis",
    "C81_single_sensor_refuted",
    "C81_single_trace"
   ],
   "note": "Curves, axes and refusals of the waterfall plot. Refuted for an array of one sensor (IndexError after drawing)."
  },
  {
   "property": "C82",
   "status": "proved",
   "theorems": [
    "C82_points",
    "C82_same_as_properties",
    "C82_errors",
    "C82_axes",
    "C82_mask_overrides"
   ],
   "note": "Points, keywords, label, axis titles and every refusal of Peaks.plot; the drawn points agree with the object's own properties; a mask overrides earlier rejections."
  },
  {
   "property": "C83",
   "status": "partial",
   "theorems": [
    "C83_new_axes",
    "C83_given_axes",
    "C83_legend",
    "C83_early_errors",
    "C83_scalar_keyword_refuted",
    "C83_first_label_refuted",
    "C83_label_lost_refuted",
    "C83_number_label_refuted",
    "C83_partial_drawing_refuted"
   ],
   "note": "Each member drawn once per axes in order with its own points, mask and keywords, on new and on given axes; the legend of new axes; refusals before drawing are atomic. Refuted: scalar non-str keywords, unique labels on given axes, atomicity of later failures."
  },
  {
   "property": "C84",
   "status": "partial",
   "theorems": [
    "C84_picture",
    "C84_again",
    "C84_nearfield",
    "C84_refusals",
    "C84_late_refusals",
    "C84_single",
    "C84_silent_refuted",
    "C84_changes_object_refuted",
    "C84_stack_refuted",
    "C84_snr"
   ],
   "note": "For every history of normalisations: the picture drawn, its levels, the peaks, the near-field line and the refusals. Refuted: that plotting leaves the object (and a later stack) alone; that every power can be plotted. Real power arrays; matplotlib's argument checks are recalled contracts."
  },
  {
   "property": "C85",
   "status": "proved",
   "theorems": [
    "C85_kres",
    "C85_few",
    "C85_distinct",
    "C85_alias",
    "C85_power_repeats"
   ],
   "note": "kres is pi over the smallest receiver gap; distinct wavenumbers below it are distinguishable; aliasing above it repeats the beamforming power."
  },
  {
   "property": "C86",
   "status": "partial",
   "theorems": [
    "C86_picks",
    "C86_orientation",
    "C86_own_axes_refuted",
    "C86_plot_errors",
    "C86_automatic_algorithms"
   ],
   "note": "Picks are independent of the axis orientation and end only by the user's keys. Refuted when the user passes axes (TypeError)."
  },
  {
   "property": "C87",
   "status": "partial",
   "theorems": [
    "C87_time_domain",
    "C87_single",
    "C87_frequency_domain",
    "C87_ratio_unannounced",
    "C87_xcorr",
    "C87_xcorr_partial",
    "C87_xcorr_order_refuted",
    "C87_title_partial",
    "C87_title_refuted"
   ],
   "note": "The text printed for a workflow is split into lines and each line read as a step; the runs of the single, time-domain and frequency-domain workflows without signal-to-noise ratio are proved equal to performing the announced steps in the printed order (the signal-to-noise steps are the only unannounced ones). Partial: the cross-correlation workflow is fully characterised (C87_xcorr), but correlates after trim and mute although it announces the opposite, and its title is that of the time-domain workflow."
  },
  {
   "property": "C88",
   "status": "proved",
   "theorems": [
    "C88_schematic"
   ],
   "note": "The schematic's points and text, with the exact condition for a stated spacing."
  },
  {
   "property": "C89",
   "status": "partial",
   "theorems": [
    "C89_linear",
    "C89_lines",
    "C89_style",
    "C89_unsupported",
    "C89_origin_refuted",
    "C89_scale_refuted"
   ],
   "note": "PeaksSuite.plot_resolution_limits: lines drawn, labels, styles and the warning, for every view, limits and keyword arguments. Not proved as a whole because it fails where the x-axis begins at zero (first point at infinity, C89_origin_refuted) and on axes with another scale (KeyError instead of the announced warning, C89_scale_refuted). np.geomspace is a parameter."
  },
  {
   "property": "C90",
   "status": "partial",
   "theorems": [
    "C90_numbered",
    "C90_ratios",
    "C90_components",
    "C90_time_refuted",
    "C90_rings"
   ],
   "note": "swprocess.regex.get_spac_ratio and get_spac_ring. Not proved as a whole because a time asked for also matches the ends of longer times (C90_time_refuted): C90_ratios assumes that no other time of the file ends in something that looks like it. Time and ring as the caller gives them are a plain number and digits. C90_numbered: in every match the groups are numbered in the order of the columns."
  },
  {
   "property": "C91",
   "status": "partial",
   "theorems": [
    "C91_dataset",
    "C91_file",
    "C91_no_document",
    "C91_incomplete",
    "C91_computed",
    "C91_any",
    "C91_flat",
    "C91_lists_refuted",
    "C91_reserved",
    "C91_suite",
    "C91_suite_refused"
   ],
   "note": "Peaks.from_dict and Peaks.from_json for every JSON document of lists and tables: accepted exactly when the first dataset holds peaks, with the data it holds; the exceptions of the other documents. C91_any: for trees of any depth, single values and texts that stand for numbers, accepted exactly when the trees are regular and the names admissible, with those arrays (without saying which exception refuses the others); C91_flat: on lists and tables the two models agree. C91_lists_refuted: single numbers, deeper lists and texts are accepted."
  },
  {
   "property": "C92",
   "status": "partial",
   "theorems": [
    "C92_accepted_refuted",
    "C92_frequencies",
    "C92_others",
    "C92_rejection",
    "C92_box",
    "C92_single_refuted",
    "C92_wavelength_refuted",
    "C92_broadcast_refuted",
    "C92_unfit"
   ],
   "note": "Refuted: the constructor accepts them. Reading raises IndexError in every case; rejecting by limits or by a box of such an array raises and changes nothing, with the exact exception for limits. Refuted where numpy repeats a single value: one azimuth (or other quantity) given for many peaks decides the second side of a box for all of them, and one frequency gives every velocity a wavelength to be rejected by, although neither can be read. For tables the same holds for every shape that numpy stretches to the table of velocities (C92_broadcast_refuted); every other shape is refused with ValueError (C92_unfit)."
  },
  {
   "property": "C93",
   "status": "proved",
   "theorems": [
    "C93_coordinate",
    "C93_multiplied",
    "C93_stable",
    "C93_half_millimetre"
   ],
   "note": "In double precision (Flocq's FLT format, round to nearest even): no overflow is modelled, the magnitudes of the theorems exclude it. Uses the axioms of Coq's real numbers."
  },
  {
   "property": "C94",
   "status": "proved",
   "theorems": [
    "C94_one_record",
    "C94_history"
   ],
   "note": "In double precision; complements the exact statement of C01. Magnitudes are bounded by M and up to 2^40 records are appended."
  },
  {
   "property": "C95",
   "status": "proved",
   "theorems": [
    "C95_equal",
    "C95_accepted",
    "C95_refused",
    "C95_found"
   ],
   "note": "In double precision; complements the exact statements on spacing. Positions within 1000 km."
  },
  {
   "property": "C96",
   "status": "partial",
   "theorems": [
    "C96_own_format",
    "C96_given_format",
    "C96_unknown_format",
    "C96_no_own_format_refuted",
    "C96_arguments",
    "C96_bad_arguments",
    "C96_series",
    "C96_series_no_header",
    "C96_spelling"
   ],
   "note": "Sensor1C.from_trace with every argument and the trace readers of ActiveTimeSeries. Refuted: for a trace without a format of its own the format argument is lost in the inner call, and reading always fails (C96_no_own_format_refuted). Everything else is proved, including all errors. C96_spelling says which spellings of a format are recognised."
  },
  {
   "property": "C97",
   "status": "proved",
   "theorems": [
    "C97_count",
    "C97_refused",
    "C97_step",
    "C97_requested"
   ],
   "note": "Zero padding with every operation rounded to double precision (Flocq). The number of samples is exact; the frequency step is within eight rounding errors. Hypotheses: 1/(df dt) within 1/4 of a whole number up to 2^40; sampling interval between 1 ns and 100 s for the step."
  },
  {
   "property": "C98",
   "status": "proved",
   "theorems": [
    "C98_nearest",
    "C98_reported",
    "C98_times",
    "C98_midway"
   ],
   "note": "Which samples trimming keeps, in double precision: times within 0.49 of a sampling interval of a sample pick that sample. Hypotheses: interval at least 1 ns, at most 2^38 samples, delay of at most 2^38 intervals. C98_midway shows that 0.49 cannot be replaced by 0.5."
  },
  {
   "property": "C99",
   "status": "partial",
   "theorems": [
    "C99_inside_partial",
    "C99_one_beyond",
    "C99_refuted",
    "C99_weights",
    "C99_amplitude"
   ],
   "note": "The slant stack with every operation rounded to double precision. Refuted: 14 m of moveout at 140 m/s and 1 ms is exactly 100 samples; line 469 computes 99 and line 477 computes 100, so the sample after the last one is read and numpy raises IndexError, whatever the record length. Proved: this needs a largest moveout within nine rounding errors of a whole number of samples, and never more than one sample too many is read; the interpolation weights stay between 0 and 1 and each amplitude is the exact interpolation up to rounding. Not covered: the sum over receivers."
  },
  {
   "property": "C100",
   "status": "proved",
   "theorems": [
    "C100_axis",
    "C100_spacing",
    "C100_equal"
   ],
   "note": "np.linspace in double precision, as implemented by numpy. Hypotheses: at most 2^31 entries, range of at least 0.001. Logarithmic spacing is not covered."
  },
  {
   "property": "C101",
   "status": "proved",
   "theorems": [
    "C101_nearest",
    "C101_kept",
    "C101_frequency"
   ],
   "note": "Hypotheses: at most 2^38 samples, sampling interval from 1 ns to 100 s, records of at most 10^8 s. The limits must be within 0.48 of the internal step of a multiple of the frequency step."
  },
  {
   "property": "C102",
   "status": "proved",
   "theorems": [
    "C102_wavelength",
    "C102_slowness",
    "C102_wavenumber"
   ],
   "note": "One rounding for slowness and wavelength: no peak is lost by rounding. For the wavenumber an error bound only."
  },
  {
   "property": "C103",
   "status": "proved",
   "theorems": [
    "C103_succeeds",
    "C103_drawn",
    "C103_errors",
    "C103_statistics"
   ],
   "note": "Errors of matplotlib's errorbar are modelled for the shapes, negative bars and repeated arguments; other options are taken to be accepted. That statistics() can always be plotted assumes only that a square root is not negative."
  },
  {
   "property": "C104",
   "status": "proved",
   "theorems": [
    "C104_time_domain",
    "C104_same",
    "C104_same_workflow",
    "C104_created",
    "C104_needs",
    "C104_missing",
    "C104_wrong_type",
    "C104_unknown_transform",
    "C104_fk_settings",
    "C104_transforms"
   ],
   "note": "Settings are nested dictionaries of None, bool, int, float, str and dict; a value of another kind where a number is needed counts as a TypeError. The frequency-domain and cross-correlation workflows are covered by the statement that settings asking for the same give the same outcome; which entries a successful run needs is stated for the time-domain workflow and settings whose numbers, except the offset limits, are finite."
  },
  {
   "property": "C105",
   "status": "partial",
   "theorems": [
    "C105_values",
    "C105_sensor",
    "C105_files",
    "C105_silent_partial",
    "C105_silent_y_refuted",
    "C105_padding",
    "C105_padding_refused"
   ],
   "note": "Warnings of reading files and of padding as an output next to the result (WarnModel); results proved equal to those of HeaderModel. C105_files gives the warnings of every accepted call; those given before a refused call fails are modelled but stated only for a single trace (C105_sensor). Partial: C105_silent_partial leaves out y, which C105_silent_y_refuted shows can be wrong without a warning."
  },
  {
   "property": "C106",
   "status": "partial",
   "theorems": [
    "C106_peaks_partial",
    "C106_ones",
    "C106_column_maximum",
    "C106_maximum",
    "C106_error",
    "C106_peaks_refuted"
   ],
   "note": "Double precision. Sequences of the names none and frequency-maximum never move a peak, keep the greatest power of every frequency exactly, and give 1 exactly where the greatest power was. For every sequence the greatest power of the image is kept exactly and in place, and every other power changes by at most four rounding errors per call. Refuted in full: absolute-maximum can make two powers of one frequency equal, after which the other velocity is reported. Assumes no overflow and that the greatest power of each frequency is at least 2^-1000 (2^-400 for the statements on every sequence)."
  },
  {
   "property": "C107",
   "status": "partial",
   "theorems": [
    "C107_mean",
    "C107_std",
    "C107_between_partial",
    "C107_equal_partial",
    "C107_refuted"
   ],
   "note": "Double precision. The mean and the standard deviation of the values present are exact up to two and five rounding errors per curve, in whatever order the entries are added, for up to 2^30 curves without overflow. Refuted in full: three curves with the velocity 0.1 have a mean above 0.1 and a standard deviation above zero; both stay within rounding."
  },
  {
   "property": "C108",
   "status": "partial",
   "theorems": [
    "C108_inside",
    "C108_trim_partial",
    "C108_trim_refuted",
    "C108_center",
    "C108_kres"
   ],
   "note": "Double precision. No rounding lets a receiver outside the limits stay; the receivers kept are exactly those of the exact calculation when no limit is within one rounding error of an offset (refuted otherwise: a receiver just inside a limit can be removed). The centre distance and the resolution limit are exact up to a few rounding errors. No overflow; up to 2^30 receivers."
  },
  {
   "property": "C109",
   "status": "partial",
   "theorems": [
    "C109_each",
    "C109_all",
    "C109_plain",
    "C109_shape",
    "C109_order_partial",
    "C109_twice",
    "C109_units",
    "C109_order_refuted"
   ],
   "note": "Double precision, for any detrending function (numpy's is not modelled here). Samples of greatest size, and no others, become exactly +1 or -1, signs are kept, every value has one rounding error, a second normalisation and an exact change of units change nothing. The order is never reversed (different samples may become equal: refuted). Traces of zeros (0/0) are excluded; no overflow."
  },
  {
   "property": "C110",
   "status": "proved",
   "theorems": [
    "C110_near",
    "C110_increasing"
   ],
   "note": "Double precision, for every log10 and power of 10 with at most four rounding errors (those of the C library are not modelled). Velocities between 1e-6 and 1e6 m/s, limits at least 1 % apart, at most 2^31 of them."
  },
  {
   "property": "C111",
   "status": "partial",
   "theorems": [
    "C111_index_partial",
    "C111_runs",
    "C111_silent",
    "C111_smaller",
    "C111_kept",
    "C111_index_refuted"
   ],
   "note": "Double precision, for lines up to 1 s/m steep and 100 km away, times and delays up to 1000 s, dt of at least a microsecond, any window of doubles in [0,1]. Samples more than a thousandth of a sample outside the lines are exactly zero, the others keep their sign and do not grow. Refuted: at 0.3 s with dt = 0.1 s the mute starts at sample 2, not 3."
  },
  {
   "property": "C112",
   "status": "partial",
   "theorems": [
    "C112_lag",
    "C112_error",
    "C112_aligned_partial",
    "C112_aligned_refuted"
   ],
   "note": "Double precision. For any method with errors of at most E the best lag is found if it is better by more than 2E; for the direct method, in any order of additions, E is about 1.1 n rounding errors of the sum of magnitudes. The shift itself is exact. Refuted without margin: two products are rounded to the same number and the first is chosen. Up to 2^30 samples; no overflow."
  },
  {
   "property": "C113",
   "status": "proved",
   "theorems": [
    "C113_power",
    "C113_bound",
    "C113_peak"
   ],
   "note": "Double precision: the rounded exponent, exp through any cos and sin with two rounding errors, the complex product and quotient, the trapezoidal rule with the sum in any order and the magnitude. The bound on the error is proportional to the length of the array, to the largest phase and to the number of receivers; the peak is found if it is ahead by more than twice the bound. The spectra of the receivers (numpy's FFT) enter as given doubles with magnitude between 2^-400 and 2^400; no overflow."
  },
  {
   "property": "C114",
   "status": "partial",
   "theorems": [
    "C114_bounds_partial",
    "C114_order",
    "C114_wider",
    "C114_bounds_refuted"
   ],
   "note": "Double precision. The bounds of the kept window of lags are at most one sample away from the exact ones and equal to them unless a time is within a thousandth of a sample of a sample; the window is never inverted, reaches lag zero, and is monotone in velocities and offsets. Refuted in general: 1 m at 50 m/s with 1 ms is computed as sample 20 although the exact quotient of the doubles is below 20. Offsets up to 10 km, velocities from 1 m/s, sampling intervals from 1e-7 s to 1 s."
  },
  {
   "property": "C115",
   "status": "partial",
   "theorems": [
    "C115_pick_partial",
    "C115_fails",
    "C115_arrival",
    "C115_pick_refuted"
   ],
   "note": "Double precision: normalisation, mean of the first ten samples (additions in any order), difference and comparison. The pick is right up to a band of 15 rounding errors about the threshold and fails only if no sample is above the band. Refuted without the band: a quotient is rounded to the threshold. Detrending is any function; no overflow."
  },
  {
   "property": "C116",
   "status": "partial",
   "theorems": [
    "C116_points",
    "C116_outside",
    "C116_error",
    "C116_between_partial",
    "C116_between_refuted"
   ],
   "note": "Double precision: numpy's interp, to which scipy's interp1d leads for doubles, with every operation rounded (no fused multiply-add). Values at the points are exact, values outside are NaN, between two points the error is at most six rounding errors of the step and two of the larger value, and exact between equal values. That the value lies between its neighbours is refuted (1.9, 0.5), (6.6, 3.5) just before 6.6; it holds up to that error. Points are taken sorted, as interp1d leaves them, with distinct places."
  },
  {
   "property": "C117",
   "status": "partial",
   "theorems": [
    "C117_finite_partial",
    "C117_mean_partial",
    "C117_finite_refuted",
    "C117_bad_sample",
    "C117_nan",
    "C117_order"
   ],
   "note": "IEEE binary64 as it is (Flocq's BinarySingleNaN): infinities, one NaN, signed zeros, overflow. Without overflow the stack is the one of C94, so that its error bound carries over; the hypothesis is that the number of stacks times the greatest sample is in range. Refuted without it: stacking the greatest double with itself gives infinity. A bad sample is never averaged away."
  },
  {
   "property": "C118",
   "status": "partial",
   "theorems": [
    "C118_each",
    "C118_all",
    "C118_plain",
    "C118_shape",
    "C118_others",
    "C118_others_refuted"
   ],
   "note": "IEEE binary64 as it is: what each normalisation makes of a NaN, of an infinity, of a trace of zeros, and of a usual trace, for every matrix. That a bad trace leaves the others alone holds for each and is refuted for all. detrend is any function."
  },
  {
   "property": "C119",
   "status": "proved",
   "theorems": [
    "C119_value"
   ],
   "note": "Double precision, without overflow: the distances, the interpolated amplitudes of C99, the halves, products and sums of the trapezoidal rule are all rounded; the additions of np.sum are in any order (a tree). The bound is the length of the line times the error of one amplitude plus (5 + 3 n) rounding errors of the greatest amplitude; for 100 receivers on 100 m, unit samples and moveouts of 1000 samples it is below 1e-9 (C119_digits)."
  },
  {
   "property": "C120",
   "status": "partial",
   "theorems": [
    "C120_finite_partial",
    "C120_back_partial",
    "C120_unknown",
    "C120_finite_refuted"
   ],
   "note": "IEEE binary64 as it is: for images of finite powers whose columns all reach 2^-400 and that do not exceed 2^400, every sequence of normalisations gives finite powers, equal to those of FloatNormModel.v (so that C106 holds without its assumption of no overflow), with the same peaks. Refuted for other finite images: normalising by the greatest of all and then by frequency makes a weak frequency NaN."
  },
  {
   "property": "C121",
   "status": "proved",
   "theorems": [
    "C121_power",
    "C121_bound",
    "C121_peak"
   ],
   "note": "FloatBeamProps.v: in doubles the power of the frequency-domain beamformer with plane steering is the squared absolute value of the steered sum of the weighted spectra up to (25 T + 9 n + 41) 2^-53 of the power of waves in phase, for n receivers, phases up to T and any order of the sums; the same holds for the absolute value shown, and the imaginary part is of that size; a peak that stands out by twice the error is found. Without overflow; the spectra enter as given doubles; BLAS without fused multiply-add."
  },
  {
   "property": "C122",
   "status": "partial",
   "theorems": [
    "C122_equality_partial",
    "C122_equality_refuted",
    "C122_copy_partial",
    "C122_copy_refuted",
    "C122_source",
    "C122_files",
    "C122_xcorrelate"
   ],
   "note": "SourceObjProps.v. Refuted: arrays whose sources emitted different signals compare equal although cross-correlating them gives different arrays; a copy of any array has no source signal, so that cross-correlating it raises AttributeError. Proved: the exact meaning of equality, what copies keep, reading of arrays with a source signal, and which signal and velocities the cross-correlation uses."
  },
  {
   "property": "C123",
   "status": "partial",
   "theorems": [
    "C123_samples",
    "C123_overflow",
    "C123_exact",
    "C123_order",
    "C123_step",
    "C123_any_step",
    "C123_equal_partial",
    "C123_equal_refuted",
    "C123_again"
   ],
   "note": "FloatFileProps.v. Proved: samples come back within single precision and close in the sense of allclose (infinite from 2^128-2^103 on), single-precision samples exactly, in the same order; time steps of whole microseconds up to 65535 are written as such and come back within six rounding errors, others within 0.51 microseconds; a second round trip changes nothing. Refuted: obspy keeps the sampling rate, so that 0.00024 s comes back as a neighbouring double, and the record read is not equal to the one written, because time steps are compared exactly."
  },
  {
   "property": "C124",
   "status": "partial",
   "theorems": [
    "C124_orderly",
    "C124_method",
    "C124_shared",
    "C124_replaced",
    "C124_construct",
    "C124_copy",
    "C124_apart",
    "C124_sensor",
    "C124_new_sensor",
    "C124_ragged_matrix",
    "C124_ragged_mute",
    "C124_careful",
    "C124_matrix",
    "C124_isolation_refuted"
   ],
   "note": "Proved for every program over sensors and arrays as objects: an array refers to the sensors it is made of; its methods act on these objects; distinct, existing, position-ordered sensors in every history; copies and cross-correlated arrays have their own sensors; arrays apart never affect each other under any interleaving; careful programs keep all arrays consistent. Refuted: isolation of arrays made of the same sensor (cutting one spoils the other). Assumes sigpropy stores a fresh copy of the samples. Working on a sensor directly does what its method says and nothing else (C124_sensor); made and copied sensors are new (C124_new_sensor); records of different lengths give the matrix and the mute of C124_ragged_matrix and C124_ragged_mute."
  },
  {
   "property": "C125",
   "status": "proved",
   "theorems": [
    "C125_one_file",
    "C125_again"
   ],
   "note": "Proved for every environment, every settings made by create_settings_dict, every file and number of repetitions, for transforms that report finite power on the grid of the empty transform and refuse arrays for which that grid is refused (standard, needs_axes)."
  },
  {
   "property": "C126",
   "status": "proved",
   "theorems": [
    "C126_order",
    "C126_image",
    "C126_muting_matters"
   ],
   "note": "Proved for every environment, every list of files with alike records and every order of them, for transforms that report finite power on the grid of the empty transform (standard). C126_order also carries success over, without a signal-to-noise ratio; C126_image covers runs with one when both orders complete. C126_muting_matters exhibits a run with muting whose image changes with the order."
  },
  {
   "property": "C127",
   "status": "proved",
   "theorems": [
    "C127_files",
    "C127_source",
    "C127_first_matters",
    "C127_time_domain",
    "C127_xcorr"
   ],
   "note": "Proved for every reader, every first file and every permutation of the further files, in exact arithmetic, with success as part of the statement; C127_time_domain and C127_xcorr carry it to the workflows. C127_first_matters shows that the first file may not be exchanged."
  },
  {
   "property": "C128",
   "status": "proved",
   "theorems": [
    "C128_observed",
    "C128_operations",
    "C128_constructor",
    "C128_first_breaks",
    "C128_snr",
    "C128_map_x",
    "C128_registry",
    "C128_masw",
    "C128_frequency_domain",
    "C128_time_domain",
    "C128_xcorr"
   ],
   "note": "Proved in exact arithmetic for every displacement, exceptions included. The workflows are compared under map_x with the displacement added (C128_masw for one file, C128_frequency_domain for any list), or for any surroundings whose loaded records are moved (C128_time_domain, C128_xcorr). Several stacked files under a moved map_x are not covered because from_files does not apply map_x to the further files (see C20). The transforms must not look at absolute positions; the model's slant stack and empty grid are shown not to, phaseshift and fdbf enter as functions with that hypothesis."
  },
  {
   "property": "C129",
   "status": "partial",
   "theorems": [
    "C129_geometry",
    "C129_flipped",
    "C129_slant_stack",
    "C129_image",
    "C129_other_images",
    "C129_constructor",
    "C129_map_x",
    "C129_operations",
    "C129_trim_offsets_refuted"
   ],
   "note": "Proved in exact arithmetic. A source off either end gives the transforms the very same records and offsets; otherwise the slant stack may change its sign, not its magnitudes (C129_image). Refuted for trim_offsets, which stops at the first receiver that is too far (C129_trim_offsets_refuted). Phase-shift and beamforming images are identical for a source off either end (C129_other_images); for a source between the receivers only the slant stack is covered."
  },
  {
   "property": "C130",
   "status": "proved",
   "theorems": [
    "C130_operations",
    "C130_normalised",
    "C130_arrivals",
    "C130_snr",
    "C130_slant_stack",
    "C130_image",
    "C130_phase_shift",
    "C130_beamforming",
    "C130_peaks",
    "C130_normalised_image"
   ],
   "note": "Proved in exact arithmetic for one gain applied to every record. The signal-to-noise theorem takes any magnitude spectrum that grows with the gain. For phase shift each channel may even have its own gain (C30_amplitudes)."
  },
  {
   "property": "C131",
   "status": "partial",
   "theorems": [
    "C131_geometry",
    "C131_constructor",
    "C131_operations",
    "C131_slant_stack",
    "C131_image",
    "C131_phase_shift",
    "C131_beamforming",
    "C131_peaks",
    "C131_spacing_refuted"
   ],
   "note": "Proved in exact arithmetic for every positive factor, except for spacing, which compares with and rounds to 0.01 of whatever unit is used (C131_spacing_refuted)."
  },
  {
   "property": "C132",
   "status": "partial",
   "theorems": [
    "C132_operations",
    "C132_constructor",
    "C132_arrivals",
    "C132_snr",
    "C132_slant_stack",
    "C132_phase_shift",
    "C132_beamforming",
    "C132_xcorrelate_refuted"
   ],
   "note": "Proved in exact arithmetic for every positive factor, except for correlation with the source signal, which starts 0.5 early in whatever unit of time is used (C132_xcorrelate_refuted)."
  },
  {
   "property": "C133",
   "status": "proved",
   "theorems": [
    "C133_detrend",
    "C133_operations",
    "C133_xcorrelate",
    "C133_slant_stack",
    "C133_image"
   ],
   "note": "Proved in exact arithmetic for detrending, trimming, zero padding, muting, correlation with the source signal, slant stacks and the slant-stack image. Phase-shift and beamforming images divide by amplitudes and are not covered."
  }
 ]
}