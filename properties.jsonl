{"id": "C01", "title": "Stacking records is the stack-count-weighted mean", "statement": "Stacking any sequence of compatible records onto a record yields, sample by sample, the mean of all the records weighted by their stack counts, and a stack count equal to the sum of all stack counts; the result does not depend on the order in which the records are appended, and dt, delay and length are unchanged.", "quantifier": "every starting record, every finite sequence of compatible records of any length, every permutation of that sequence", "why_tests_cant": "The tests stack two or three short records once; the claim is about every number of appends, every order and every mix of stack counts.", "anchors": ["swprocess/activetimeseries.py:ActiveTimeSeries.stack_append", "swprocess/activetimeseries.py:ActiveTimeSeries._is_similar"]}
{"id": "C02", "title": "An incompatible stack is refused and changes nothing", "statement": "stack_append raises ValueError exactly when time step, delay or number of samples differ (and, for sensors, when a coordinate differs), and then the record that was being stacked onto is left exactly as it was; otherwise it succeeds.", "quantifier": "every pair of records or sensors", "why_tests_cant": "Tests try a few mismatches and check only that an exception is raised, not that nothing changed nor that nothing else is refused.", "anchors": ["swprocess/activetimeseries.py:ActiveTimeSeries.stack_append", "swprocess/activetimeseries.py:ActiveTimeSeries._is_similar", "swprocess/sensor1c.py:Sensor1C._is_similar"]}
{"id": "C03", "title": "Zero padding delivers the requested frequency step", "statement": "After zero_pad(df) with df>0 and 1/(df*dt) rounding to a positive integer N, the number of samples is exactly `multiple` times N, the user-facing frequency step equals 1/(N*dt) (exactly df whenever 1/(df*dt) is an integer), and the padding is the least that achieves a whole number of blocks of N samples.", "quantifier": "every record with dt>0, every df", "why_tests_cant": "The tests check a handful of lengths; the arithmetic has four branches (longer, shorter-divisible, shorter-not-divisible, equal) and rounding.", "anchors": ["swprocess/activetimeseries.py:ActiveTimeSeries.zero_pad", "swprocess/activetimeseries.py:ActiveTimeSeries.df", "swprocess/activetimeseries.py:ActiveTimeSeries.multiple"]}
{"id": "C04", "title": "Zero padding only appends zeros, for every padding history", "statement": "After any sequence of successful zero_pad calls the amplitude is the original amplitude followed only by zeros; time step, delay and stack count are unchanged; the final frequency step is the one asked for by the last call whatever came before; repeating the last call changes nothing.", "quantifier": "every record, every finite sequence of requested frequency steps", "why_tests_cant": "Tests pad a fresh record once; interactions between successive paddings are never sampled.", "anchors": ["swprocess/activetimeseries.py:ActiveTimeSeries.zero_pad"]}
{"id": "C05", "title": "A failed zero_pad leaves the data as it was", "statement": "When zero_pad raises (non-positive df, or df so coarse that no sample count exists) the record, and for an array every sensor, is exactly as before the call.", "quantifier": "every record and array, every df, every prior padding history", "why_tests_cant": "Tests only assert that ValueError is raised; the state after the exception is never inspected.", "anchors": ["swprocess/activetimeseries.py:ActiveTimeSeries.zero_pad", "swprocess/array1d.py:Array1D.zero_pad"]}
{"id": "C06", "title": "Trimming keeps exactly the samples of the requested interval", "statement": "trim(start,end) raises IndexError exactly when the interval is reversed or not inside the record's time span, and then nothing changes; otherwise the retained amplitudes are a contiguous block of the original ones, running from the sample nearest to start to the sample nearest to end (both included), and dt and stack count are unchanged.", "quantifier": "every record with dt>0 (any delay), every start and end", "why_tests_cant": "Tests use a few round numbers that fall exactly on samples.", "anchors": ["swprocess/activetimeseries.py:ActiveTimeSeries.trim", "swprocess/activetimeseries.py:ActiveTimeSeries.time", "swprocess/array1d.py:Array1D.trim"]}
{"id": "C07", "title": "Trimming does not move samples in time", "statement": "After a successful trim every retained sample is reported at the same time as before the trim, and the time vector of the result starts at the time of its first sample.", "quantifier": "every record, every admissible interval, including intervals whose start is not on the sampling grid", "why_tests_cant": "Tests only use start times on the sampling grid.", "anchors": ["swprocess/activetimeseries.py:ActiveTimeSeries.trim", "swprocess/activetimeseries.py:ActiveTimeSeries.time"]}
{"id": "C08", "title": "Every record the API can produce can be copied faithfully", "statement": "Deep-copying a record or an array obtained by any sequence of public operations succeeds and yields an object that is equal and reports the same frequency step, delay, stack count, positions and samples.", "quantifier": "every record/array and every history of trim, zero_pad and stack operations", "why_tests_cant": "The tests copy only freshly built objects; the workflow copies arrays that have already been trimmed.", "anchors": ["swprocess/activetimeseries.py:ActiveTimeSeries.from_activetimeseries", "swprocess/sensor1c.py:Sensor1C.from_sensor1c", "swprocess/array1d.py:Array1D.from_array1d", "swprocess/maswworkflows.py:AbstractMaswWorkflow.select_signal"]}
{"id": "C09", "title": "Cross-correlation alignment finds the best lag", "statement": "For two compatible records of equal length, crosscorr_shift returns a lag strictly smaller than the record length and the second record shifted by that lag with zeros in the vacated samples and unchanged length; no other whole-sample lag gives a larger inner product with the first record, and among equally good lags the most negative is chosen.", "quantifier": "every pair of non-empty records of equal length", "why_tests_cant": "Tests check three hand-made spikes; optimality over all lags is a universally quantified statement.", "anchors": ["swprocess/activetimeseries.py:ActiveTimeSeries.crosscorr", "swprocess/activetimeseries.py:ActiveTimeSeries.crosscorr_shift"]}
{"id": "C10", "title": "Cross-stacking averages the aligned record, or refuses", "statement": "from_cross_stack(a,b) succeeds exactly when a and b have the same time step, delay and length (and a non-positive delay); the result is the weighted mean of a and the aligned b with the stack counts added, and neither a nor b is modified.", "quantifier": "every pair of records", "why_tests_cant": "Only one successful and no failing case is tested.", "anchors": ["swprocess/activetimeseries.py:ActiveTimeSeries.from_cross_stack"]}
{"id": "C11", "title": "Record equality behaves like an equality", "statement": "Comparing records (and sensors, sources, arrays) with == is reflexive, symmetric, and implies equal metadata; a record is never equal to one with a different length, time step, delay or stack count.", "quantifier": "all pairs of objects", "why_tests_cant": "Tests compare identical or grossly different objects, never objects that differ by about the tolerance.", "anchors": ["swprocess/activetimeseries.py:ActiveTimeSeries.__eq__", "swprocess/sensor1c.py:Sensor1C.__eq__", "swprocess/source.py:Source.__eq__", "swprocess/array1d.py:Array1D.__eq__"]}
{"id": "C12", "title": "Header coordinates are decoded with their scalar", "statement": "A receiver or source coordinate read from a SU or SEGY header with integer value i and scalar s is i*s when s is positive, i/|s| when s is negative and i when s is zero - for x and for y, for receivers and for sources, for every admissible scalar.", "quantifier": "every integer coordinate pair and every scalar", "why_tests_cant": "Only one file with one scalar is read in the tests, and its y coordinates are zero.", "anchors": ["swprocess/sensor1c.py:Sensor1C._from_trace_su", "swprocess/sensor1c.py:Sensor1C._from_trace_segy", "swprocess/array1d.py:Array1D.from_files"]}
{"id": "C13", "title": "Writing to SU and reading back returns the same array", "statement": "For an array whose coordinates are whole millimetres and whose delay is a whole number of milliseconds, from_files(to_file(array)) gives back the same sensors (positions, delay, stack count, samples) in the same order and the same source; for other coordinates the error is at most half a millimetre.", "quantifier": "every valid array (any number of sensors, any stack count, any position)", "why_tests_cant": "One array with stack count 1 and y=z=0 is round-tripped.", "anchors": ["swprocess/array1d.py:Array1D.to_file", "swprocess/array1d.py:Array1D.from_files", "swprocess/sensor1c.py:Sensor1C._from_trace_su"]}
{"id": "C14", "title": "Reading headers never yields an invalid record", "statement": "Whatever the header contains (missing or unparsable fields included), reading a trace either raises ValueError or gives a record with a stack count of at least one and a non-positive delay; missing fields take their documented defaults.", "quantifier": "every header, every subset of missing fields", "why_tests_cant": "Tests read well-formed files only.", "anchors": ["swprocess/sensor1c.py:Sensor1C.from_trace", "swprocess/sensor1c.py:Sensor1C._safely_get_header", "swprocess/sensor1c.py:Sensor1C._from_trace_seg2", "swprocess/sensor1c.py:Sensor1C._from_trace_su", "swprocess/sensor1c.py:Sensor1C._from_trace_segy", "swprocess/activetimeseries.py:ActiveTimeSeries._check_input"]}
{"id": "C15", "title": "An array holds its sensors sorted, distinct and similar", "statement": "Building an array succeeds exactly when there is at least one sensor, all sensors agree in time step, stack count, delay and length and no two share an x position; the array then contains exactly the given sensors, in strictly increasing x order, whatever order they were given in.", "quantifier": "every list of sensors, every permutation of it", "why_tests_cant": "Tests try a few hand-made lists of two or three sensors.", "anchors": ["swprocess/array1d.py:Array1D._check_array", "swprocess/array1d.py:Array1D.__init__", "swprocess/array1d.py:Array1D.position"]}
{"id": "C16", "title": "Array consistency survives every sequence of operations", "statement": "After any sequence of trim, trim_offsets, zero_pad, mute and detrend calls, successful or failed, an array still has strictly increasing positions, its sensors still agree in time step, stack count, delay, length and frequency step, and its source is unchanged.", "quantifier": "every valid array, every finite sequence of operations with arbitrary arguments, including calls that raise", "why_tests_cant": "Sequences of operations, and states after exceptions, are not explored by the tests.", "anchors": ["swprocess/array1d.py:Array1D.trim", "swprocess/array1d.py:Array1D.trim_offsets", "swprocess/array1d.py:Array1D.zero_pad", "swprocess/array1d.py:Array1D.mute", "swprocess/maswworkflows.py:AbstractMaswWorkflow.detrend"]}
{"id": "C17", "title": "Transforms see receivers ordered from near to far", "statement": "For every array whose source is not inside the array, the time-series matrix and the offsets handed to the wavefield transforms are ordered from the nearest to the farthest receiver, row k of the matrix being the record of the receiver at offset k.", "quantifier": "every array, every source position outside the array (including on the first or last receiver)", "why_tests_cant": "Tests use one source position on each side, never a source exactly on a receiver.", "anchors": ["swprocess/array1d.py:Array1D._flipped_tseries_and_offsets", "swprocess/array1d.py:Array1D._flip_required", "swprocess/array1d.py:Array1D._source_inside", "swprocess/array1d.py:Array1D.offsets"]}
{"id": "C18", "title": "Offset trimming keeps exactly the receivers in range", "statement": "trim_offsets(min,max) keeps exactly the receivers whose distance to the source lies in [min,max], in order and with their data untouched; if there is none it raises ValueError and the array is unchanged.", "quantifier": "every array, every source position, every pair of bounds", "why_tests_cant": "Tests use a source on the left of the array and bounds that no receiver hits exactly.", "anchors": ["swprocess/array1d.py:Array1D.trim_offsets", "swprocess/array1d.py:Array1D.offsets"]}
{"id": "C19", "title": "Multi-file arrays average matching receivers", "statement": "When from_files with several files succeeds, every receiver's record is the stack-count-weighted mean of the traces recorded at that same position in all the files, and every receiver has the same stack count.", "quantifier": "every list of files, every number and order of traces in each", "why_tests_cant": "The tests stack four consistent files and look at one receiver.", "anchors": ["swprocess/array1d.py:Array1D.from_files", "swprocess/activetimeseries.py:ActiveTimeSeries.stack_append"]}
{"id": "C20", "title": "Coordinate maps and read options apply to every file", "statement": "Reading the same consistent set of files with coordinate maps map_x, map_y gives the array obtained without maps with every receiver and source coordinate mapped, however many files are stacked.", "quantifier": "every coordinate map, every list of files", "why_tests_cant": "No test passes a coordinate map together with more than one file.", "anchors": ["swprocess/array1d.py:Array1D.from_files"]}
{"id": "C21", "title": "Muting silences everything outside the signal window", "statement": "After mute every sample lying at least one time step before the start line, or at or after the end line, is zero, no sample inside the window grows in magnitude, with a rectangular window samples inside are unchanged, and when only one line is given the other side of the record is not muted.", "quantifier": "every array, every pair of lines whose window lies inside the record, every taper", "why_tests_cant": "One array of ones with one pair of lines is tested.", "anchors": ["swprocess/array1d.py:Array1D.mute"]}
{"id": "C22", "title": "Waveform normalisation is bounded and read-only", "statement": "timeseriesmatrix returns one row per sensor in order; without normalisation the rows are the recorded samples, with 'each' every non-silent row has largest magnitude exactly one, with 'all' the largest magnitude of the whole matrix is exactly one and relative amplitudes between sensors are preserved; the array is not modified.", "quantifier": "every array and normalisation mode", "why_tests_cant": "Tests use integers and one array.", "anchors": ["swprocess/array1d.py:Array1D.timeseriesmatrix"]}
{"id": "C23", "title": "Cross-correlated records start at the intended lag", "statement": "xcorrelate replaces each record by its correlation with the source signal restricted to lags from (min offset/vmax - 0.5 s) to (max offset/vmin), in order.", "quantifier": "every source and receiver record length, every offset and velocity range", "why_tests_cant": "Not tested at all; slice indices become negative for short source signals.", "anchors": ["swprocess/array1d.py:Array1DwSource.xcorrelate"]}
{"id": "C24", "title": "Array-level trimming is all-or-nothing", "statement": "Array1D.trim either trims every sensor to the same interval or raises IndexError leaving all sensors untouched.", "quantifier": "every valid array and interval", "why_tests_cant": "Tests do not inspect arrays after a failing trim.", "anchors": ["swprocess/array1d.py:Array1D.trim"]}
{"id": "C25", "title": "The processed frequencies are the requested ones", "statement": "The frequencies kept for processing start at the sample of the frequency grid nearest to fmin, never pass the one nearest to fmax, advance by exactly the user-facing frequency step, and omit none in between; if fmin and fmax are inside the grid each kept frequency is within half a grid step of [fmin,fmax].", "quantifier": "every grid size and spacing, every fmin, fmax and multiple", "why_tests_cant": "Two grids are tested.", "anchors": ["swprocess/wavefieldtransforms.py:AbstractWavefieldTransform._frequency_keep_ids", "swprocess/wavefieldtransforms.py:EmptyWavefieldTransform.from_array"]}
{"id": "C26", "title": "Normalisation depends only on the last request", "statement": "After any sequence of normalize calls the power is the one obtained by applying only the last requested normalisation to the original absolute power; calls that raise have no effect.", "quantifier": "every power matrix, every finite sequence of normalisation names (valid or not)", "why_tests_cant": "Tests normalise a fresh transform once per mode.", "anchors": ["swprocess/wavefieldtransforms.py:AbstractWavefieldTransform.normalize"]}
{"id": "C27", "title": "Picking the peak is unaffected by normalisation", "statement": "find_peak_power returns for each frequency the first trial velocity of greatest power, and for non-negative power the answer is the same before and after any sequence of normalisations.", "quantifier": "every non-negative power matrix without silent frequencies, every sequence of normalisations", "why_tests_cant": "Not tested.", "anchors": ["swprocess/wavefieldtransforms.py:AbstractWavefieldTransform.find_peak_power", "swprocess/wavefieldtransforms.py:AbstractWavefieldTransform.normalize"]}
{"id": "C28", "title": "Frequency-domain stacking is the plain mean", "statement": "Stacking any non-empty sequence of transforms onto an empty transform yields the mean of their powers weighted by their counts, the total count, and does not depend on the order nor on the initial content of the empty transform; an object without power, or of another shape, is refused and changes nothing, so an image keeps one entry for each of its frequencies and velocities (refuted for axes of length one, which numpy repeats).", "quantifier": "every finite non-empty sequence of transforms, every permutation", "why_tests_cant": "One transform is stacked in the tests.", "anchors": ["swprocess/wavefieldtransforms.py:EmptyWavefieldTransform.stack"]}
{"id": "C29", "title": "Slant stacking sums along straight moveout lines", "statement": "For positive velocities, each slant-stack value is the trapezoidal integral over the receiver offsets of the linearly interpolated records evaluated at intercept time plus offset/velocity; no sample outside the records is ever read; if the record is too short ValueError is raised.", "quantifier": "every array, every list of positive trial velocities in any order", "why_tests_cant": "The index arithmetic is incremental (each velocity updates the previous indices) and is tested on no example with an independent formula.", "anchors": ["swprocess/wavefieldtransforms.py:SlantStack.slant_stack"]}
{"id": "C30", "title": "Phase-shift power is bounded and amplitude independent", "statement": "For non-vanishing spectra the phase-shift power at every velocity and frequency is non-negative, at most the array aperture, equal to the aperture when the trial velocity aligns all phases, and unchanged when each trace is multiplied by its own positive factor.", "quantifier": "every array, spectrum, velocity and frequency", "why_tests_cant": "No test of the transform's values exists.", "anchors": ["swprocess/wavefieldtransforms.py:PhaseShift.transform"]}
{"id": "C31", "title": "Beamforming power is real and non-negative", "statement": "The spatiospectral correlation matrix is Hermitian and positive semidefinite, and for every weighting and steering the beamformer power at every velocity and frequency is a real non-negative number.", "quantifier": "every number of channels, blocks and frequencies, every weighting, every steering vector", "why_tests_cant": "No test of the transform's values exists.", "anchors": ["swprocess/wavefieldtransforms.py:FDBF.transform", "swprocess/wavefieldtransforms.py:FDBF._spatiospectral_correlation_matrix"]}
{"id": "C32", "title": "Beamforming power peaks at the true velocity", "statement": "For noise-free plane-wave data and plane steering the beamformer power at the true velocity is at least that at every other trial velocity, whatever the offsets and the frequency.", "quantifier": "every array geometry, frequency, true and trial velocity", "why_tests_cant": "Tests check no synthetic wavefield.", "anchors": ["swprocess/wavefieldtransforms.py:FDBF.transform"]}
{"id": "C33", "title": "Signal-to-noise values are reported at their own frequency", "statement": "Each signal-to-noise value is the ratio of mean spectral magnitudes of signal and noise at exactly the frequency it is reported with, the frequencies run from fmin to fmax by the requested step, and windows of unequal length raise IndexError.", "quantifier": "every pair of windows, every padding request", "why_tests_cant": "The tests only compare frequency vectors for windows shorter than 1/df.", "anchors": ["swprocess/snr.py:SignaltoNoiseRatio.from_array1ds"]}
{"id": "C34", "title": "Trial velocities span the requested range", "statement": "The trial velocity vector has the requested number of entries, starts at vmin, ends at vmax, is strictly increasing when vmin<vmax and stays inside the range; unknown spacings raise KeyError.", "quantifier": "every vmin, vmax and count (linear spacing)", "why_tests_cant": "One example is compared with the same numpy call.", "anchors": ["swprocess/wavefieldtransforms.py:AbstractWavefieldTransform._create_vector"]}
{"id": "C35", "title": "Limit rejection rejects exactly the out-of-range peaks", "statement": "reject_limits_outside(attr,(lo,hi)) makes invalid exactly the valid peaks whose attribute is below lo or above hi (one-sided when a limit is None, nothing when both are); peaks on a limit, peaks already invalid and all stored values are unaffected.", "quantifier": "every Peaks object (1D or 2D, with NaN and infinities), every attribute, every pair of limits", "why_tests_cant": "Four examples on one attribute are tested.", "anchors": ["swprocess/peaks.py:Peaks.reject_limits_outside", "swprocess/peaks.py:Peaks._reject"]}
{"id": "C36", "title": "Box rejection rejects exactly the peaks strictly inside", "statement": "reject_box_inside makes invalid exactly the valid peaks strictly inside the box, whatever order the box corners are given in, and changes no stored value.", "quantifier": "every Peaks object, every pair of attributes, every box", "why_tests_cant": "Three examples are tested.", "anchors": ["swprocess/peaks.py:Peaks.reject_box_inside", "swprocess/peaks.py:Peaks._reject_box_inside_bool_array"]}
{"id": "C37", "title": "Rejection histories commute and are irreversible", "statement": "After any sequence of rejections a peak is valid exactly when it was initially valid and no rejection of the sequence matches it; hence order and repetition do not matter, no rejection ever revives a peak, and stored values never change.", "quantifier": "every Peaks object or suite, every finite sequence of limit and box rejections", "why_tests_cant": "Sequences of rejections are not tested.", "anchors": ["swprocess/peaks.py:Peaks.reject_limits_outside", "swprocess/peaks.py:Peaks.reject_box_inside", "swprocess/peakssuite.py:PeaksSuite.reject_limits_outside", "swprocess/peakssuite.py:PeaksSuite.reject_box_inside"]}
{"id": "C38", "title": "Peak attributes stay aligned", "statement": "All attributes of a Peaks object (frequency, velocity, slowness, wavelength, wavenumber and extra attributes) list the same valid peaks in the same order, and for every listed peak wavelength = velocity/frequency, slowness = 1/velocity and wavenumber = 2 pi frequency/velocity.", "quantifier": "every Peaks object after every rejection history", "why_tests_cant": "Tests compare attributes of fresh objects only.", "anchors": ["swprocess/peaks.py:Peaks.frequency", "swprocess/peaks.py:Peaks.velocity", "swprocess/peaks.py:Peaks.slowness", "swprocess/peaks.py:Peaks.wavelength", "swprocess/peaks.py:Peaks.wavenumber"]}
{"id": "C39", "title": "Simplifying multiple peaks keeps the strongest valid one", "statement": "For multi-peak data simplify_mpeaks returns, per frequency column with at least one valid peak of usable power, the value of the valid peak of greatest power (the first one on ties); columns without are skipped; the selection is the same for every attribute so that x and y stay paired; single-peak data returns the valid values.", "quantifier": "every 2D Peaks object, every mask, every attribute", "why_tests_cant": "Three small matrices are tested.", "anchors": ["swprocess/peaks.py:Peaks.simplify_mpeaks"]}
{"id": "C40", "title": "Peaks survive a JSON round trip", "statement": "Writing a Peaks object to JSON and reading it back gives an object with the same identifier, attributes, values (NaN included) and validity mask.", "quantifier": "every Peaks object, after every rejection history", "why_tests_cant": "Tests round-trip objects with nothing rejected and compare with an equality that ignores rejected peaks.", "anchors": ["swprocess/peaks.py:Peaks.to_json", "swprocess/peaks.py:Peaks.from_json", "swprocess/peaks.py:Peaks.from_dict"]}
{"id": "C41", "title": "Appending to a JSON file is safe", "statement": "Appending a Peaks object to a file keeps all previous entries and adds the new one last; if its identifier is already present KeyError is raised and the file is unchanged; at every crash point the file holds either the old or the new content.", "quantifier": "every file content, every Peaks object, every crash point", "why_tests_cant": "Tests neither compare the other entries nor consider interruption.", "anchors": ["swprocess/peaks.py:Peaks.to_json"]}
{"id": "C42", "title": "Suites survive a JSON round trip, prefix by prefix", "statement": "PeaksSuite.to_json followed by from_json returns the same suite in the same order whatever the file contained before; if the process stops between two writes the file holds exactly the first members of the suite.", "quantifier": "every suite, every prior file content, every interruption between members", "why_tests_cant": "One suite of three members is tested.", "anchors": ["swprocess/peakssuite.py:PeaksSuite.to_json", "swprocess/peakssuite.py:PeaksSuite.from_json", "swprocess/peakssuite.py:PeaksSuite.from_dict"]}
{"id": "C43", "title": "Peaks equality means equal dispersion data", "statement": "If two Peaks objects compare equal they have the same identifier, attributes, and the same valid data up to tolerance; comparison is reflexive and symmetric, and rejected peaks count as a difference.", "quantifier": "all pairs of Peaks objects", "why_tests_cant": "Tests compare nine hand-made pairs without rejected peaks.", "anchors": ["swprocess/peaks.py:Peaks.__eq__", "swprocess/peakssuite.py:PeaksSuite.__eq__"]}
{"id": "C44", "title": "Identifiers in a suite are unique for every history", "statement": "After any sequence of constructions and appends, successful or failed, the identifiers in a suite are pairwise distinct and are those of its members in order; a failed append leaves the suite unchanged; merging suites concatenates their members or raises KeyError.", "quantifier": "every finite sequence of append/from_peaks/from_peakssuite calls", "why_tests_cant": "Tests check one duplicate.", "anchors": ["swprocess/peakssuite.py:PeaksSuite.append", "swprocess/peakssuite.py:PeaksSuite.from_peaks", "swprocess/peakssuite.py:PeaksSuite.from_peakssuite"]}
{"id": "C45", "title": "Interactive trimming removes exactly the committed boxes", "statement": "After any interactive trimming session a peak is valid exactly when it was valid before and lies in no box drawn in a group the user committed (continue or quit); boxes of undone groups have no effect; unrecognised entries only repeat the question.", "quantifier": "every suite, every sequence of boxes and answers, of any length", "why_tests_cant": "Two scripted sessions are tested, neither with undo.", "anchors": ["swprocess/peakssuite.py:PeaksSuite.interactive_trimming"]}
{"id": "C46", "title": "Statistics rest on at least the requested number of values", "statement": "Every sampling point reported by PeaksSuite.statistics has at least drop_sample_if_fewer_count observed values, and its mean and standard deviation are those of exactly these observed values; fewer than three members raise ValueError.", "quantifier": "every suite, every list of sampling points, every count", "why_tests_cant": "Tests use at most six sampling points; the percentage rules start to bite above one hundred.", "anchors": ["swprocess/peakssuite.py:PeaksSuite.statistics", "swprocess/peakssuite.py:PeaksSuite._drop", "swprocess/peakssuite.py:PeaksSuite._drop_indices"]}
{"id": "C47", "title": "Dropping data keeps rows, columns and labels aligned", "statement": "_drop returns a sub-matrix of the data obtained by deleting whole rows and whole columns, keeps the order of the rest and returns for every kept column its own x label; no value is altered. It removes either the columns with too few observed values and then the rows that are too sparse in what is left, or the rows first and then the columns: whichever removes more missing values per observed value lost (rows first if equal).", "quantifier": "every data matrix and thresholds", "why_tests_cant": "Four small matrices are tested.", "anchors": ["swprocess/peakssuite.py:PeaksSuite._drop", "swprocess/stats.py:Statistics._drop"]}
{"id": "C48", "title": "Resampling never extrapolates", "statement": "Each entry of PeaksSuite.to_array is missing outside the range of that member's valid x values, equals the member's value at its own x values, and in between lies between the two neighbouring values, for members with distinct x values.", "quantifier": "every suite, every list of sampling points, unsorted data included", "why_tests_cant": "Tests evaluate only at the data's own x values.", "anchors": ["swprocess/peakssuite.py:PeaksSuite.to_array"]}
{"id": "C49", "title": "Resolution limits are the requested physical limits", "statement": "For every supported combination of axes, each point of a computed resolution-limit line has exactly the requested wavelength (or wavenumber) under v = f*wavelength, wavenumber = 2 pi/wavelength and slowness = 1/v; all other combinations raise NotImplementedError.", "quantifier": "every axis combination, every limit, every axis vector", "why_tests_cant": "Tests compare with the same formulas on one vector.", "anchors": ["swprocess/peakssuite.py:PeaksSuite.calc_resolution_limits"]}
{"id": "C50", "title": "Parsing .max files attributes each peak to its own time window", "statement": "For a .max file, the Peaks parsed for a start time contain exactly the peaks of that start time and wave type, each in the column of its own frequency, in file order.", "quantifier": "every .max file content", "why_tests_cant": "Tests use four files written by one program version with fixed-width times.", "anchors": ["swprocess/peaks.py:Peaks._parse_peaks", "swprocess/peakssuite.py:PeaksSuite.from_max", "swprocess/regex.py:get_peak_from_max", "swprocess/regex.py:get_all"]}
{"id": "C51", "title": "The requested wave type is honoured for every file", "statement": "PeaksSuite.from_max with several files extracts from each file the wave type that reading this file alone would extract; unknown wave types raise ValueError.", "quantifier": "every list of files, every wave type", "why_tests_cant": "Tests read one file at a time.", "anchors": ["swprocess/peakssuite.py:PeaksSuite.from_max", "swprocess/regex.py:validate_wavetypes", "swprocess/regex.py:get_wavetype"]}
{"id": "C52", "title": "Constructors do not affect other objects", "statement": "Building Peaks from a dict leaves the caller's dict unchanged, and building a suite from other suites leaves later changes of the one invisible in the others.", "quantifier": "every dict, every suite, every later history", "why_tests_cant": "Tests never look at the inputs afterwards (one test even asserts the sharing).", "anchors": ["swprocess/peaks.py:Peaks.from_dict", "swprocess/peakssuite.py:PeaksSuite.from_peakssuite"]}
{"id": "C53", "title": "Sorting a data matrix only permutes observations", "statement": "_sort returns a permutation of the rows in which the position of the first observed value never decreases from row to row, rows without values last.", "quantifier": "every data matrix", "why_tests_cant": "Three matrices are tested.", "anchors": ["swprocess/stats.py:Statistics._sort"]}
{"id": "C54", "title": "Dense regions are dense, disjoint and exhaustive", "statement": "_identify_regions terminates without its internal iteration error, always returns, and the returned regions are inside the matrix, pairwise disjoint, together span all columns, and each has at least the requested density of observed values.", "quantifier": "every data matrix with an observed value in every column, every density threshold up to 1", "why_tests_cant": "Three thresholds on two matrices are tested.", "anchors": ["swprocess/stats.py:Statistics._identify_regions"]}
{"id": "C55", "title": "Random filling touches only missing values", "statement": "_fill_data leaves every observed value unchanged, replaces every missing value by a draw from the distribution of its own column, and draws exactly as many values as were missing. The replacement loop of from_data_matrix returns data that keep every observed value, hold a draw of its own column in each missing cell of a region, keep the column means within 5 % and the coefficients of variation within 0.01, and otherwise raises ValueError. Without given means and deviations those of the observed values of each column are used, so that nothing is left missing (refuted: a column with one observed value has no deviation).", "quantifier": "every data matrix and every random stream", "why_tests_cant": "Four matrices are tested.", "anchors": ["swprocess/stats.py:Statistics._fill_data"]}
{"id": "C56", "title": "Missing correlations get filled", "statement": "_fill_corr returns a matrix without missing values that agrees with the input wherever the input was observed.", "quantifier": "every correlation matrix with missing values", "why_tests_cant": "Not tested.", "anchors": ["swprocess/stats.py:Statistics._fill_corr"]}
{"id": "C57", "title": "Statistics objects can be built", "statement": "Statistics can be constructed from its four components, from a data matrix and from a suite, for admissible inputs.", "quantifier": "every admissible input", "why_tests_cant": "The constructors are not tested.", "anchors": ["swprocess/stats.py:Statistics.__init__", "swprocess/stats.py:Statistics.from_peakssuite", "swprocess/stats.py:Statistics.from_data_matrix"]}
{"id": "C58", "title": "A source inside the array is refused before processing", "statement": "Every MASW workflow raises ValueError when the source lies strictly between the first and last receiver, before any muting, trimming or transform is performed.", "quantifier": "every workflow, every set of files and settings", "why_tests_cant": "One mocked workflow is tested.", "anchors": ["swprocess/maswworkflows.py:AbstractMaswWorkflow.check", "swprocess/maswworkflows.py:TimeDomainWorkflow.run", "swprocess/maswworkflows.py:FrequencyDomainMaswWorkflow.run"]}
{"id": "C59", "title": "Workflow settings decide exactly the steps performed", "statement": "The time-domain workflow returns the transform of the array after exactly the enabled steps, in the documented order; a disabled step leaves the array unchanged; errors of a step abort the workflow with that error.", "quantifier": "every combination of settings, every array", "why_tests_cant": "Tests use mocks for the array and two settings.", "anchors": ["swprocess/maswworkflows.py:TimeDomainWorkflow.run", "swprocess/maswworkflows.py:AbstractMaswWorkflow"]}
{"id": "C60", "title": "The mute window requested in the settings is used", "statement": "When muting is enabled, the taper settings given as window_kwargs to create_settings_dict determine the window applied to the records.", "quantifier": "every settings dict, every array", "why_tests_cant": "Tests mock the muting.", "anchors": ["swprocess/maswworkflows.py:AbstractMaswWorkflow.mute", "swprocess/masw.py:Masw.create_settings_dict", "swprocess/array1d.py:Array1D.interactive_mute"]}
{"id": "C61", "title": "Frequency-domain workflow averages all files at equal frequencies", "statement": "The frequency-domain workflow returns, at every reported frequency and velocity, the mean over all files of that file's power at that same frequency and velocity; it refuses files it cannot average.", "quantifier": "every list of files", "why_tests_cant": "The workflow is tested with mocks only.", "anchors": ["swprocess/maswworkflows.py:FrequencyDomainMaswWorkflow.run", "swprocess/wavefieldtransforms.py:EmptyWavefieldTransform"]}
{"id": "C62", "title": "Registries return the last class registered under a name", "statement": "After any sequence of registrations create_class(name) returns the class registered last under exactly that name and raises KeyError for names never registered; registering in one registry never affects the other nor other names.", "quantifier": "every sequence of registrations over both registries", "why_tests_cant": "One replacement is tested.", "anchors": ["swprocess/register.py:AbstractRegistry.register", "swprocess/register.py:AbstractRegistry.create_class", "swprocess/register.py:AbstractRegistry.create_instance"]}
{"id": "C63", "title": "Running a transform does not change the user's settings", "statement": "Running any workflow or transform leaves the settings dict passed by the user unchanged, so that running again, or running another transform, with the same dict gives the same result.", "quantifier": "every settings dict, every sequence of transforms run with it", "why_tests_cant": "Tests build fresh settings for each run.", "anchors": ["swprocess/wavefieldtransforms.py:FK.from_array", "swprocess/wavefieldtransforms.py:FDBF.transform"]}
{"id": "C64", "title": "The settings dict stores what it was given", "statement": "create_settings_dict stores every argument under its documented key, with the documented defaults for omitted arguments, independently of the other arguments.", "quantifier": "every combination of arguments", "why_tests_cant": "Only used indirectly in tests.", "anchors": ["swprocess/masw.py:Masw.create_settings_dict"]}
{"id": "C65", "title": "Interactive picking returns the accepted points", "statement": "ginput_session returns at most npts points, each the last point clicked in its round, in order; rounds without a click are repeated; it returns fewer than npts points only if the user asked to stop.", "quantifier": "every sequence of user events, every npts", "why_tests_cant": "One mocked session is tested.", "anchors": ["swprocess/interact.py:ginput_session", "swprocess/array1d.py:Array1D.interactive_mute"]}
{"id": "C66", "title": "Extraction reads exactly the hours it needs", "statement": "extract_mseed reads, in chronological order and once each, exactly the hourly files that overlap the requested block; blocks ending before they start raise ValueError.", "quantifier": "every start and end time", "why_tests_cant": "Three blocks are tested.", "anchors": ["swprocess/utils.py:extract_mseed"]}
{"id": "C67", "title": "Least-squares update solves the linear problem in one step", "statement": "For a linear forward model the updated parameters do not depend on the current iterate, reproduce the prior when the data agree with it, and equal the information-form (weighted normal equations) solution.", "quantifier": "every dimension, every prior, data and invertible covariances", "why_tests_cant": "Not tested.", "anchors": ["swprocess/inversion.py:leastsquare_iterativealgorithm"]}
{"id": "C68", "title": "Posterior covariance is the inverse of the summed information", "statement": "leastsquare_posterioricovmatrix equals (G' Cd^-1 G + Cp^-1)^-1, is symmetric when the inputs are, and never exceeds the prior covariance (the difference is positive semidefinite).", "quantifier": "every dimension, every invertible symmetric covariances", "why_tests_cant": "Not tested.", "anchors": ["swprocess/inversion.py:leastsquare_posterioricovmatrix"]}
{"id": "C69", "title": "Detrending removes exactly the straight line", "statement": "Linear detrending leaves a record with zero mean and no linear trend, maps straight lines to zero, is idempotent and linear, and keeps the number of samples.", "quantifier": "every record of at least two samples", "why_tests_cant": "Tests only check that detrend is called.", "anchors": ["swprocess/maswworkflows.py:AbstractMaswWorkflow.detrend", "swprocess/array1d.py:Array1D.timeseriesmatrix"]}
{"id": "C70", "title": "A failed mute leaves the array untouched", "statement": "When mute raises (vertical line, end line before start line, lines outside the record) the array is exactly as before the call.", "quantifier": "every array, every pair of lines, every taper", "why_tests_cant": "No failing mute is tested, let alone one that fails half way through the sensors.", "anchors": ["swprocess/array1d.py:Array1D.mute"]}
{"id": "C71", "title": "The reported spacing holds for every pair of neighbours", "statement": "Whenever spacing returns a value, every gap between neighbouring receivers is within 15 mm of it; it raises ValueError exactly when two gaps differ by 10 mm or more or when there are fewer than two receivers.", "quantifier": "every array", "why_tests_cant": "Only two geometries are tested; the rounding tolerance interacts with every geometry.", "anchors": ["swprocess/array1d.py:Array1D.spacing"]}
{"id": "C72", "title": "Automatic first arrivals are first exceedances", "statement": "The automatic pick of each receiver is the time of the first sample whose detrended normalised magnitude deviates from its initial mean by more than the threshold; no earlier sample does; if no sample of some receiver does, IndexError is raised.", "quantifier": "every array, every threshold", "why_tests_cant": "Tests use one array and one threshold.", "anchors": ["swprocess/array1d.py:Array1D.auto_pick_first_arrivals"]}
{"id": "C73", "title": "The measured source signal is the mean over the source files", "statement": "Array1DwSource.from_files stores as source signal the sample-by-sample mean of the chosen channel over all source files, with the common time step; files with another time step are refused.", "quantifier": "every list of source files, every channel", "why_tests_cant": "Not tested.", "anchors": ["swprocess/array1d.py:Array1DwSource.from_files"]}
{"id": "C74", "title": "The f-k transform leaves the caller's settings alone", "statement": "Running the f-k transform computes the unweighted plane-wave beamformer whatever the beamforming settings say, raises KeyError when the settings have no beamforming section, and leaves the settings passed by the caller as they were.", "quantifier": "every array, settings and later use of the same settings", "why_tests_cant": "A test sees one call with a fresh settings dictionary; the effect shows up in the next use of the same dictionary.", "anchors": ["swprocess/wavefieldtransforms.py:FK.from_array"]}
{"id": "C75", "title": "Every registered workflow can be run by its name", "statement": "Masw.run runs the workflow registered under the name in the settings and raises KeyError for other names; MaswXcorr.run runs the cross-correlation workflow and refuses all others.", "quantifier": "every settings dict, every list of files", "why_tests_cant": "the constructor arguments of each registered class must fit the call in Masw.run for every name", "anchors": ["swprocess/masw.py:Masw.run", "swprocess/masw.py:MaswXcorr.run", "swprocess/maswworkflows.py:TimeDomainXcorrMaswWorkflow.__init__"]}
{"id": "C76", "title": "The signal-to-noise ratio describes all stacked files", "statement": "The signal-to-noise ratio reported by the frequency-domain workflow depends on all files that were stacked.", "quantifier": "every list of files, every settings dict with signal-to-noise enabled", "why_tests_cant": "selection state is kept between files; a test with equal files cannot see it", "anchors": ["swprocess/maswworkflows.py:FrequencyDomainMaswWorkflow.run", "swprocess/maswworkflows.py:AbstractMaswWorkflow.select_noise"]}
{"id": "C77", "title": "Time trim and signal-to-noise ratio can be combined", "statement": "A workflow with a time trim whose begin lies after time zero and with signal-to-noise enabled returns a transform whenever each of the two does alone.", "quantifier": "every list of files, every settings dict", "why_tests_cant": "interaction of two options over all records", "anchors": ["swprocess/maswworkflows.py:AbstractMaswWorkflow.select_signal", "swprocess/activetimeseries.py:ActiveTimeSeries.trim", "swprocess/array1d.py:Array1D.from_array1d"]}
{"id": "C78", "title": "Interactive muting mutes along the picked lines", "statement": "interactive_mute lets the user pick two points for each side it was asked to mute (before, after, both) and mutes exactly along the lines through those points, read according to the time axis of the plot; it changes nothing else, and refuses without muting when the picking fails.", "quantifier": "every array, every mute location, every sequence of user events", "why_tests_cant": "It needs a user at a window and is not tested.", "anchors": ["swprocess/array1d.py:Array1D.interactive_mute", "swprocess/interact.py:ginput_session"]}
{"id": "C79", "title": "Each extracted block ends up in its own file", "statement": "After a successful extract_mseed, for every block in the table, the output file of its station and array holds the overlapping hours joined in chronological order, merged, trimmed to the block and with gaps filled; no other file is written.", "quantifier": "every table of blocks, every set of hourly files", "why_tests_cant": "Three tables with one block per station are tested.", "anchors": ["swprocess/utils.py:extract_mseed"]}
{"id": "C80", "title": "The slant-stack image is the spectrum of the slant stack", "statement": "SlantStack.transform returns, for every trial velocity and every reported frequency, the Fourier sum at exactly that frequency of the slant-stacked record of that velocity; the reported frequencies are the records' own frequencies between the nearest points to fmin and fmax. If the slant stack cannot be formed the transform raises the same error.", "quantifier": "every consistent array with the source outside it, every non-empty list of positive velocities, every frequency range", "why_tests_cant": "The slant stack is shorter than the records, so its spectrum has to be evaluated on the records' frequency grid; a test with one length cannot show that frequency labels and values agree for all lengths and velocity sets.", "anchors": ["swprocess/wavefieldtransforms.py:SlantStack.transform", "swprocess/wavefieldtransforms.py:SlantStack.slant_stack"]}
{"id": "C81", "title": "The waterfall plot shows every record at its sensor", "statement": "Array1D.waterfall draws one curve per sensor in order of position, at that sensor's own times, at the sensor's position (or distance from the first sensor) plus the record divided by its largest magnitude and multiplied by the scale; with the default scale no point is further from its sensor than half the average spacing. Time limits cover the record (downwards on the y axis), distance limits cover the array and one gap beyond. Unknown time axes are refused. It works for every array.", "quantifier": "every consistent array, scale, normalisation, axis orientation, with or without the caller's axes", "why_tests_cant": "Image-based tests compare one figure; placement and overlap are claims about all records, spacings and scales.", "anchors": ["swprocess/array1d.py:Array1D.waterfall", "swprocess/array1d.py:Array1D.timeseriesmatrix"]}
{"id": "C82", "title": "A plot of a Peaks object shows exactly its valid peaks", "statement": "For every consistent Peaks object and every list of axis types naming attributes it has, Peaks.plot returns one Axes per pair of types; each carries one line whose points are, in order, the values of the two attributes at the valid peaks (or at the peaks chosen by a mask of the object's shape, even if rejected before), labelled with the identifier unless a label is given, and with the caller's keywords winning over the defaults. Without a mask the points equal what the object's properties report. Axes of known types get their title and scale. A type argument that is neither str, list nor tuple is a TypeError, unequal numbers of types an IndexError, no types a ValueError, an attribute the object lacks an AttributeError, a mask of another shape an IndexError.", "quantifier": "all Peaks objects (1-D or 2-D, any attributes), all type lists, keyword dictionaries and masks", "why_tests_cant": "Tests draw one small object; agreement between the drawing and the data must hold for every shape, rejection history and mask.", "anchors": ["swprocess/peaks.py:Peaks.plot", "swprocess/peaks.py:Peaks._plot", "swprocess/peaks.py:Peaks._prepare_types", "swprocess/peaks.py:Peaks._configure_axes"]}
{"id": "C83", "title": "A plot of a suite shows every member once, with unique labels", "statement": "PeaksSuite.plot draws, on every axes, one line per member in the suite's order, each with that member's valid (or masked) points and its own share of the keywords; lines already on axes the caller supplies are kept, in front. On new axes the legend holds exactly the visible labels asked for, each once, if labels are str or, without a label keyword, identifiers differ. Mismatched numbers of types, masks, axes or keyword values are an IndexError and leave the caller's axes untouched. The documented form {key: value} is refused for values that are not str; labels are not unique on axes that already show them or if they are not str, and may be lost on later axes; a failure half way leaves earlier members drawn.", "quantifier": "all suites, axis types, existing axes, keyword dictionaries and masks", "why_tests_cant": "Depends on the history of the axes and on the interplay of members, axes and one shared keyword dictionary; the repo's tests only check that a figure appears.", "anchors": ["swprocess/peakssuite.py:PeaksSuite.plot", "swprocess/peakssuite.py:PeaksSuite._prepare_plot_kwargs"]}
{"id": "C84", "title": "A dispersion image shows the data, whatever was plotted before", "statement": "WavefieldTransform.plot draws the power normalised as asked for (none, absolute or per-frequency maximum), computed from the original power whatever normalisations or plots came before, with 21 equal colour levels from zero to the greatest value, and marks at each frequency the first velocity of greatest power; plotting again draws the same picture. The near-field line has 30 points over the x axis at which the mean source offset is the given number of wavelengths. Axes without figure are a ValueError and an unknown normalisation of a fresh object a KeyError, both before any change; an unknown peak method is a NotImplementedError and a near-field line without array an AttributeError, after the image was drawn; a single frequency or velocity is a TypeError. Plotting replaces the object's power by the normalised one, so a later stack changes.", "quantifier": "all real non-negative power matrices, all histories of normalisations, all arguments", "why_tests_cant": "Figures are not inspected by tests, and the statement is about every history of calls.", "anchors": ["swprocess/wavefieldtransforms.py:AbstractWavefieldTransform.plot", "swprocess/wavefieldtransforms.py:AbstractWavefieldTransform.plot_snr", "swprocess/wavefieldtransforms.py:AbstractWavefieldTransform.normalize"]}
{"id": "C85", "title": "The resolution wavenumber is the aliasing limit", "statement": "Array1D.kres is pi divided by the smallest distance between two receivers. Two different plane waves with wavenumbers below kres in magnitude never look the same to the array; on evenly spaced receivers a wavenumber and the same wavenumber plus 2 kres always do, and the beamforming power of two velocities whose wavenumbers differ by 2 kres is identical at that frequency whatever was recorded. An array with fewer than two receivers has no kres: a ValueError is raised.", "quantifier": "every consistent array, every pair of wavenumbers, all recordings, velocities and frequencies", "why_tests_cant": "Distinguishability and aliasing are statements about all pairs of wavenumbers and all recordings.", "anchors": ["swprocess/array1d.py:Array1D.kres", "swprocess/wavefieldtransforms.py:FDBF.transform"]}
{"id": "C86", "title": "Manual first-arrival picks are (distance, time) whatever the orientation", "statement": "Array1D.manual_pick_first_arrivals returns the accepted points in order as (distances, times), independent of whether time is drawn along x or y; the session ends only when the user ends it, and any waterfall keyword arguments may be given. Automatic picking accepts only the algorithm 'threshold'.", "quantifier": "every consistent array with two or more sensors, every sequence of clicks and key presses, every waterfall argument", "why_tests_cant": "User sessions are unbounded sequences of clicks, empty selections, keys and timeouts.", "anchors": ["swprocess/array1d.py:Array1D.manual_pick_first_arrivals", "swprocess/interact.py:ginput_session", "swprocess/array1d.py:Array1D.auto_pick_first_arrivals"]}
{"id": "C87", "title": "A workflow does what its description says, in that order", "statement": "Printing a workflow lists its steps. Running it performs exactly the listed steps, in the listed order, and its title is the name under which it can be selected.", "quantifier": "every workflow, every set of arguments of create_settings_dict, every collection of files, picks and transforms", "why_tests_cant": "Tests compare results for a few settings; that order and presence of steps agree with the description concerns every combination of enabled steps, and only some combinations reveal a different order.", "anchors": ["swprocess/maswworkflows.py:SingleMaswWorkflow.__str__", "swprocess/maswworkflows.py:TimeDomainMaswWorkflow.__str__", "swprocess/maswworkflows.py:TimeDomainXcorrMaswWorkflow.run", "swprocess/maswworkflows.py:FrequencyDomainMaswWorkflow.__str__"]}
{"id": "C88", "title": "The array schematic states the array", "statement": "Array1D.plot draws all sensors and the source at their coordinates and states the number of sensors; it states a spacing exactly when all gaps between neighbouring sensors agree to within 1 cm, and the stated value is then within 1.5 cm of every gap; otherwise it says the spacing is not constant and does not raise.", "quantifier": "every array and source", "why_tests_cant": "The spacing text depends on a tolerance over all gaps; a test checks single layouts.", "anchors": ["swprocess/array1d.py:Array1D.plot", "swprocess/array1d.py:Array1D.spacing"]}
{"id": "C89", "title": "Resolution limits are drawn at the limits", "statement": "Drawing resolution limits on axes adds two lines over the visible range, every point of which has exactly the first (second) limiting wavelength or wavenumber; they add at most one legend entry, keep the user's style, and when a limit cannot be computed for the axes' quantities nothing is drawn and a warning is given.", "quantifier": "every view (limits and scale of both axes), pair of axis quantities, limited attribute, pair of limits and style keywords", "why_tests_cant": "A plotting test inspects a picture for one choice of axes; that all points of the lines are at the limit for every combination of quantities and every view needs algebra.", "anchors": ["swprocess/peakssuite.py:PeaksSuite.plot_resolution_limits", "swprocess/peakssuite.py:PeaksSuite.calc_resolution_limits"]}
{"id": "C90", "title": "SPAC patterns find the ratios and rings of a file", "statement": "The pattern for SPAC ratios matches exactly the lines of vertical component of a ratio file, of the time and ring asked for, once each and in order, its groups being the columns left open; other components are refused. The pattern for rings finds the two radii of every ring of a log, in order.", "quantifier": "every list of ratio lines and header, every choice of time, component and ring, every log with any number of rings and any text between them", "why_tests_cant": "Regular expressions with optional parts match in unexpected places; no sample file shows that there is neither a spurious nor a lost match in all files.", "anchors": ["swprocess/regex.py:get_spac_ratio", "swprocess/regex.py:get_spac_ring"]}
{"id": "C91", "title": "Only documents that hold peaks are loaded", "statement": "Loading peaks from a dictionary or JSON file succeeds exactly if the (first) dataset has frequencies and velocities and only regular arrays of numbers, or of texts that stand for numbers, under admissible names; the result has those arrays, under those names, and the recorded validity mask, or that of the velocities that are not missing. Every other file is refused with an exception, a definite one if the values are lists and tables. Nothing requires that the arrays are lists or tables: single numbers and deeper lists are accepted.", "quantifier": "every file content: absent, broken, any JSON document of any shape", "why_tests_cant": "The space of malformed documents is unbounded; tests load a few documents the package has written itself.", "anchors": ["swprocess/peaks.py:Peaks.from_dict", "swprocess/peaks.py:Peaks.from_json", "swprocess/peaks.py:Peaks.__init__"]}
{"id": "C92", "title": "Arrays of different lengths are never paired", "statement": "Frequencies, velocities or other peak data of different lengths are refused, or at least never yield values: reading a quantity that would pair them raises and rejecting on it changes nothing.", "quantifier": "every pair of lengths and all array contents", "why_tests_cant": "Tests construct consistent objects; the claim is about all inconsistent ones.", "anchors": ["swprocess/peaks.py:Peaks.__init__", "swprocess/peaks.py:Peaks.reject_limits_outside"]}
{"id": "C93", "title": "Coordinates and delays survive SU files in double precision", "statement": "A coordinate read from an SU file is the double nearest to the decimal number the file means; writing and reading it again, and likewise a delay, gives the identical integer and the identical double, as often as one likes. Any other position comes back within half a millimetre.", "quantifier": "every 32-bit integer coordinate or delay, every scalar up to 10^9, every real position up to 2147 km", "why_tests_cant": "Whether double rounding in x/1000, round(), x*1000 and int() ever moves a value to the next millimetre depends on each of four billion inputs.", "anchors": ["swprocess/sensor1c.py:Sensor1C._from_trace_su", "swprocess/array1d.py:Array1D.to_file"]}
{"id": "C94", "title": "Stacking in double precision stays near the exact mean", "statement": "However many records are appended to a record, in whatever order and with whatever stack counts, each sample of the result differs from the exact weighted mean of all of them by at most a rounding error per append; the stack count is exact.", "quantifier": "every list of up to 2^40 records with positive stack counts and real samples of magnitude up to M", "why_tests_cant": "Errors of floating-point updates may accumulate over a history; a test sees one short history.", "anchors": ["swprocess/activetimeseries.py:ActiveTimeSeries.stack_append"]}
{"id": "C95", "title": "The receiver spacing is right in double precision", "statement": "Receivers read from a file that are k centimetres apart have a spacing, the double nearest to k/100, although neither positions nor differences are exact; steps within 4.9 mm of k centimetres give the same, steps that differ by 10.1 mm are refused, and every spacing found is within 5.1 mm below and 15.1 mm of every step.", "quantifier": "every number of receivers, every spacing, every list of positions within 1000 km", "why_tests_cant": "The comparison with 1E-2 and the rounding to two places act on inexact differences; positions whose differences cross the limit through rounding errors may exist among infinitely many.", "anchors": ["swprocess/array1d.py:Array1D.spacing", "swprocess/sensor1c.py:Sensor1C._from_trace_su"]}
{"id": "C96", "title": "The arguments of the trace readers are honoured", "statement": "Reading a trace with its header uses the header of the format the caller gives, or of the trace's own format, in any spelling; without the header, the sensor holds the samples of the trace and exactly the arguments of the caller. A series read from a SEG2 trace agrees with the sensor read from it.", "quantifier": "every trace with any combination of headers and format, every value of every argument", "why_tests_cant": "The readers call each other with part of the arguments; the combinations of missing headers, formats and arguments are not enumerable by samples.", "anchors": ["swprocess/sensor1c.py:Sensor1C.from_trace", "swprocess/activetimeseries.py:ActiveTimeSeries.from_trace", "swprocess/activetimeseries.py:ActiveTimeSeries.from_trace_seg2"]}
{"id": "C97", "title": "Zero padding to a frequency step is not upset by rounding", "statement": "When 1/(df dt) is close to a whole number N, the padded record has, in floating-point arithmetic as in exact arithmetic, the smallest multiple of N samples not shorter than the record, and the reported frequency step is the requested one to eight rounding errors.", "quantifier": "every record length, frequency step and sampling interval", "why_tests_cant": "The count goes through two roundings, a reciprocal and a rounding to an integer; a neighbouring integer would be picked only for particular floats.", "anchors": ["swprocess/activetimeseries.py:ActiveTimeSeries.zero_pad", "swprocess/activetimeseries.py:ActiveTimeSeries.df"]}
{"id": "C98", "title": "Trimming picks the sample at the requested time despite rounding", "statement": "A start or end time within 49 hundredths of the sampling interval of a sample selects that sample, in floating-point arithmetic; a time reported by the record selects its own sample, and times after trimming agree with times before.", "quantifier": "every sampling interval, delay, record length, sample and time", "why_tests_cant": "Times are rounded products and sums and the nearest one is searched by rounded differences; failures would occur at isolated floats.", "anchors": ["swprocess/activetimeseries.py:ActiveTimeSeries.trim", "swprocess/activetimeseries.py:ActiveTimeSeries.time"]}
{"id": "C99", "title": "The slant stack stays inside the records despite rounding", "statement": "For every array, record length and set of trial velocities the slant stack reads only samples that exist, and each amplitude it uses is the record interpolated linearly at the arrival time of the trial wave, up to rounding errors.", "quantifier": "every sampling interval, record length, list of receiver positions and trial velocities, in double precision", "why_tests_cant": "The number of intercept times and the sample indices are computed by different formulas; they disagree only for isolated combinations of floats, such as 14 m, 140 m/s and 1 ms.", "anchors": ["swprocess/wavefieldtransforms.py:SlantStack.slant_stack"]}
{"id": "C100", "title": "Trial velocities stay ordered and in range in double precision", "statement": "With linear spacing the first and last trial velocities are exactly the requested ones, no trial velocity leaves the requested range, none is smaller than its predecessor, and each is within twenty rounding errors of the exact one.", "quantifier": "every range of at least 0.001 and every number of velocities up to 2^31", "why_tests_cant": "Each entry is rounded three times; an entry beyond the end would appear only for particular ranges and counts.", "anchors": ["swprocess/wavefieldtransforms.py:AbstractWavefieldTransform._create_vector"]}
{"id": "C101", "title": "The processed frequencies are the requested ones despite rounding", "statement": "When fmin and fmax are multiples of the frequency step, exactly the multiples from fmin to fmax are processed, in floating-point arithmetic, for every padding multiple, and the listed frequencies are right to nine rounding errors.", "quantifier": "every record length, padding multiple, sampling interval and pair of limits", "why_tests_cant": "The grid is a rounded product of a rounded step and the nearest entry is searched by rounded differences; a neighbouring entry would be picked only for particular floats.", "anchors": ["swprocess/wavefieldtransforms.py:AbstractWavefieldTransform._frequency_keep_ids", "swprocess/wavefieldtransforms.py:SlantStack.transform"]}
{"id": "C102", "title": "Rounding never rejects a peak that is within the limits", "statement": "A peak rejected by limits on its wavelength or slowness is outside of the limits in exact arithmetic, and a peak outside by more than two rounding errors is rejected; the wavenumber is right to twelve rounding errors.", "quantifier": "every frequency, velocity and pair of limits (one-sided or two-sided)", "why_tests_cant": "The coordinates are rounded quotients compared with limits; a peak exactly on a limit is the critical case.", "anchors": ["swprocess/peaks.py:Peaks.reject_limits_outside", "swprocess/peaks.py:Peaks.wavelength", "swprocess/peaks.py:Peaks.slowness", "swprocess/peaks.py:Peaks.wavenumber"]}
{"id": "C103", "title": "Plotting statistics shows the numbers given in the style asked for", "statement": "plot_statistics adds one set of error bars to the axes, at the given points with the given standard deviations; every option has the value the user gave or else the documented default; it fails only if an option repeats an argument or the numbers do not fit together; whatever statistics() returns can be plotted.", "quantifier": "every axes, list of points, means and standard deviations (with missing values) and every dictionary of options", "why_tests_cant": "Any key may appear in the dictionary, including one that repeats an argument, and any combination of defaults may be overridden.", "anchors": ["swprocess/peakssuite.py:PeaksSuite.plot_statistics", "swprocess/peakssuite.py:PeaksSuite.statistics"]}
{"id": "C104", "title": "Hand-written settings decide the processing, however they are written", "statement": "For any settings dictionary, not only generated ones, exactly the steps it switches on are carried out, in the fixed order and with the values given; switches act by truth value, whole numbers and floats are the same, other entries and the order of entries have no influence on any workflow; a run that succeeds found every entry it needs; a missing entry is a KeyError, a value that is not a number a TypeError, an unknown transform a KeyError.", "quantifier": "every nested settings dictionary, set of files, environment and workflow", "why_tests_cant": "Settings are read from user-edited JSON files; the combinations of missing, reordered, superfluous and differently typed entries are unlimited.", "anchors": ["swprocess/maswworkflows.py:AbstractMaswWorkflow", "swprocess/maswworkflows.py:TimeDomainWorkflow.run", "swprocess/maswworkflows.py:FrequencyDomainMaswWorkflow.run", "swprocess/masw.py:Masw.run"]}
{"id": "C105", "title": "Warnings tell exactly which header values were replaced", "statement": "Reading files warns once for every header value that is missing, unreadable or zero where zero is meaningless and was replaced by a default, in the order of reading and of nothing else; warnings never change the outcome. A trace read without a warning has the samples, step, stack count, delay and position of its header. Zero padding warns exactly if the frequency step it reaches differs from the one requested.", "quantifier": "every reader of files, every list of files, every header of every format, every map of coordinates, every record and every requested step", "why_tests_cant": "which fields are missing, unreadable or zero varies independently per trace and file; tests check that one warning appears, not that silence implies a faithful record", "anchors": ["swprocess/sensor1c.py:Sensor1C._safely_get_header", "swprocess/sensor1c.py:Sensor1C._from_trace_su", "swprocess/array1d.py:Array1D.from_files", "swprocess/activetimeseries.py:ActiveTimeSeries.zero_pad"]}
{"id": "C106", "title": "Rounding errors of normalisation do not move peaks", "statement": "Normalising an image any number of times, in floating point, does not change which velocity is reported as the peak of each frequency, gives exactly 1 at the peaks, and going back to 'none' returns the greatest power exactly and every other power up to a few rounding errors per call.", "quantifier": "every image of finite non-negative powers in range and every sequence of normalisations", "why_tests_cant": "A test compares a few images with a tolerance; the claim is about equality of doubles and about ties created by rounding, for every image and every number of calls.", "anchors": ["swprocess/wavefieldtransforms.py:WavefieldTransform.normalize", "swprocess/wavefieldtransforms.py:WavefieldTransform.find_peak_power"]}
{"id": "C107", "title": "Rounding errors of the mean and standard deviation", "statement": "The reported mean and standard deviation of the curves at a sample are those of the values present, up to a few rounding errors per curve; the mean lies between the smallest and greatest value and equal values have no spread.", "quantifier": "every column of values, some of them missing, and every order in which they are added", "why_tests_cant": "Tests compare a few columns with a tolerance; the claim bounds the error for every column, any number of curves and every order of summation.", "anchors": ["swprocess/peakssuite.py:PeaksSuite.statistics", "swprocess/stats.py:Statistics._calc_stat"]}
{"id": "C108", "title": "Rounding errors of offsets and of trimming by offset", "statement": "Trimming by offset keeps exactly the receivers whose offset is strictly between the limits (up to the first one beyond the upper limit), and the distance of the array centre and the resolution limit are those of the geometry, floating point included.", "quantifier": "every source position, every list of receiver positions and every pair of limits", "why_tests_cant": "Tests use round numbers; the claim is about offsets that are rounded onto or across a limit, for every geometry.", "anchors": ["swprocess/array1d.py:Array1D.offsets", "swprocess/array1d.py:Array1D.trim_offsets", "swprocess/array1d.py:Array1D.array_center_distance", "swprocess/array1d.py:Array1D.kres"]}
{"id": "C109", "title": "Rounding errors of normalised traces", "statement": "In the matrix of traces normalised by trace (or by all), no value is above one in size, the values of size one are those of the greatest samples of the trace (of all traces), signs and order are those of the samples, and normalising a second time changes nothing, floating point included.", "quantifier": "every set of traces of doubles not all zero, every detrending function", "why_tests_cant": "The claim is about the last digit of every quotient of two doubles; tests compare a few arrays with a tolerance.", "anchors": ["swprocess/array1d.py:Array1D.timeseriesmatrix"]}
{"id": "C110", "title": "Logarithmic trial velocities in double precision", "statement": "With logarithmic spacing the trial velocities start and end exactly at the limits asked for, increase strictly, stay inside the limits and are those of the geometric progression up to 2000 rounding errors.", "quantifier": "every pair of limits, every number of velocities and every library whose logarithm and power have a small error", "why_tests_cant": "Tests compare one axis with a tolerance on one C library; the claim covers every axis and every library of that accuracy.", "anchors": ["swprocess/wavefieldtransforms.py:AbstractWavefieldTransform._create_vector"]}
{"id": "C111", "title": "Rounding errors of the mute", "statement": "The samples silenced by a mute are those outside the two lines, floating point included: the window starts at the sample at or before the time of the line; every other sample keeps its sign, does not grow, and is unchanged where the window is one.", "quantifier": "every line, receiver position, sampling interval, delay, record and window", "why_tests_cant": "The index is a truncated rounded number: only particular combinations of times and sampling intervals fall on the wrong side, and a test covers a handful.", "anchors": ["swprocess/array1d.py:Array1D.mute"]}
{"id": "C112", "title": "Rounding errors of the alignment by cross-correlation", "statement": "The delay found by cross-correlation is the one with the largest correlation, floating point included, and the record returned is the given one moved by exactly that delay.", "quantifier": "every pair of records of doubles, every order of additions and every correlation method with bounded error", "why_tests_cant": "Which lag wins depends on rounding errors of long sums, whose order scipy chooses; tests align a few clear pulses.", "anchors": ["swprocess/activetimeseries.py:ActiveTimeSeries.crosscorr", "swprocess/activetimeseries.py:ActiveTimeSeries.crosscorr_shift"]}
{"id": "C113", "title": "Rounding errors of the phase-shift transform", "statement": "With floating point, each power of the phase-shift transform is within a stated small multiple of the rounding error of the exact power, never exceeds the length of the array by more than that, and the velocity of the largest exact power is reported as the peak whenever it is ahead by more than twice that error.", "quantifier": "every array, spectra, frequency and list of trial velocities of usual size, every order of additions and every C library with at most two rounding errors", "why_tests_cant": "The error grows with the phase and with the number of receivers and depends on the order of summation; tests compare a few powers with a loose tolerance.", "anchors": ["swprocess/wavefieldtransforms.py:PhaseShift.transform"]}
{"id": "C114", "title": "Rounding errors of the window of correlation lags", "statement": "Cross-correlating a shot with its source keeps the lags from half a second before the fastest arrival at the nearest receiver to the slowest arrival at the farthest one: with floating point the bounds are at most one sample off, the window is never inverted, and a wider range of velocities or offsets never gives a smaller window.", "quantifier": "every offsets, velocities and sampling interval of usual size and every length of the source signal", "why_tests_cant": "Truncated quotients go wrong only for particular combinations of offset, velocity and sampling interval.", "anchors": ["swprocess/array1d.py:Array1DwSource.xcorrelate"]}
{"id": "C115", "title": "Rounding errors of automatic first-arrival picks", "statement": "With floating point, the automatic pick on a receiver is the first sample that differs from the mean of the first ten by more than the given fraction of the peak, up to a band of fifteen rounding errors about the threshold, and picking fails only if no sample is above that band.", "quantifier": "every record of doubles, detrending function, threshold and order of additions", "why_tests_cant": "A pick jumps when rounding moves one sample across the threshold; tests use clear arrivals.", "anchors": ["swprocess/array1d.py:Array1D.auto_pick_first_arrivals", "swprocess/array1d.py:Array1D._pick_on_threshold"]}
{"id": "C116", "title": "Rounding errors of resampled dispersion curves", "statement": "With floating point, a dispersion curve resampled on a common axis has exactly the picked values at the picked places and NaN outside its range, and between two picks it is within a few rounding errors of the straight line between them, exactly constant where the picks are.  It may leave the interval between the two picks, but not by more than that error.", "quantifier": "every curve of doubles with increasing places and every place of the axis", "why_tests_cant": "Tests interpolate a few round numbers, for which no rounding takes place; the errors depend on the last bits of the picks.", "anchors": ["swprocess/peakssuite.py:PeaksSuite.to_array"]}
{"id": "C117", "title": "Stacking with overflow, infinities and NaN", "statement": "Stacking records sample by sample gives a finite sample, no greater than the greatest of the records and within the rounding bound of their mean, as long as the number of stacks times the greatest sample can be represented; beyond that it may overflow although the mean is finite.  If any record has a NaN or an infinite sample, the stack is not finite there, whatever is stacked before and after, and the order of two records does not matter even then.", "quantifier": "every sequence of records with any double samples, including infinities and NaN, and any numbers of stacks", "why_tests_cant": "Tests stack small finite numbers; overflow and the spread of a NaN depend on the values and on the whole history of stacks.", "anchors": ["swprocess/activetimeseries.py:ActiveTimeSeries.stack"]}
{"id": "C118", "title": "Normalised traces with infinities, NaN and dead sensors", "statement": "In the matrix of normalised traces, a trace with a NaN becomes NaN throughout, an infinite sample turns the finite samples of its trace into zeros and itself into NaN, a trace of zeros becomes NaN, and any other trace has finite samples between minus one and one.  With normalisation by the greatest of all traces, one NaN in one trace makes all traces NaN; with normalisation of each trace, the other traces are not affected.", "quantifier": "every list of traces of doubles, including infinities and NaN, every normalisation and every detrending", "why_tests_cant": "Tests use finite traces with a signal on every receiver; dead or clipped receivers are met in the field in any position.", "anchors": ["swprocess/array1d.py:Array1D.timeseriesmatrix"]}
{"id": "C119", "title": "Rounding errors of the slant stack", "statement": "With floating point, each value of the slant stack is the trapezoidal rule over the receivers of the wavefield interpolated along the line of the trial velocity, up to an error bounded by the length of the line times the largest sample times a few rounding errors per receiver and per sample of moveout, whatever the order in which the pieces are summed.", "quantifier": "every line of receivers in order of position, all traces with bounded samples, every trial velocity, intercept time and order of summation", "why_tests_cant": "Tests compare the slant stack of a few traces with stored values; the errors depend on the last bits of positions, velocities and samples and on the number of receivers.", "anchors": ["swprocess/wavefieldtransforms.py:SlantStack.slant_stack"]}
{"id": "C120", "title": "Normalised images with overflow, infinities and NaN", "statement": "Any sequence of normalisations of an image of finite powers in a wide range gives finite powers only, with the peaks and rounding errors of exact doubles, and the powers come back up to a few rounding errors per request; an unknown request stops the sequence.  For a finite image whose powers differ by more than the range of the doubles, a sequence of two normalisations makes a frequency NaN that one of them alone normalises correctly.", "quantifier": "every image of finite powers and every sequence of requests", "why_tests_cant": "Tests normalise once and with round numbers; overflow, underflow and division by zero depend on the whole history of requests and on the range of the powers.", "anchors": ["swprocess/wavefieldtransforms.py:AbstractWavefieldTransform.normalize", "swprocess/wavefieldtransforms.py:AbstractWavefieldTransform.find_peak_power"]}
{"id": "C121", "title": "Frequency-domain beamforming in double precision gives the power of the steered sum", "statement": "For the weightings none, \"invamp\" and \"sqrt\" and plane steering, the power computed in double precision for a frequency f and a velocity v is |sum over the receivers of exp(2 pi i f x / v) c|^2, where c is the spectrum of the receiver at f, divided by its absolute value for \"invamp\" and multiplied with the offset for \"sqrt\". The error is at most (25 T + 9 n + 41) 2^-53 of the power of waves in phase, with n receivers and phases of at most T radians, in whatever order the products of matrices add. The imaginary part of the result is at most that large. The absolute value shown in an image has the same error. The exact power lies between zero and the power of waves in phase. A velocity whose exact power exceeds that of all others by more than twice the error is the one picked.", "quantifier": "every number of receivers up to 5*10^8, offsets, spectra and frequencies in the range where nothing overflows, velocities of at least 10^-6, and order of the rounded sums", "why_tests_cant": "Tests compare a few images with stored ones to some decimals; they cannot bound the rounding error for every array or every order in which a linear-algebra library adds.", "anchors": ["swprocess/wavefieldtransforms.py:FDBF.transform", "swprocess/wavefieldtransforms.py:FDBF._spatiospectral_correlation_matrix", "swprocess/wavefieldtransforms.py:AbstractWavefieldTransform.find_peak_power"]}
{"id": "C122", "title": "Arrays with a source signal are compared and copied with that signal", "statement": "Two arrays are equal only if their sources are at the same place and emitted the same signal and their sensors are equal pair by pair; an array is not equal to anything that is not an array. A copy of an array is equal to it, has the class asked for and can do what the original can, including a cross-correlation with the source signal. Reading an array with a source signal gives the array that is read from the receiver files together with the signal read from the source files, or the first problem in this order. Cross-correlating uses the array's own signal, and velocities from 50 to 3000 m/s unless others are given.", "quantifier": "every pair of arrays of either class, with or without a source signal, every reachable array, every set of files and sample types", "why_tests_cant": "Tests build no array with a source signal from memory and copy only arrays without one; equality is tested for a handful of arrays.", "anchors": ["swprocess/array1d.py:Array1D.from_array1d", "swprocess/array1d.py:Array1D.__eq__", "swprocess/array1d.py:Array1DwSource.from_files", "swprocess/array1d.py:Array1DwSource.xcorrelate", "swprocess/source.py:SourceWithSignal", "swprocess/source.py:Source.__eq__"]}
{"id": "C123", "title": "Samples and time steps survive SU files in floating-point arithmetic", "statement": "An array written with to_file and read again has the samples of the original rounded to single precision: each is within 2^-24 of the original and close to it in the sense of numpy's allclose, those that are single-precision numbers are unchanged, and their order is kept; magnitudes from 2^128-2^103 on become infinite. A time step of 1 to 65535 whole microseconds is written as this number and read as the same double, so that the record read equals the record written; any other time step in this range comes back within 0.51 microseconds. Writing what was read and reading it again changes nothing.", "quantifier": "every finite sample, every time step from 1 to 65535 microseconds, every record, repeated round trips", "why_tests_cant": "The round-trip test uses one array with a time step of 0.001 s and sine waves.", "anchors": ["swprocess/array1d.py:Array1D.to_file", "swprocess/array1d.py:Array1D.from_files", "swprocess/sensor1c.py:Sensor1C.from_trace", "swprocess/activetimeseries.py:ActiveTimeSeries.__eq__"]}
{"id": "C124", "title": "Arrays made of the same sensors share them; copies do not", "statement": "An array refers to the sensors it is made of. Whatever is done to these sensors, directly or through another array, an array keeps distinct sensors in the order of their positions, and its methods act on the sensors as they are now. A method that works in place changes exactly the sensors of the called array, wherever else they are held; trimming by offset and cross-correlation change no other array. A copy (from_array1d) has its own sensors, so that after any interleaving of calls each of two arrays without a common sensor is what its own calls make of it. If no sensor is given to two arrays and no array's sensor is changed directly, all arrays stay consistent.", "quantifier": "every program: any sequence of making and copying sensors and arrays, calling array methods, and changing sensors directly, including calls that fail", "why_tests_cant": "Sharing shows only in particular histories of several arrays; tests build each array of fresh sensors and look at one array at a time.", "anchors": ["swprocess/array1d.py:Array1D._check_array", "swprocess/array1d.py:Array1D.from_array1d", "swprocess/array1d.py:Array1D.trim_offsets", "swprocess/array1d.py:Array1D.mute", "swprocess/array1d.py:Array1DwSource.xcorrelate", "swprocess/sensor1c.py:Sensor1C.from_sensor1c"]}
{"id": "C125", "title": "The time-domain and the frequency-domain workflow agree on one file", "statement": "Processing one file, named once or any number of times, with the frequency-domain workflow succeeds exactly when processing that file with the time-domain workflow and the same settings succeeds. Both return the same frequencies, velocities and powers, leave the same records and settings and report the same signal-to-noise ratio; the stacked transform only says that it stands for as many transforms as files were named. Naming the file again changes nothing else.", "quantifier": "every file, every number of repetitions, every choice of settings (trimming, muting, padding, signal-to-noise, offsets), every registered transform with finite power on the grid of the empty transform", "why_tests_cant": "The two workflows order their steps differently and the frequency-domain one carries the picked lines and the signal and noise windows from file to file; tests run a few settings and never compare the workflows.", "anchors": ["swprocess/maswworkflows.py:FrequencyDomainMaswWorkflow.run", "swprocess/maswworkflows.py:TimeDomainMaswWorkflow.run", "swprocess/wavefieldtransforms.py:AbstractWavefieldTransform.stack"]}
{"id": "C126", "title": "The order of the files does not matter to the frequency-domain image, unless records are muted", "statement": "For files with alike records and settings without muting, naming the files in another order gives the same frequencies, velocities, powers and number of stacked transforms in the frequency-domain workflow. Without a signal-to-noise ratio the other order also completes whenever one order does. With muting the order can change the image, because the lines picked on the first file are applied to all of them.", "quantifier": "every list of files and every permutation of it, every choice of settings without muting, every registered transform with finite power on the grid of the empty transform; for muting, one witness", "why_tests_cant": "The running mean is updated file by file and the workflow carries state from one file to the next; the number of orders grows as the factorial of the number of files and tests use one.", "anchors": ["swprocess/maswworkflows.py:FrequencyDomainMaswWorkflow.run", "swprocess/maswworkflows.py:AbstractMaswWorkflow.mute", "swprocess/wavefieldtransforms.py:AbstractWavefieldTransform.stack"]}
{"id": "C127", "title": "The order of the further files does not matter when files are stacked", "statement": "Loading several files into one array succeeds for one order of the files after the first exactly when it succeeds for every other order of them, and the array is the same: receivers, samples, number of stacks, delay and source. The same holds for the files of the source signal, and so the time-domain and cross-correlation workflows return the same result. The first file is special: exchanging it can change the array.", "quantifier": "every first file, every list of further files of any number of traces and stacks and every permutation of it, every reader; exact arithmetic", "why_tests_cant": "The mean is updated file by file with changing weights and each file is compared with the array stacked so far; tests use one order of two files.", "anchors": ["swprocess/array1d.py:Array1D.from_files", "swprocess/array1d.py:Array1DwSource.from_files", "swprocess/activetimeseries.py:ActiveTimeSeries.stack_append", "swprocess/maswworkflows.py:TimeDomainMaswWorkflow.run", "swprocess/maswworkflows.py:TimeDomainXcorrMaswWorkflow.run"]}
{"id": "C128", "title": "Moving the survey along its line changes no result", "statement": "If the source and every receiver are displaced by the same distance along the line, offsets, normalised positions, spacing, source location flag, flipping, data matrices, slant stacks, signal-to-noise ratios and transform grids are the same; trimming, padding, detrending, muting, correlating and copying act alike and fail alike; first breaks keep their times. Reading a file with the distance added by map_x gives the moved array, and the workflows then return the same image and ratio.", "quantifier": "every displacement, every array, every file of every format, every settings; exact arithmetic", "why_tests_cant": "Tests place the array at zero; whether any step depends on an absolute position concerns every displacement and every geometry.", "anchors": ["swprocess/array1d.py:Array1D.offsets", "swprocess/array1d.py:Array1D.position", "swprocess/array1d.py:Array1D.mute", "swprocess/array1d.py:Array1D.from_files", "swprocess/maswworkflows.py:AbstractMaswWorkflow.mute", "swprocess/masw.py:Masw.run"]}
{"id": "C129", "title": "It does not matter from which side of the line a survey is seen", "statement": "Changing the sign of every position along the line reverses the receivers and nothing else: offsets go with their receivers, spacing and source location are the same, arrays are built or refused alike, reading with the sign of map_x changed gives the mirrored array, detrending, trimming, padding, muting and selecting by offset act alike, and slant-stack images have the same frequencies and magnitudes, and phase-shift and beamforming images of a source off either end are identical.", "quantifier": "every array and source position, every file of every format, all settings; exact arithmetic", "why_tests_cant": "Tests shoot from one side; flipping is decided by a comparison whose boundary cases and interior sources no test reaches.", "anchors": ["swprocess/array1d.py:Array1D._flip_required", "swprocess/array1d.py:Array1D._flipped_tseries_and_offsets", "swprocess/array1d.py:Array1D.trim_offsets", "swprocess/array1d.py:Array1D.mute", "swprocess/array1d.py:Array1D.from_files", "swprocess/wavefieldtransforms.py:SlantStack.transform"]}
{"id": "C130", "title": "The gain of the recorder does not matter", "statement": "Multiplying every sample by the same number commutes with detrending, trimming, padding, selecting by offset, muting and correlating, exceptions included. With a positive number the normalised records, the picked arrivals and the signal-to-noise ratio are the same; the phase-shift image is the same, the slant stack and its image are multiplied by that number, the beamforming image by its square (or not at all with inverse-amplitude weighting), and a multiplied image has the same peaks and the same normalised powers.", "quantifier": "every array, every positive gain, all settings, every image including infinities and NaN; exact arithmetic", "why_tests_cant": "Tests use the amplitudes of a few recordings; a threshold or default that depends on units would go unnoticed.", "anchors": ["swprocess/array1d.py:Array1D.timeseriesmatrix", "swprocess/array1d.py:Array1D.auto_pick_first_arrivals", "swprocess/array1d.py:Array1D.mute", "swprocess/array1d.py:Array1DwSource.xcorrelate", "swprocess/snr.py:SignaltoNoiseRatio.from_array1ds", "swprocess/wavefieldtransforms.py:SlantStack.slant_stack", "swprocess/wavefieldtransforms.py:AbstractWavefieldTransform.normalize", "swprocess/wavefieldtransforms.py:AbstractWavefieldTransform.find_peak_power", "swprocess/wavefieldtransforms.py:PhaseShift.transform", "swprocess/wavefieldtransforms.py:FDBF.transform"]}
{"id": "C131", "title": "The unit of length does not matter", "statement": "Giving every position, offset limit, mute line and trial velocity in another unit of length gives the same arrays, records, picks of arrival, mutes and correlations in that unit, the same exceptions, and images at the same frequencies whose powers are multiplied by one constant, so that peak velocities are the same in the new unit. The reported spacing is the same in the new unit.", "quantifier": "every array, every positive factor between units, all settings; exact arithmetic", "why_tests_cant": "Tests use metres; an absolute tolerance or rounding hides in every comparison of lengths.", "anchors": ["swprocess/array1d.py:Array1D.offsets", "swprocess/array1d.py:Array1D.spacing", "swprocess/array1d.py:Array1D.trim_offsets", "swprocess/array1d.py:Array1D.mute", "swprocess/array1d.py:Array1DwSource.xcorrelate", "swprocess/wavefieldtransforms.py:SlantStack.slant_stack", "swprocess/wavefieldtransforms.py:PhaseShift.transform", "swprocess/wavefieldtransforms.py:FDBF.transform", "swprocess/wavefieldtransforms.py:AbstractWavefieldTransform.find_peak_power"]}
{"id": "C132", "title": "The unit of time does not matter", "statement": "Giving every time step, delay, trim limit and mute time in another unit of time, and every frequency and velocity accordingly, gives the same arrays and records, the same exceptions, the same picked arrivals, signal-to-noise ratios and images at the same frequencies in the new unit. Correlation with the source signal keeps the same samples.", "quantifier": "every array, every positive factor between units, all settings; exact arithmetic", "why_tests_cant": "Tests use seconds; an absolute constant or tolerance hides in every comparison of times.", "anchors": ["swprocess/activetimeseries.py:ActiveTimeSeries.trim", "swprocess/activetimeseries.py:ActiveTimeSeries.zero_pad", "swprocess/array1d.py:Array1D.mute", "swprocess/array1d.py:Array1D.auto_pick_first_arrivals", "swprocess/array1d.py:Array1DwSource.xcorrelate", "swprocess/snr.py:SignaltoNoiseRatio.from_array1ds", "swprocess/wavefieldtransforms.py:SlantStack.transform", "swprocess/wavefieldtransforms.py:PhaseShift.transform", "swprocess/wavefieldtransforms.py:FDBF.transform"]}
{"id": "C133", "title": "What two sources contribute to a record adds up", "statement": "When the same receivers record two signals at once, so that every sample is the sum of two samples, the detrended, trimmed, padded and muted records, the records correlated with a source signal, the slant stack and the complex slant-stack image are the sums of those of the two signals alone, at the same frequencies. A velocity list is refused with the same exception for all three.", "quantifier": "every pair of arrays with the same receivers, source, time step, delay and number of samples, all settings; exact arithmetic", "why_tests_cant": "Tests compare single records with stored numbers; a threshold, clipping or rescaling inside the processing would make noise and signal interact without changing those records.", "anchors": ["swprocess/array1d.py:Array1DwSource.xcorrelate", "swprocess/maswworkflows.py:AbstractMaswWorkflow.detrend", "swprocess/wavefieldtransforms.py:SlantStack.slant_stack", "swprocess/wavefieldtransforms.py:SlantStack.transform", "swprocess/array1d.py:Array1D.trim", "swprocess/array1d.py:Array1D.zero_pad", "swprocess/array1d.py:Array1D.mute"]}
