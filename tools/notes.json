{
 "C01": "Proved for every list of compatible records and every permutation (exact rational samples).",
 "C02": "Proved for every operand, including objects that are no time series; sensors compare coordinates too.",
 "C03": "Proved for every record and every df with df*dt<2; the error cases are characterised.",
 "C04": "Proved for every padding history, failed calls included.",
 "C05": "Refuted for records and arrays: _multiple is reset before df is checked, so the reported frequency step changes when the call raises (for an array only that of the first sensor). Proved: nothing else changes.",
 "C06": "Proved for every record with dt>0.",
 "C07": "Refuted for start times off the sampling grid (delay is set to the requested start, not to the time of the kept sample). Proved: exact on the grid, error at most dt/2 otherwise.",
 "C08": "Refuted: copying after a trim with positive start raises ValueError; copying a padded record loses the frequency multiple. Proved for records and arrays: these are the only two failures.",
 "C09": "Proved over all lags.",
 "C10": "Proved, with the exact success condition.",
 "C11": "Refuted: == is neither symmetric nor transitive (allclose tolerance relative to the right operand). Proved: reflexivity and the exact meaning, also for arrays.",
 "C15": "Proved for every list of sensors, with the exact success condition, the exception and independence of the given order.",
 "C16": "Proved for every history except that the frequency steps agree only when no zero_pad raised; refuted after a failed zero_pad.",
 "C17": "Proved for sources at or before the first receiver or beyond the last; refuted for a source exactly at the last receiver. C17_order gives the order for every array and C17_at_last_receiver the far-to-near order with the source at the last receiver.",
 "C18": "Proved with exclusive bounds for sources left of the array; refuted: receivers exactly on a bound are dropped, and with the source on the right the loop stops at the first receiver. In the workflows the limits may be infinite: without a maximum, exactly the receivers beyond the minimum are kept, wherever the source is (C18_workflow_*). C18_exact gives the result for every consistent array and source position: a ValueError and no change if the first receiver is beyond the maximum, otherwise the receivers strictly between the bounds.",
 "C21": "Proved for non-positive delay and windows inside the record; refuted: with only a start line the last sample is zeroed, and for records trimmed to a positive start the window is shifted the wrong way. C21_outcome decides for all slanted lines when muting succeeds and when it raises ValueError; refuted: with both lines before the record, samples at its end survive. C21_effect gives the samples after every successful call.",
 "C22": "Proved for every array; silent rows become NaN. Records without samples are refused when scaling is requested.",
 "C23": "Proved: contiguous lags starting one sample after the intended lag; refuted: the off-by-one, and a negative slice start for short source signals.",
 "C24": "Proved for every reachable array, with the exact success condition.",
 "C69": "Proved for every record: zero sum, zero trend, lines vanish, idempotent, linear, least squares.",
 "C70": "Refuted: sensors processed before the failing one stay muted. Proved: metadata, positions and source are never changed. C70_stops is exact: the sensors before the first one whose window cannot be placed are muted, the others are not.",
 "C71": "Proved with the exact refusal condition.",
 "C72": "Proved for every array and threshold; per trace the pick is characterised exactly, including the failure.",
 "C12": "Proved for every standard scalar: receiver x, source x and y. Refuted: receiver y is read from the x field for non-negative scalars, a SEGY zero scalar raises OverflowError for the source, scalars that are no power of ten are rounded (error bound proved). For every scalar, a power of ten or not, C12_receiver_any_scalar and C12_source_any_scalar give the coordinates read: the multiple of the leading power of ten nearest to the value meant; C12_exact says when that is the value meant, and C12_segy_zero_scalar that a SEGY source with scalar 0 always raises OverflowError.",
 "C13": "Proved exactly on the mm/ms/us grid for one stack, and half a unit otherwise, with the exact condition for reading back. Refuted: stack counts of two or more come back one too small, z is lost, trimmed arrays cannot be read.",
 "C14": "Proved for every header; formats swprocess does not know raise NotImplementedError.",
 "C19": "Proved when every file has as many traces as receivers. Refuted: missing traces and unequal stack counts are silently accepted; a different trace order is refused. C19_mean states the outcome without any hypothesis on the numbers of traces: receiver i is the weighted mean over exactly those files that have an i-th trace. C19_consistent_iff: the result is consistent exactly if all receivers were stacked equally often. C19_accepted: a further file of the right format and source is accepted exactly if each of its traces that has a receiver fits it, and the first that does not decides the exception.",
 "C20": "Proved for one SU/SEGY file. Refuted: receivers of further files are not mapped, read options reach only the first file, the SEG2 source y is not mapped. C20_several states what several files must satisfy to be accepted: the unmapped places of further files must equal the mapped places of the first.",
 "C73": "Proved for records of equal length; refuted: files with different time steps are averaged; refuted: if the first source file has integer samples (many SEG-2 files) the mean is refused with a TypeError. C73_outcome and C73_unreadable are exact for every list of files.",
 "C35": "Proved for every object, attribute and limits; limits themselves are kept and missing values never violate a limit. A missing attribute is an AttributeError that changes nothing.",
 "C36": "Proved for every object and box, with the corners in any order; points on an edge stay valid.",
 "C37": "Proved for every history: the final mask depends only on the set of applicable rejections, not on order or repetition, and never grows back.",
 "C38": "Proved for every constructed object and every history.",
 "C39": "Proved for single- and multi-pick objects: exactly the strongest valid pick of each frequency, the first one on ties.",
 "C40": "Proved for every object and prior file content. An array with no rows is read back one-dimensional (still empty).",
 "C41": "Refuted for crashes: dumping truncates the file first. Proved: append keeps the other entries, duplicates raise and leave the file alone.",
 "C42": "Proved for every suite and prior content; interruptions between members leave exactly the first members.",
 "C43": "Refuted: == ignores rejections that keep equal values, compares only the common count after masking, is not symmetric and not reflexive with missing values. Proved: exactly what comparison of peaks (C43_compared) and of suites (C43_suites) decides, that it never raises, and reflexivity without missing values.",
 "C44": "Proved for every history of constructions, appends, merges and rejections. Refuted when the identifier of a member is assigned afterwards.",
 "C45": "Proved for every sequence of gestures and answers, including sessions that wait or raise. C45_failures lists all reasons for which a session can raise.",
 "C46": "Proved up to one hundred sampling points if any value is observed. Refuted beyond: a row may be dropped after the points were counted; and with no observed value at all every point is reported without a mean. C46_correlation holds for all data: means, deviations and correlation in terms of the rows and points that remain. The correlation matrix itself (np.corrcoef) is a parameter. C46_outcome gives the exact result of the call for any number of points and C46_errors the ways it fails.",
 "C47": "Sub-matrix with aligned labels (aligned); exactly which rows and columns go, by an independent description of the two orders and of the gain that decides between them (choice); all rows or all columns are dense afterwards (dense).",
 "C48": "Proved for every suite with finite values and distinct x; missing values and attributes raise. NaN as a sampling point gives NaN. Infinite velocities and wavelengths: stated for two peaks (C48_infinite_velocity, C48_infinite_wavelength). With finite x and infinite y the whole resampling is described (C48_with_infinities), including opposite infinities, which give NaN.",
 "C49": "Proved for every supported combination with nonzero limits and frequencies; all others raise NotImplementedError.",
 "C52": "Refuted twice: from_dict removes the mask from the caller's dict, and merged suites share their members with the originals. Proved: a dict without a mask is unchanged, merging and appending change no other suite. Exact outcome: a rejection in a suite changes its members wherever they are held and nothing else (C52_reject_shared), stops at the first refusing member (C52_reject_stops), never reaches a suite without common members (C52_apart); the dictionary loses exactly its mask and a second object built from it has the same curves (C52_dict_outcome).",
 "C25": "Stated for EmptyWavefieldTransform.from_array and for the selection shared by all transforms; the frequencies are exactly grid points lo, lo+multiple, ... up to hi, where lo and hi are the first nearest points.",
 "C26": "Partial: proved for sequences of valid names when every divisor asked for is positive; refuted for silent frequencies (0/0 persists) and for refused names after a division (the in-place product at line 100 stays). C26_history gives the exact image after any sequence of accepted normalisations, silent frequencies included: a frequency is lost (NaN) from the first call that divides it by its zero maximum, and an overall division then loses all of them. C26_refused_history gives the exact effect of a refused name after a division: the undivided magnitudes are shown, and all later normalisations are those of the image multiplied by the maxima last divided by.",
 "C27": "Proved for real power; refuted for the complex power stored by the slant-stack transform, which numpy orders by real part.",
 "C28": "Proved for counts > 0, any initial content, any order; refuted when an empty transform (n=0) is stacked onto an empty one. Shapes are not compared: numpy broadcasting is modelled, incompatible shapes are refused without a change, and an axis of length one is repeated, so an image can get more rows or columns than velocities or frequencies (refuted). C28_image: an empty transform stacked and then normalised shows the magnitudes of the mean; refuted when it is normalised or plotted between two stacks (C28_looked_at_refuted: the stale maxima are multiplied onto the new stack).",
 "C29": "Slanted sums for every array and velocity list, and what a travelling wave gives at its own velocity.",
 "C33": "Partial: the value of bin i is reported at multiple*i*df, so it is right for multiple=1 and refuted for a padded pair with multiple 2.",
 "C34": "Linear spacing; np.geomspace is an abstract argument. Logarithmic spacing is exactly np.geomspace's answer, whose contract (ends and constant ratio) is a hypothesis.",
 "C30": "Whole-array theorem over the reals: shape, frequency selection, 0 <= power <= distance between outermost sensors, equality for plane waves (and for any travelling wavelet), NaN when a spectrum vanishes, invariance under per-trace positive gains. Rounding is not modelled; the discrete Fourier transform is defined by its sum.",
 "C31": "Any number of channels and blocks; all weightings and steerings (the Hankel phase is an arbitrary function). With 'invamp' and a vanishing spectrum the entry is not a number.",
 "C32": "Plane steering, every weighting; plane-wave spectra at the frequency, or a wavelet travelling along the array.",
 "C74": "The transform used is right, but the caller's settings are overwritten (refuted part).",
 "C50": "Whole-file and first-window theorems for files whose times and frequencies, used as regular expressions, match nothing else; equal-width decimals are shown to satisfy this. C50_document_partial states this for headers and lines as Geopsy writes them, with no reference to the reader's patterns; it needs that no header line looks like a data line (true of every .max file in the repository). Refuted in general: a time that ends another time, '.' as a wildcard, signed exponents, and lines marked invalid. Files that cannot be read: a slowness of zero anywhere is a ZeroDivisionError (C50_zero_slowness), more peaks than announced an IndexError (C50_too_many).",
 "C51": "Each file is read as it would be alone unless 'rayleigh' was requested and an earlier file was detected as vertical; refuted in that case. Which wave type a file announces is characterised (C51_announced); a header holding 'inf', or a first line whose noise is not a number, hides it, so vertical peaks of such a file are not found as 'rayleigh' (C51_vertical_refuted). Unknown wave types and Geopsy versions are refused.",
 "C53": "Proved for every rectangular matrix; rows without values get position = number of entries, hence come last.",
 "C54": "Growth terminates, regions inside, each column in exactly one region, maximal, dense when the first cell is observed (guaranteed after sorting if the first column has a value). Refuted: not always dense (first cell missing), not always returning (IndexError; ValueError beyond 100 regions).",
 "C55": "Proved; the generator is an arbitrary function of the draw number, mean and deviation. The replacement loop of from_data_matrix is characterised too: what it keeps, draws, accepts and rejects. Omitted means and deviations are those of the observed values of the column; a column with fewer than two observed values then has no deviation and its missing values stay missing (refuted).",
 "C56": "Refuted for every matrix with a missing entry when all locations have finite logarithms: the outcome is exactly ValueError; otherwise the input is returned. For arbitrary locations the outcome is characterised column by column, and an observed correlation can be overwritten.",
 "C57": "Refuted: every constructor path ends in an exception, for all inputs.",
 "C58": "Time-domain and single workflows refuse with ValueError for every settings dict; frequency-domain and cross-correlation workflows never return when the source is inside, but the exception may be another one because example array trimming / initial trim come before the check (refuted with witnesses).",
 "C59": "Complete equation for the time-domain workflow over all arguments of create_settings_dict; settings dicts not produced by create_settings_dict are covered by the model but not by this theorem.",
 "C60": "Refuted for every input: window_kwargs is stored under 'window_kwargs' and read as 'window kwargs', so it never has an effect.",
 "C61": "Mean proved when the records of all files agree in time step, delay, length; refuted otherwise (different time steps are accepted) and for a single name given as str.",
 "C62": "All histories of registrations over both registries.",
 "C63": "Unchanged for every transform but fk; refuted for fk with the exact settings left behind.",
 "C64": "All 27 arguments.",
 "C75": "Masw.run with the registered name time-domain-xcorr always raises TypeError; all other names behave as documented.",
 "C76": "Refuted for every input: the reported ratio is that of the first file.",
 "C77": "Refuted for every input: a positive trim begin together with a signal-to-noise ratio never returns.",
 "C65": "All theorems quantify over arbitrary sessions (clicks and confirmations) of the user.",
 "C78": "Partial: a key pressed within 0.3 s after the first point ends the picking with IndexError although the user was not asked (C78_stop_refuted).",
 "C66": "Tables of any length; obspy is an arbitrary record of read, add, merge, trim, fill and write functions. Partial only because a block that ends in the last hour of the year 9999 overflows (C66_last_hour_refuted). C66_unreadable and C66_minutes state where a run stops at an unreadable file and at impossible minutes or seconds.",
 "C79": "Partial: blocks that share folder, array and station overwrite each other (C79_refuted, C79_last_wins). C79_outcome is exact for every table of proper blocks and every way a run can end: the last extracted block of a name remains.",
 "C67": "Exact arithmetic over an arbitrary ordered field, all dimensions; includes the unique-minimiser and fixed-point characterisations and the LinAlgError case.",
 "C68": "Exact arithmetic over an arbitrary ordered field, all dimensions; includes existence for positive definite inputs, positive definiteness and shrinking variances.",
 "C80": "The transform's values are Fourier sums of the slanted sums at the reported frequencies; errors of the slant stack propagate.",
 "C85": "kres is pi over the smallest receiver gap; distinct wavenumbers below it are distinguishable; aliasing above it repeats the beamforming power.",
 "C81": "Curves, axes and refusals of the waterfall plot. Refuted for an array of one sensor (IndexError after drawing).",
 "C86": "Picks are independent of the axis orientation and end only by the user's keys. Refuted when the user passes axes (TypeError).",
 "C88": "The schematic's points and text, with the exact condition for a stated spacing.",
 "C82": "Points, keywords, label, axis titles and every refusal of Peaks.plot; the drawn points agree with the object's own properties; a mask overrides earlier rejections.",
 "C83": "Each member drawn once per axes in order with its own points, mask and keywords, on new and on given axes; the legend of new axes; refusals before drawing are atomic. Refuted: scalar non-str keywords, unique labels on given axes, atomicity of later failures.",
 "C84": "For every history of normalisations: the picture drawn, its levels, the peaks, the near-field line and the refusals. Refuted: that plotting leaves the object (and a later stack) alone; that every power can be plotted. Real power arrays; matplotlib's argument checks are recalled contracts.",
 "C87": "The text printed for a workflow is split into lines and each line read as a step; the runs of the single, time-domain and frequency-domain workflows without signal-to-noise ratio are proved equal to performing the announced steps in the printed order (the signal-to-noise steps are the only unannounced ones). Partial: the cross-correlation workflow is fully characterised (C87_xcorr), but correlates after trim and mute although it announces the opposite, and its title is that of the time-domain workflow.",
 "C89": "PeaksSuite.plot_resolution_limits: lines drawn, labels, styles and the warning, for every view, limits and keyword arguments. Not proved as a whole because it fails where the x-axis begins at zero (first point at infinity, C89_origin_refuted) and on axes with another scale (KeyError instead of the announced warning, C89_scale_refuted). np.geomspace is a parameter.",
 "C90": "swprocess.regex.get_spac_ratio and get_spac_ring. Not proved as a whole because a time asked for also matches the ends of longer times (C90_time_refuted): C90_ratios assumes that no other time of the file ends in something that looks like it. Time and ring as the caller gives them are a plain number and digits. C90_numbered: in every match the groups are numbered in the order of the columns.",
 "C91": "Peaks.from_dict and Peaks.from_json for every JSON document of lists and tables: accepted exactly when the first dataset holds peaks, with the data it holds; the exceptions of the other documents. C91_any: for trees of any depth, single values and texts that stand for numbers, accepted exactly when the trees are regular and the names admissible, with those arrays (without saying which exception refuses the others); C91_flat: on lists and tables the two models agree. C91_lists_refuted: single numbers, deeper lists and texts are accepted.",
 "C92": "Refuted: the constructor accepts them. Reading raises IndexError in every case; rejecting by limits or by a box of such an array raises and changes nothing, with the exact exception for limits. Refuted where numpy repeats a single value: one azimuth (or other quantity) given for many peaks decides the second side of a box for all of them, and one frequency gives every velocity a wavelength to be rejected by, although neither can be read. For tables the same holds for every shape that numpy stretches to the table of velocities (C92_broadcast_refuted); every other shape is refused with ValueError (C92_unfit).",
 "C93": "In double precision (Flocq's FLT format, round to nearest even): no overflow is modelled, the magnitudes of the theorems exclude it. Uses the axioms of Coq's real numbers.",
 "C94": "In double precision; complements the exact statement of C01. Magnitudes are bounded by M and up to 2^40 records are appended.",
 "C95": "In double precision; complements the exact statements on spacing. Positions within 1000 km.",
 "C96": "Sensor1C.from_trace with every argument and the trace readers of ActiveTimeSeries. Refuted: for a trace without a format of its own the format argument is lost in the inner call, and reading always fails (C96_no_own_format_refuted). Everything else is proved, including all errors. C96_spelling says which spellings of a format are recognised.",
 "C97": "Zero padding with every operation rounded to double precision (Flocq). The number of samples is exact; the frequency step is within eight rounding errors. Hypotheses: 1/(df dt) within 1/4 of a whole number up to 2^40; sampling interval between 1 ns and 100 s for the step.",
 "C98": "Which samples trimming keeps, in double precision: times within 0.49 of a sampling interval of a sample pick that sample. Hypotheses: interval at least 1 ns, at most 2^38 samples, delay of at most 2^38 intervals. C98_midway shows that 0.49 cannot be replaced by 0.5.",
 "C99": "The slant stack with every operation rounded to double precision. Refuted: 14 m of moveout at 140 m/s and 1 ms is exactly 100 samples; line 469 computes 99 and line 477 computes 100, so the sample after the last one is read and numpy raises IndexError, whatever the record length. Proved: this needs a largest moveout within nine rounding errors of a whole number of samples, and never more than one sample too many is read; the interpolation weights stay between 0 and 1 and each amplitude is the exact interpolation up to rounding. Not covered: the sum over receivers.",
 "C100": "np.linspace in double precision, as implemented by numpy. Hypotheses: at most 2^31 entries, range of at least 0.001. Logarithmic spacing is not covered.",
 "C101": "Hypotheses: at most 2^38 samples, sampling interval from 1 ns to 100 s, records of at most 10^8 s. The limits must be within 0.48 of the internal step of a multiple of the frequency step.",
 "C102": "One rounding for slowness and wavelength: no peak is lost by rounding. For the wavenumber an error bound only.",
 "C103": "Errors of matplotlib's errorbar are modelled for the shapes, negative bars and repeated arguments; other options are taken to be accepted. That statistics() can always be plotted assumes only that a square root is not negative.",
 "C104": "Settings are nested dictionaries of None, bool, int, float, str and dict; a value of another kind where a number is needed counts as a TypeError. The frequency-domain and cross-correlation workflows are covered by the statement that settings asking for the same give the same outcome; which entries a successful run needs is stated for the time-domain workflow and settings whose numbers, except the offset limits, are finite.",
 "C105": "Warnings of reading files and of padding as an output next to the result (WarnModel); results proved equal to those of HeaderModel. C105_files gives the warnings of every accepted call; those given before a refused call fails are modelled but stated only for a single trace (C105_sensor). Partial: C105_silent_partial leaves out y, which C105_silent_y_refuted shows can be wrong without a warning.",
 "C106": "Double precision. Sequences of the names none and frequency-maximum never move a peak, keep the greatest power of every frequency exactly, and give 1 exactly where the greatest power was. For every sequence the greatest power of the image is kept exactly and in place, and every other power changes by at most four rounding errors per call. Refuted in full: absolute-maximum can make two powers of one frequency equal, after which the other velocity is reported. Assumes no overflow and that the greatest power of each frequency is at least 2^-1000 (2^-400 for the statements on every sequence).",
 "C107": "Double precision. The mean and the standard deviation of the values present are exact up to two and five rounding errors per curve, in whatever order the entries are added, for up to 2^30 curves without overflow. Refuted in full: three curves with the velocity 0.1 have a mean above 0.1 and a standard deviation above zero; both stay within rounding.",
 "C108": "Double precision. No rounding lets a receiver outside the limits stay; the receivers kept are exactly those of the exact calculation when no limit is within one rounding error of an offset (refuted otherwise: a receiver just inside a limit can be removed). The centre distance and the resolution limit are exact up to a few rounding errors. No overflow; up to 2^30 receivers.",
 "C109": "Double precision, for any detrending function (numpy's is not modelled here). Samples of greatest size, and no others, become exactly +1 or -1, signs are kept, every value has one rounding error, a second normalisation and an exact change of units change nothing. The order is never reversed (different samples may become equal: refuted). Traces of zeros (0/0) are excluded; no overflow.",
 "C110": "Double precision, for every log10 and power of 10 with at most four rounding errors (those of the C library are not modelled). Velocities between 1e-6 and 1e6 m/s, limits at least 1 % apart, at most 2^31 of them.",
 "C111": "Double precision, for lines up to 1 s/m steep and 100 km away, times and delays up to 1000 s, dt of at least a microsecond, any window of doubles in [0,1]. Samples more than a thousandth of a sample outside the lines are exactly zero, the others keep their sign and do not grow. Refuted: at 0.3 s with dt = 0.1 s the mute starts at sample 2, not 3.",
 "C112": "Double precision. For any method with errors of at most E the best lag is found if it is better by more than 2E; for the direct method, in any order of additions, E is about 1.1 n rounding errors of the sum of magnitudes. The shift itself is exact. Refuted without margin: two products are rounded to the same number and the first is chosen. Up to 2^30 samples; no overflow.",
 "C113": "Double precision: the rounded exponent, exp through any cos and sin with two rounding errors, the complex product and quotient, the trapezoidal rule with the sum in any order and the magnitude. The bound on the error is proportional to the length of the array, to the largest phase and to the number of receivers; the peak is found if it is ahead by more than twice the bound. The spectra of the receivers (numpy's FFT) enter as given doubles with magnitude between 2^-400 and 2^400; no overflow.",
 "C114": "Double precision. The bounds of the kept window of lags are at most one sample away from the exact ones and equal to them unless a time is within a thousandth of a sample of a sample; the window is never inverted, reaches lag zero, and is monotone in velocities and offsets. Refuted in general: 1 m at 50 m/s with 1 ms is computed as sample 20 although the exact quotient of the doubles is below 20. Offsets up to 10 km, velocities from 1 m/s, sampling intervals from 1e-7 s to 1 s.",
 "C115": "Double precision: normalisation, mean of the first ten samples (additions in any order), difference and comparison. The pick is right up to a band of 15 rounding errors about the threshold and fails only if no sample is above the band. Refuted without the band: a quotient is rounded to the threshold. Detrending is any function; no overflow.",
 "C116": "Double precision: numpy's interp, to which scipy's interp1d leads for doubles, with every operation rounded (no fused multiply-add). Values at the points are exact, values outside are NaN, between two points the error is at most six rounding errors of the step and two of the larger value, and exact between equal values. That the value lies between its neighbours is refuted (1.9, 0.5), (6.6, 3.5) just before 6.6; it holds up to that error. Points are taken sorted, as interp1d leaves them, with distinct places.",
 "C117": "IEEE binary64 as it is (Flocq's BinarySingleNaN): infinities, one NaN, signed zeros, overflow. Without overflow the stack is the one of C94, so that its error bound carries over; the hypothesis is that the number of stacks times the greatest sample is in range. Refuted without it: stacking the greatest double with itself gives infinity. A bad sample is never averaged away.",
 "C118": "IEEE binary64 as it is: what each normalisation makes of a NaN, of an infinity, of a trace of zeros, and of a usual trace, for every matrix. That a bad trace leaves the others alone holds for each and is refuted for all. detrend is any function.",
 "C119": "Double precision, without overflow: the distances, the interpolated amplitudes of C99, the halves, products and sums of the trapezoidal rule are all rounded; the additions of np.sum are in any order (a tree). The bound is the length of the line times the error of one amplitude plus (5 + 3 n) rounding errors of the greatest amplitude; for 100 receivers on 100 m, unit samples and moveouts of 1000 samples it is below 1e-9 (C119_digits).",
 "C120": "IEEE binary64 as it is: for images of finite powers whose columns all reach 2^-400 and that do not exceed 2^400, every sequence of normalisations gives finite powers, equal to those of FloatNormModel.v (so that C106 holds without its assumption of no overflow), with the same peaks. Refuted for other finite images: normalising by the greatest of all and then by frequency makes a weak frequency NaN.",
 "C121": "FloatBeamProps.v: in doubles the power of the frequency-domain beamformer with plane steering is the squared absolute value of the steered sum of the weighted spectra up to (25 T + 9 n + 41) 2^-53 of the power of waves in phase, for n receivers, phases up to T and any order of the sums; the same holds for the absolute value shown, and the imaginary part is of that size; a peak that stands out by twice the error is found. Without overflow; the spectra enter as given doubles; BLAS without fused multiply-add.",
 "C122": "SourceObjProps.v. Refuted: arrays whose sources emitted different signals compare equal although cross-correlating them gives different arrays; a copy of any array has no source signal, so that cross-correlating it raises AttributeError. Proved: the exact meaning of equality, what copies keep, reading of arrays with a source signal, and which signal and velocities the cross-correlation uses.",
 "C123": "FloatFileProps.v. Proved: samples come back within single precision and close in the sense of allclose (infinite from 2^128-2^103 on), single-precision samples exactly, in the same order; time steps of whole microseconds up to 65535 are written as such and come back within six rounding errors, others within 0.51 microseconds; a second round trip changes nothing. Refuted: obspy keeps the sampling rate, so that 0.00024 s comes back as a neighbouring double, and the record read is not equal to the one written, because time steps are compared exactly.",
 "C124": "Proved for every program over sensors and arrays as objects: an array refers to the sensors it is made of; its methods act on these objects; distinct, existing, position-ordered sensors in every history; copies and cross-correlated arrays have their own sensors; arrays apart never affect each other under any interleaving; careful programs keep all arrays consistent. Refuted: isolation of arrays made of the same sensor (cutting one spoils the other). Assumes sigpropy stores a fresh copy of the samples. Working on a sensor directly does what its method says and nothing else (C124_sensor); made and copied sensors are new (C124_new_sensor); records of different lengths give the matrix and the mute of C124_ragged_matrix and C124_ragged_mute.",
 "C125": "Proved for every environment, every settings made by create_settings_dict, every file and number of repetitions, for transforms that report finite power on the grid of the empty transform and refuse arrays for which that grid is refused (standard, needs_axes).",
 "C126": "Proved for every environment, every list of files with alike records and every order of them, for transforms that report finite power on the grid of the empty transform (standard). C126_order also carries success over, without a signal-to-noise ratio; C126_image covers runs with one when both orders complete. C126_muting_matters exhibits a run with muting whose image changes with the order.",
 "C127": "Proved for every reader, every first file and every permutation of the further files, in exact arithmetic, with success as part of the statement; C127_time_domain and C127_xcorr carry it to the workflows. C127_first_matters shows that the first file may not be exchanged.",
 "C128": "Proved in exact arithmetic for every displacement, exceptions included. The workflows are compared under map_x with the displacement added (C128_masw for one file, C128_frequency_domain for any list), or for any surroundings whose loaded records are moved (C128_time_domain, C128_xcorr). Several stacked files under a moved map_x are not covered because from_files does not apply map_x to the further files (see C20). The transforms must not look at absolute positions; the model's slant stack and empty grid are shown not to, phaseshift and fdbf enter as functions with that hypothesis.",
 "C129": "Proved in exact arithmetic. A source off either end gives the transforms the very same records and offsets; otherwise the slant stack may change its sign, not its magnitudes (C129_image). Refuted for trim_offsets, which stops at the first receiver that is too far (C129_trim_offsets_refuted). Phase-shift and beamforming images are identical for a source off either end (C129_other_images); for a source between the receivers only the slant stack is covered.",
 "C130": "Proved in exact arithmetic for one gain applied to every record. The signal-to-noise theorem takes any magnitude spectrum that grows with the gain. For phase shift each channel may even have its own gain (C30_amplitudes).",
 "C131": "Proved in exact arithmetic for every positive factor, except for spacing, which compares with and rounds to 0.01 of whatever unit is used (C131_spacing_refuted).",
 "C132": "Proved in exact arithmetic for every positive factor, except for correlation with the source signal, which starts 0.5 early in whatever unit of time is used (C132_xcorrelate_refuted).",
 "C133": "Proved in exact arithmetic for detrending, trimming, zero padding, muting, correlation with the source signal, slant stacks and the slant-stack image. Phase-shift and beamforming images divide by amplitudes and are not covered."
}