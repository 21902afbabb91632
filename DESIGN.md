# Formal model of swprocess: design

The Python sources under `/repo/swprocess` are modelled function by function in
Coq 8.16.1 (`/verif/rocq/theories`, logical name `Verif`), and the properties of
`properties.jsonl` are stated and proved about that model.

## 1. Layout

Flat directory. Per area `XxxModel.v` (definitions only, each citing file and
lines), `XxxSpec.v` (small definitions a reader of the English property needs,
independent of the model's helpers), `XxxProofs.v` (lemmas), `XxxProps.v` (the
property theorems, named `Cnn_...`, each closed by `exact`, followed by
`Print Assumptions`, with `Example`s showing that the hypotheses can be met).

* `Py.v`: Python exceptions as values, the result type, mutating methods as
  `state -> state * result A`, slices, negative indices.
* `Num.v`: rationals `Qc` with decidable comparisons, Python `round`/`int`.
* `Flt.v`: `flt` = finite rational, +inf, -inf, nan with IEEE comparison rules.

A method that mutates and then raises returns the *mutated* state together with
the exception, so "a failed call changes nothing" is a real statement.

Suffixes: `_partial` = proved under an extra hypothesis or for part of the
property, the comment says what is missing; `_refuted` = the property as the
user would want it is false of the code, and the theorem exhibits a witness.

## 2. Numbers and the trusted base

* Coq's kernel (and `vm_compute`, used for witnesses and examples).
* `Print Assumptions` output per theorem: see section 5.
* Floating point: amplitudes, times and coordinates are exact rationals (`Qc`).
  Rounding error and signed zero are not modelled; NaN and infinities are
  modelled (`flt`) wherever the code distinguishes them. Where code only moves
  and compares values the model is generic in the carrier.
* `np.pi` is represented by its exact double value.
* Spectra: complex numbers are pairs of Coq's real numbers (`Reals`); the FFT is
  the defining sum of the discrete Fourier transform; pi is the real pi there.
  These theorems use the axioms of the standard library's real numbers
  (section 5).
* Contracts of libraries not in /repo, written as model definitions from their
  documentation: sigpropy `TimeSeries` (constructor, `trim`, `detrend`, `time`),
  numpy (argmin/argmax, delete, linspace, mean, interp1d, slices, broadcasting
  rules), scipy `correlate`, obspy header attributes, json, matplotlib events
  (modelled as arbitrary event lists).

## 3. Per property: what is modelled and how it is proved

| id | model | proof |
|----|-------|-------|
| C01 C02 | `stack_append`, `_is_similar` of series and sensors | induction on the list of appended records with the invariant "n*amp = sum n_i*a_i"; permutation invariance of the sum |
| C03 C04 C05 | `zero_pad` with every branch and exception, `df`, `multiple` | integer arithmetic on quotient/remainder; induction over the padding history; C05 refuted by witness, guarded theorem for the rest |
| C06 C07 C24 | `trim` of series and array, `time` | characterisation of argmin over an arithmetic progression; C07 refuted off the grid, proved on the grid, error bound dt/2 in general |
| C08 | copy constructors, constructor check | refuted (positive delay after trim; frequency step lost), proved for the remaining states |
| C09 C10 | `crosscorr`, `crosscorr_shift`, `from_cross_stack` | correlation as a double sum over all lags, argmax = first maximum |
| C11 | `__eq__` via `np.allclose` | reflexivity and metadata proved; symmetry refuted by witness |
| C12 C13 C14 | SU/SEGY/SEG2 header decoding and SU writing | rounding lemmas; y coordinate, stack count and scalar cases refuted |
| C15 C16 | `_check_array`, all mutators | sorting = unique sorted permutation; invariant over operation lists |
| C17 C18 | `_flipped_tseries_and_offsets`, `trim_offsets` | monotonicity of offsets; index loop characterised; refuted at boundary/right source |
| C19 C20 | `from_files` over decoded traces | fold over files; refuted for unequal trace counts / maps |
| C21 | `mute` with arbitrary taper | loop invariant over sensors; outcome decided by the two sample numbers of each sensor (MuteProofs.v); refuted for the one-sided default, positive delays and windows before the record |
| C22 C69 | `timeseriesmatrix`, linear detrend | order/absolute value lemmas; least-squares normal equations |
| C23 | `xcorrelate` slice indices | Python slice lemmas; refuted |
| C25 C33 C34 | `_frequency_keep_ids`, SNR, `linspace` | arithmetic progressions |
| C26 C27 C28 | `normalize`, `find_peak_power`, `stack` | invariant `power * to_abs = original`; induction over call lists |
| C30 C31 C32 | phase shift, FDBF over a closed field | triangle inequality, Hermitian forms, Cauchy-Schwarz |
| C35-C39 | `Peaks` masks, generic arrays | pointwise lemmas over masks, induction over histories |
| C40 C41 C42 | JSON as a tree, files as association lists with crash points | structural induction; crash safety refuted |
| C43 | `Peaks.__eq__` | reflexivity; masking counterexample |
| C44 C52 | suites, heap of Peaks references | induction over histories; aliasing witnesses |
| C45 | `interactive_trimming` as an event machine | invariant over event lists |
| C46 C47 C48 | `_drop`, `statistics`, `to_array` | loop invariants; refuted above 100 points |
| C49 | `calc_resolution_limits` | field arithmetic |
| C50 C51 | regular expressions as an executable backtracking matcher, `_parse_peaks`, `from_max` | matcher lemmas; refuted (suffix match, leaking wave type) |
| C53-C57 | `Statistics` helpers, the replacement loop and the filling of correlations | sorting, loop invariants, random stream as an arbitrary function, cell-by-cell description of what filling writes; several refuted |
| C58-C64 | workflows as step sequences over an abstract environment, settings dict, registries | case analysis, induction over registrations/files |
| C65 | `ginput_session` over event lists | induction |
| C66 | hour enumeration | induction on the number of hours |
| C70 C71 C72 | `mute` failures, `spacing`, `auto_pick_first_arrivals` | witness; rounding lemmas; first index |
| C67 C68 | matrices over a field (mathcomp) | matrix algebra |
| C73 | `Array1DwSource.from_files` source averaging | induction over the files |
| C25 | TransformModel.frequency_keep_ids, empty_from_array | argmin characterisation, range arithmetic |
| C26, C27 | TransformModel.normalize, find_peak_power over an abstract entry type with laws | invariant: power times factor is the original magnitude |
| C28 | TransformModel.stack (with numpy broadcasting) | induction over the stacked list; entrywise for shapes that differ |
| C29 | TransformModel.slant_stack_of with incremental column indices | loop invariant: columns = tau index + lower index |
| C33 | TransformModel.snr_from_arrays, spectrum abstract | as C25 |
| C34 | TransformModel.create_vector | arithmetic |
| C30-C32, C74 | `BeamModel.v`: discrete Fourier transform, phase shift, correlation matrix, weighting, steering, beamformer, f-k settings over Coq's reals | `BeamProofs.v`, `BeamPowerProofs.v`, `BeamArrayProofs.v`: complex arithmetic, triangle inequality, beam power as mean of squared moduli, shift theorem, transfer to arrays |
| C50, C51 | regex.py patterns on a backtracking matcher, Peaks._parse_peaks, PeaksSuite.from_max | soundness and completeness of the matcher, words of a line, counting of matrix entries |
| C58-C64, C75-C77 | `WorkflowModel.v`: settings dicts as association lists, registries, all four workflows step by step over an environment (files, user picks, tapers, spectra, transform classes) | steps equal a plan of actions (`WorkflowSpec.v`); induction over files and registration histories; witnesses by computation |
| C65, C78 | `InteractModel.v`: a user as streams of clicks and confirmations; ginput_session, interactive_mute | `InteractSpec.v` accepted points; induction over rounds |
| C66, C79 | `ExtractModel.v`: Gregorian calendar, hourly loop, names, table loop over an arbitrary obspy record; effects as a trace | `ExtractSpec.v` hour numbers; next hour is +1, lexicographic order is numeric order, names injective, induction over hours and rows |
| C67, C68 | `InversionModel.v`: matrices over a field (mathcomp), singular inverse as LinAlgError | `InversionProofs.v`: Woodbury identity via H Cp G' = G' Cd^-1 S, completion of the square, positive definiteness |
| C80 | SpectrumModel.slant_transform (fft with n=) | Fourier-sum lemma for zero-padded rows combined with the slanted-sum theorem of C29 |
| C85 | SpectrumModel.kres | telescoping gaps for increasing positions; 2 pi periodicity of the exponential; the beam of an aliased velocity differs by a unit factor |
| C81 | WaterfallModel.waterfall (drawing = list of calls on the axes) | symbolic run; telescoping mean gap; C22 rows; bound on the normalised record |
| C86 | WaterfallModel.manual_pick on InteractModel.ginput_session | swapping coordinates commutes with the session; C65 for the accepted points |
| C88 | WaterfallModel.schematic | nth-form of np.diff and the spacing lemmas of C71 |
| C82 | `PlotModel.v`: an Axes as the list of what was drawn and set | points by the masked-array lemmas of the Peaks family |
| C83 | `PlotModel.suite_plot` over axes, keyword dealing, shared label | induction over members with the axes' legends as invariant; witnesses for the refutations |
| C84 | `ImageModel.v`: normalisation, contour levels, peaks, near-field line, argument checks | invariant of C26 over the history; uniqueness of the normalised matrix; witnesses for the refutations |
| C87 | DescribeModel.v: the four `__str__` methods as strings, on top of WorkflowModel.v | lines of the text are interpreted as actions (DescribeSpec.v); equality of the run with `perform` of the announced actions; witness for the cross-correlation order by computation |
| C89 | LimitsPlotModel.v on top of SuiteModel.calc_resolution_limits, PlotModel artists and TransformModel.create_vector | algebra of C49, evenness of linspace, style by cases; witnesses for axes from zero, universal negative for other scales |
| C90 | SpacModel.v: the two patterns as terms of the regular expressions of Regex.v | greedy matching of every line by induction over the file, on top of the search lemmas of C54; witness for the unanchored time |
| C91 | PeaksModel.from_dict/from_json on arbitrary documents, PeaksTreeModel.tree_from_dict on trees of any depth | equivalence with an independent relation between documents and arrays, by induction over the arrays and the trees; the two models agree on lists and tables |
| C92 | PeaksModel with arrays of unequal shapes | case analysis on the attribute; witness for the constructor |
| C93 | FloatModel.v: reading and writing of coordinates and delays over Flocq's doubles | error bound of one rounding, propagated; an integer within one half is the nearest one |
| C94 | FloatModel.v: stack_append over doubles | error of one append by three roundings; exact stacking does not expand errors; induction over the history |
| C95 | FloatModel.v: spacing over doubles | extremes of the list of differences, rounding error of each |
| C96 | TraceModel.v: from_trace with all arguments, formats and headers independent of each other | case analysis; equality with the reader of HeaderModel.v; universal negative for traces without a format |
| C97 | FloatPadModel.v: zero_pad over doubles | relative error of each division, integers exact below 2^53; nearest integer unique when the error stays below one half |
| C98 | FloatPadModel.v: sample times and trimming over doubles | error of each product and sum; the nearest sample wins when the others are further than the accumulated error |
| C99 | FloatSlantModel.v: indices, weights and amplitudes of the slant stack in IEEE doubles | relative error of each operation; monotonicity of rounding; Lipschitz bound of the interpolation; the witness rounds concrete numbers |
| C100, C101, C102 | FloatAxisModel.v: np.linspace, the frequency grid and derived coordinates in IEEE doubles | relative errors, monotonicity of rounding (a rounded number passes a double only if the exact one does); C101 on top of the nearest-sample lemma of C98 |
| C103 | StatPlotModel.v: plot_statistics and the argument checks of errorbar | lookup in merged dictionaries; lengths of the results of statistics() |
| C104 | WorkflowModel.v on arbitrary settings; SettingsSpec.v says what settings ask for | look-up by path, step by step; two settings with the same request are related through every step of every workflow |
| C105 | WarnModel.v: every reader of HeaderModel with the list of warnings it gives, zero_pad with its warning | erasing the warnings gives HeaderModel (C105_values); exact list per trace and per accepted call; silence implies the header's values except y (refuted); padding warns iff the step differs |
| C106 | FloatNormModel.v: product with the stored factor, magnitudes, maxima, quotients and argmax over FLT doubles | FloatNormProofs.v: a quotient of two different doubles is at most the double before 1 and times a normal double is below it; induction over the calls with the set of greatest entries as invariant; error by induction. Counterexample with two neighbouring doubles for absolute-maximum |
| C107 | FloatStatModel.v: np.nanmean and np.nanstd of a column over FLT doubles, for every order and bracketing of the sums | FloatStatProofs.v: induction over the bracketing (additions have a pure relative error), the shift of the sum of squares by the error of the mean, square roots of perturbed numbers; counterexample with three equal doubles |
| C108 | FloatOffsetModel.v: offsets, trimming loop, mean offset and kres over FLT doubles | FloatOffsetProofs.v: rounding is monotone and keeps doubles, hence an offset passes a limit only if the exact one does; relative error of subtractions; the mean of FloatStat |
| C109 | FloatTracesModel.v: timeseriesmatrix over FLT doubles with any detrending function | FloatTracesProofs.v: the quotient of a double by a larger one is never rounded to one (FloatNormProofs.v), rounding is odd and monotone |
| C110 | FloatGeomModel.v: np.geomspace over FLT doubles with any accurate log10 and power | FloatGeomProofs.v: error of the logarithms, of linspace (C100) and of the power, bounds on exp near zero |
| C111 | FloatMuteModel.v: mute of one receiver over FLT doubles with any window | FloatMuteProofs.v: count of rounding errors through slope, time and index; truncation is monotone |
| C112 | FloatXcorrModel.v: correlation by rounded products added in any order, argmax, shift | FloatXcorrProofs.v: error of sums of products (FloatStatProofs.v), an argmax is not changed by errors below half of the margin |
| C113 | FloatPhaseModel.v: exponent, complex product and quotient, trapezoidal rule and magnitude with every operation rounded | FloatPhaseProofs.v: errors of the phases (cos and sin are 1-Lipschitz), of the panels and of the sum (FloatStatProofs.v), triangle inequality for the magnitude |
| C114 | FloatWindowModel.v: truncated quotients of rounded times | FloatWindowProofs.v: error of at most a thousandth of a sample (FloatMuteProofs.v), monotonicity of rounding and truncation |
| C115 | FloatPickModel.v: normalised trace, mean of ten, first difference above the threshold | FloatPickProofs.v: error of each computed deviation (FloatStatProofs.v), first index by induction |
| C116 | FloatInterpModel.v: search of the interval, slope, product and sum with every operation rounded | FloatInterpProofs.v: relative errors of the slope and of the product, convexity for the size of the result; ties to even for the witness |
| C117 | FloatIeeeModel.v: stacking over Flocq's binary64 with infinities, NaN and overflow | FloatIeeeProofs.v: bounds by multiples of a power of two, which are doubles; induction on the history; refinement of FloatModel.v; counterexample by computation |
| C118 | FloatIeeeModel.v: NaN-propagating maximum of absolute values, division by it | FloatIeeeProofs.v: invariants of the fold for NaN, infinity and finite samples; refinement of FloatTracesModel.v |
| C119 | FloatTaupModel.v: trapezoidal rule of the slant stack over FLT doubles, with any order of summation | FloatTaupProofs.v: error of one piece from C99's amplitudes, induction over the receivers, error of a sum in any order (FloatStatProofs.v) |
| C120 | FloatIeeeImageModel.v: normalize and find_peak_power over Flocq's binary64 | FloatIeeeImageProofs.v: invariant that either nothing is normalised or all powers are at most one; refinement of FloatNormModel.v step by step; counterexample by computation |
| C121 | `FloatBeamModel.v`: spectra, spatiospectral correlation matrix, weights, steering and the two matrix products of the frequency-domain beamformer in doubles, sums in any order | backward error of complex products, error of the angle, permutation bound of rounded sums; exact power by the factorisation of the quadratic form |
| C122 | `SourceObjModel.v`: sources with and without a signal, the two classes of arrays, equality, copies, source files with integer or floating-point samples | case analysis on top of the array proofs (C08, C11); counterexamples by computation |
| C123 | `FloatFileModel.v`: samples rounded to binary32 with overflow, the time step through obspy's sampling rate and whole microseconds, allclose in doubles | Flocq's error bounds, the binade below 2^128 rounded by hand; concrete doubles for 240 microseconds |
| C124 | ArrayShareModel: sensors and arrays as objects, arrays as lists of references, one statement after another | invariant of all programs (distinct, ordered references), frame lemmas for the cells, non-interference by induction over the calls, consistency of careful programs; a shared sensor refutes isolation |
| C125 | WorkflowModel, both workflows | the plain steps of a file repeat without further effect once its lines and windows are chosen (relation between workflow states); the padding commutes with the ratio; the running mean of equal images is that image; success carries over because loaded records are alike |
| C126 | WorkflowModel, frequency-domain workflow | without muting, what a step makes of the records depends on the records alone, so each file determines its image; permuted files give permuted images; the running mean is the mean, which is invariant under permutation; for muting, a user whose picks follow the record shown |
| C127 | HeaderModel.stack_files, source_signal, WorkflowModel | two neighbouring files can be exchanged: the weighted update commutes and the comparison ignores samples and stack counts; induction over the permutation |
| C128 | ArrayModel, HeaderModel, WorkflowModel | every operation commutes with a displacement because positions enter only through differences; carried through each workflow step |
| C129 | ArrayModel, TransformModel.slant_stack, SpectrumModel, HeaderModel | each operation commutes with the mirror image; reversing the channels negates every trapezoid of the slant stack, by induction over the velocities |
| C130 | ArrayModel, TransformModel, SpectrumModel, BeamModel | each operation commutes with a constant factor; quotients of magnitudes lose it; order is kept by a positive factor |
| C131 | ArrayModel, TransformModel, SpectrumModel, BeamModel | each operation commutes with a change of unit because lengths enter through quotients and comparisons; witnesses for spacing |
| C132 | ArrayModel, TransformModel, SpectrumModel, BeamModel | each operation commutes with a change of unit because times enter through quotients and comparisons; a witness for correlation |
| C133 | ArrayModel, TransformModel, SpectrumModel | both surveys as one survey of pairs, on which every operation is shown to commute with each linear map of a pair; instantiated with both members and their sum |

## 4. Which parts of the code are modelled

| file in /repo/swprocess | modelled | not modelled |
|---|---|---|
| `activetimeseries.py` | constructor checks, stacking, trimming, detrending, padding, cross-correlation and shifts, comparison, similarity, copies, trace readers (SeriesModel, FloatModel, FloatIeeeModel, FloatPadModel, FloatXcorrModel, TraceModel, Detrend) | `__repr__`, `__str__`; sigpropy's own methods except by their contract |
| `sensor1c.py` | all readers, copies, similarity, comparison (SeriesModel, HeaderModel, TraceModel) | warning texts |
| `source.py` | all (ArrayModel; SourceObjModel) | `__repr__` |
| `array1d.py` | construction, ordering, offsets, spacing, trimming, padding, muting (also the interactive loop), flipping, normalisation, picking, files, similarity, comparison, waterfall and array plots up to the calls of matplotlib (ArrayModel, ArrayShareModel, SourceObjModel, FloatFileModel, HeaderModel, WaterfallModel, PlotModel, InteractModel, FloatModel, FloatOffsetModel, FloatTracesModel, FloatMuteModel, FloatWindowModel, FloatPickModel, FloatIeeeModel) | fonts and colours |
| `interact.py` | the state machine over arbitrary events (InteractModel) | matplotlib's event loop |
| `masw.py`, `maswworkflows.py`, `register.py`, `snr.py` | every workflow step, the registries, signal-to-noise, descriptions (WorkflowModel, DescribeModel) | progress messages |
| `wavefieldtransforms.py` | construction, settings, the four transforms, beamformers, normalisation, peaks, stacking, plotting (TransformModel, BeamModel, SpectrumModel, ImageModel, FloatSlantModel, FloatTaupModel, FloatBeamModel, FloatPhaseModel, FloatAxisModel, FloatGeomModel, FloatNormModel, FloatIeeeImageModel) | the FFT algorithm: the defining sum is used |
| `peaks.py`, `peakssuite.py` | everything except the look of plots (PeaksModel, SuiteModel, PlotModel, LimitsPlotModel, StatPlotModel, MaxModel, ExtractModel, FloatStatModel, FloatInterpModel) | nothing else |
| `regex.py` | all patterns in use, and the SPAC patterns (Regex, MaxModel, SpacModel) | |
| `stats.py` | all (StatsModel) | the random numbers and `curve_fit` are parameters |
| `inversion.py` | all (InversionModel) | |
| `utils.py` | all (ExtractModel) | the spreadsheet reader and obspy by contract |
| `meta.py` | the check of geopsy's version (MaxModel) | the version number of the package |
| `spaccurve.py`, `spaccurvesuite.py` | nothing: the files consist of comments | |

Simplifications are stated in the comment of each definition. The main ones:

* Arithmetic is exact (`Qc`, real numbers, matrices over a field) except in
  the files Float*Model.v, where it is that of IEEE doubles without overflow.
* Functions of numpy, scipy, obspy, json, sigpropy and matplotlib are represented by
  their contracts. Those that return arbitrary data (`np.sqrt` on rationals, `corrcoef`,
  random numbers, `curve_fit`) are parameters, and the theorems hold for all of them.
* Warnings are an output only in WarnModel (reading files, padding); log messages are not recorded, except where a property is about them.
* Python's dynamic typing is reproduced only for values that reach the functions from
  files or keyword arguments; elsewhere arguments have the documented types.

The model against the repository's own tests. `Test*.v` state the expected values of
/repo/test as `Example`s about the model: `TestSeries.v` (test_activetimeseries.py),
`TestArray.v` (test_sensor1c.py, test_source.py, test_array1d.py, test_interact.py, test_snr.py),
`TestPeaks.v`, `TestSuite.v` (test_peakssuite.py, test_stats.py) and `TestTransform.v`
(test_wavefieldtransforms.py, test_register.py, test_utils.py and the descriptions in
test_maswworkflows.py). All agree. They are tests of the model, not proofs of properties;
each file says what it leaves out (example recordings, mocked calls, random numbers).
The tests of `from_max` on the repository's `.max` files take minutes, so `tools/testmax.py`
writes them outside the build: the five of
test_peaks.py pass (4 minutes); of the two of test_peakssuite.py (three block
sets) the Rayleigh one passes and the Love one has not been run to the end.

## 5. Assumptions

No axiom is declared in this development. `tools/assumptions.py` groups the theorems by
the output of `Print Assumptions` (after a build); its result:

* all theorems not named below: closed under the global context;
* `C93_multiplied C112_lag`: `ClassicalDedekindReals.sig_forall_dec`,
  `FunctionalExtensionality.functional_extensionality_dep`;
* `C30_amplitudes C30_power C31_cells C31_matrix C31_power C31_zero C32_peak C74_fk
  C74_settings_refuted C80_errors C80_spectrum C85_alias C85_distinct C85_few C85_kres
  C85_power_repeats C121_bound C129_image C129_other_images C130_beamforming
  C130_image C130_phase_shift C131_beamforming C131_image C131_phase_shift
  C132_beamforming C132_phase_shift C132_slant_stack C133_image`: these two and `ClassicalDedekindReals.sig_not_dec`;
* `C30_travelling C32_travelling` and the other theorems of C93-C95 and C97-C102, C106-C121, C123: these three
  and `Classical_Prop.classic`.

All four are axioms of Coq's standard library, used there to build the real numbers (and,
for `classic`, used by its lemmas and by those of Flocq). `vcheck` also lists entries of
`Coq.ssr.ssrunder.Under_rel` and of the module `RbaseSymbolsImpl` of `Coq.Reals`: these
come from sealed modules of the standard library that are loaded, not from this development.

## 6. Tests against wrong programs

`seeded/LOG.jsonl` has one line for each edit of the model that was tried: edits written by hand, and edits
generated by replacing operators, constants, branches and exceptions. Edits that do not type-check are left
out. A theorem is listed as failed when its proof, or a lemma it rests on, no longer goes through. For a
generated edit this shows that the proof depends on the edited part, not always that the claim has become false.

Not every edit was caught. Lines whose claim starts with `survived this run` are edits for which no theorem
failed; most of them change the kind of an exception on a path about which no property speaks. They have
not been tried again with the theorems added later. Lines marked `inconclusive` are builds that timed out or
ran out of memory. Lines that say `read and judged equivalent` rest on reading alone, not on a proof.
