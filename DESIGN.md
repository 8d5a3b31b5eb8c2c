# Formal model of Timeseria in Rocq (Coq 8.16.1)

This file says what is modelled and how, what each theorem rests on, and, property by property, what is proved and how.
Sections 5 and 6 are generated by `tools/design.py` from `properties.jsonl`, `MANIFEST.json`, `tools/notes.json` and the
citations in the model files; the rest is written by hand in `tools/design_head.md`.

## 1. Modelling conventions

* **Numbers.** Epochs, data values, indexes, weights are exact canonical rationals (`Qc`). Python floats are modelled only in
  `Float*.v` (from C89 on), where every operation rounds as IEEE 754 double precision does; elsewhere there is no rounding, and nowhere inf; a `nan` produced by numpy is the error `NotANumber`. Where the code copes deliberately with rounding
  (`_is_close`, the tolerance in `__succedes__`, rounding of the sampling interval) that arithmetic is modelled.
* **Exceptions.** A Python call is a value of `result A := Ok a | Err exc`. Calls which change an object return the *new state* also
  when they raise, because several of them change it before raising; so "refused calls have no effect" is a statement which can fail
  (and does: C04, C48, C79).
* **Dictionaries** are insertion-ordered association lists with string keys.
* **Items** are records: class, start, end, unit, timezone, data (list or dictionary of numbers), indexes, weight. Series are
  records with the items, the previous time, the resolution (kept by the code incrementally), the timezone and the reference for the
  checks on the data.
* **Aliasing.** Python objects shared between a series and the result of an operation are modelled where they matter, in `Alias.v`
  (a heap with addresses), used for C35. Elsewhere values are copied.
* **External code** (propertime, the calendar, datetime formatting, numpy, scipy, sklearn, keras, prophet, statsmodels/pmdarima, the
  json module, the disk) is not modelled: where the code calls it, the model has a parameter, universally quantified in the theorems,
  and what is assumed of it, if anything, is a hypothesis in the statement of the theorem. Section 4 lists them all.
* **Loops** are structural recursion; the one `while` loop whose termination is not clear has fuel, and the theorems say when the fuel
  suffices, or that no fuel does (C39).
* **Calendar units** (days, weeks, months, years) are a function from an epoch to an epoch (`cal`), so daylight saving time changes
  and months of any length are included.

## 2. Files (rocq/theories)

Model files hold definitions, each with the file and lines it models. `Spec*.v` hold the specification vocabulary: short definitions,
independent of the model's helpers, which say in terms of items, times, labels and values what the theorems are about. `*Proofs*.v` hold
the lemmas. `Prop*.v` hold the theorems (named `Cnn_...`), each with `Print Assumptions`, and the examples which show that their
hypotheses are met by concrete cases.

| model | specification | theorems | models |
|---|---|---|---|
| Base.v | - | - | results, rationals, dictionaries, Python list access |
| Items.v, Series.v | SpecSeries.v | PropSeries.v (C01-C08, C16) | datastructures.py: points, slots, series and their mutation |
| Access.v | SpecAccess.v | PropAccess.v (C09-C15, C17-C20) | datastructures.py, operations.py: access, slices, views, timezones, dictionaries, labels |
| Ops.v, Alias.v | SpecOps.v, SpecCalculus.v | PropOps.v, PropOps2.v (C21-C35), PropCalculus.v (C101) | operations.py |
| Intervals.v | SpecIntervals.v | PropIntervals.v (C36-C41) | utilities.py, interpolators.py: validity regions, coverage, data loss, sampling interval, interpolation |
| Transform.v | SpecTransform.v | PropIndexes.v (C100), PropTransform.v (C42-C47, C68) | transformations.py |
| Models.v | SpecModels.v | PropModels.v (C48, C50) | models/base.py: life cycle, checks, cross validation |
| Save.v | SpecSave.v | PropSave.v (C49) | models/base.py and others: save and load |
| Lstm.v | SpecLstm.v | PropLstm.v (C51, C56) | utilities.py, models/forecasters.py: window matrix and LSTM forecaster |
| Recon.v | SpecRecon.v | PropRecon.v (C52, C53, C59, C60) | models/reconstructors.py |
| Forecast.v | SpecForecast.v | PropForecast.v (C54, C55) | models/forecasters.py: apply, periodic average |
| Anomaly.v | SpecAnomaly.v | PropAnomaly.v (C57, C69-C71) | models/anomaly_detectors.py: fit and apply |
| Events.v | SpecEvents.v | PropEvents.v (C58) | models/anomaly_detectors.py: events |
| Summary.v | SpecSummary.v | PropSummary.v (C97) | datastructures.py (summary) |
| Marks.v | SpecMarks.v | PropMarks.v (C98) | plots.py (dates, mark) |
| Inspect.v | SpecInspect.v | PropInspect.v (C99) | anomaly_detectors.py (inspect) |
| Csv.v | SpecCsv.v | PropCsv.v, PropCsv2.v, PropCsv3.v (C61-C63, C72-C75, C96) | storages.py |
| Utils.v | SpecUtils.v | PropUtils.v (C64-C67) | utilities.py, units.py: metrics, rescale, unit strings, unit arithmetic |
| Evaluate.v | SpecEvaluate.v | PropEvaluate.v (C76, C77) | models/forecasters.py, models/reconstructors.py: evaluate |
| Wrappers.v | SpecWrappers.v | PropWrappers.v (C78, C79) | models which delegate to Prophet and ARIMA |
| Plots.v | SpecPlots.v | PropPlots.v (C80) | what the plots show: rows, groups, columns, range |
| Cache.v | SpecCache.v | PropCache.v (C81) | the sampling interval and the guessed resolution kept by a series |
| Load.v | SpecLoad.v | PropLoad.v (C82) | saving and loading a series |
| Periodicity.v | SpecPeriodicity.v | PropPeriodicity.v (C83) | the detection of the periodicity, on the exact Fourier transform |
| Convert.v | SpecConvert.v | PropConvert.v (C84, C85) | series from dictionaries, to and from JSON and data frames |
| Lists.v | SpecLists.v | PropLists.v (C86) | a series used as a list: operators inherited from list, index, copy |
| Make.v | SpecMake.v | PropMake.v (C87) | constructors and comparisons of points and slots |
| Generic.v | SpecGeneric.v | PropGeneric.v (C88) | generic points, slots and series in any number of dimensions |
| Float.v | SpecFloat.v | PropFloat.v (C89) | double precision rounding; points with float times |
| FloatOps.v | SpecFloat.v | PropFloat2.v (C90, C91), PropFloat8.v (C90), PropFloat3.v (C92, C93), PropFloat7.v (C93), PropFloat4.v (C94, C95) | sums, averages, normalisation, interpolation, coverage, cumulative sums, differences, moving averages, offsets and rescaling with double precision rounding |
| FloatCalc.v | SpecFloatCalc.v | PropFloat5.v (C102) | the derivative with double precision rounding |
| FloatInt.v | SpecCalculus.v, SpecFloat.v | PropFloat6.v (C103) | the integral with double precision rounding |

## 3. How the properties are proved, and what the names of the theorems mean

* A theorem without a suffix proves (a part of) the claim as it is worded in `properties.jsonl`.
* `_partial`: proved under a condition which the claim does not have; the note says which one.
* `_refuted`: the code does *not* do what the claim says; the theorem exhibits the case, in the model. These are findings: they have been
  checked against the text of the code. A claim with a `_partial` or `_refuted` theorem has the status "partial" in the manifest.
* Other names ending in `_differs`, `_overshoots`, `_why_...`: facts about the code which the claim does not exclude, and which show why
  its conditions are needed.

Methods: invariants by induction on the list of calls (C01-C08, C48); equality with a specification on lists for access and slices; loop
invariants for the transformations, the reconstructors and the detectors; equality of two executions for C34, C70, C72-C74; algebra on
rationals (`field`, `lra`, `nra` through `qlra`/`qnra`) for values; round trips through the text for C61.

`seeded/LOG.jsonl` records the wrong programs tried (`tools/seed.py` edits the model in a copy, rebuilds, and lists the theorems which
fail).

## 4. Trusted base

* **Coq's kernel** (8.16.1) and `coqc`; `vm_compute` is used in examples and refutations (part of the kernel). No `native_compute`.
* **Axioms: none, but for C83, C89-C95, C102 and C103.** Each theorem in `Prop*.v` is followed by `Print Assumptions`, which prints `Closed under the global
  context` for all of them except those of C83 (the Fourier transform needs real numbers) and those on floats (the Flocq library, whose
  rounding is compared with the one of the model, works with real numbers): for these it lists exactly, or some of, the axioms of the
  real numbers of Coq's standard library, `ClassicalDedekindReals.sig_forall_dec`, `ClassicalDedekindReals.sig_not_dec` and
  `FunctionalExtensionality.functional_extensionality_dep`, and for those on floats also `Classical_Prop.classic` of the standard library, which
  Flocq uses. (The `library_axioms` which vcheck counts are the fields of the module type `Under_rel` of the `ssrunder` library which comes
  with Coq: they are loaded with it, not used by any theorem.) No axioms of our own, no `Admitted`, no functors or module types, no
  kernel check switched off, no plugins.
* **The reading of the code**: each definition of the model cites the lines it models, and the comment says what is left out. Nothing
  checks this correspondence mechanically: the code cannot be run here.
* **The specifications** in `Spec*.v` say what the English claims say.

What is external to the code, and enters as a parameter of the theorems (arbitrary if nothing else is said):

| external | parameter | assumed |
|---|---|---|
| propertime: `TimeUnit('...s')` of a resolution, comparison of units | `env` | where stated: `parses_units`, it reads the seconds it is given (C05, C26, C42...); otherwise arbitrary |
| propertime: calendar arithmetic, `unit.shift`, `unit.round` | `cal`, `rounds`, `rounds_up` | where stated: the unit moves forward (`lasting`), rounding gives a boundary not before |
| number + calendar unit | `nadd` | arbitrary |
| text of units (`str(TimeUnit)`, parsing) | `unit_text` | for C49: it is read back as the same unit |
| datetimes keep microseconds | `us` in Access.v | defined (rounding to 1e-6) |
| local (naive) time of an epoch in a timezone | `clock` | arbitrary (C78) |
| propertime: `dt_from_str`, `dt_from_s`, `s_from_dt`; `datetime.isoformat`; JavaScript's `Date.UTC` | `clocks`; the last three defined in Marks.v, SpecMarks.v | where stated (C98): what isoformat writes in UTC is read back (`read_back`), a text with neither a T nor a space is refused (`needs_a_time`) |
| DST offset of an item | `dst` | arbitrary |
| text of numbers and dates in CSV files: `str`, `float`, `strptime`, ISO | `num_text` | for C61: `float(str(x)) = x` (`exact_text`); otherwise arbitrary |
| JSON in the comments of a saved series; text of dates and of the series | `jl`, `now`, `more` in Load.v | for C82: an object of three plain texts is read as it is (`reads_json`); texts without newlines |
| dates in Convert.v: text of a date and back, `float` of a text, instant kept by a datetime, end of the slot which starts at an instant | `dates` | for the round trips: a date is read back as it was written (`readable_date`) |
| the frequency Pandas infers for an index | `infer`, `fr_freq` | arbitrary; where stated, a multiple of a known name |
| threshold for the aggregation of plots | `T` in Plots.v | greater than zero, where needed |
| charset detection and decoding (chardet) | - | not modelled: the text of the file is given |
| json | `dumps`, `loads` | reads what it writes for the values json represents; keys become strings (modelled) |
| file system | a tree without links, `disk` | every write can fail at any point, leaving a beginning of the content |
| the logarithm and the square root | `lg`, `sq` | where stated: zero exactly in one, sign laws |
| sklearn `mean_absolute_error`, `mean_squared_error` | - | modelled by their definition |
| periodicity detection | `detect` in Forecast.v, `auto` in Recon.v | arbitrary there; modelled in Periodicity.v |
| numpy `fft`, scipy `find_peaks` | - | modelled by their definition, on real numbers (exact) |
| distribution fitting and densities (scipy, fitter), `find_x` | `distribution` | arbitrary; where stated, the density decreases along the range |
| training and the networks (keras) | `train`, `network` | arbitrary functions |
| Prophet, ARIMA engines | `train`, `pr_ask`, `ar_forecasts` | arbitrary; where stated, the engine learns the signal |
| the logic of a generic model | `logic` | arbitrary functions on its parameters, which can fail |

Not modelled at all: logging, deprecation warnings, representation strings (`__repr__`, `__str__`, summaries), HTML and images of the
plots (only the data and the range given to the plot are), reading of the environment, notebooks and shell helpers,
multi-threading (the library has none), generic `Series` of non-time items beyond what time series share, and performance. The table in
section 6 lists each function of the library.


## 5. Property by property

For each property: what was modelled is in the files of section 2 which hold its theorems; what is proved and under which
conditions is the note; the theorems are listed.

**C01 - Appending keeps point series in strict time order** (proved). Full: any append history; plus exact effect of a call and acceptance of later points.
Theorems: `C01_append_keeps_order`, `C01_append_effect`, `C01_later_point_accepted`.

**C02 - Appending keeps slot series in succession, on one unit and one timezone** (partial). Exact succession refuted (relative tolerance 1e-9 is 1.7 s at current epochs: the same 1-second slot is accepted twice). Proved: same tz, same/close unit, succession up to 1e-9 for every history, exact on grids with |t|/step < 1e9.
Theorems: `C02_slots_contiguous_refuted`, `C02_slots_partial`, `C02_slots_on_grid_partial`.

**C03 - All the items of a series carry data of the same shape** (partial). Proved when the first item has non-empty data; refuted for empty first data and for subclasses.
Theorems: `C03_same_shape_partial`, `C03_same_shape_refuted`, `C03_same_type_refuted`.

**C04 - A rejected append has no effect** (partial). Items never change on rejection (all series); slot series and duplicate timestamps: no effect at all; refuted in general for points (prev_t is overwritten in a finally block).
Theorems: `C04_rejected_append_keeps_items`, `C04_rejected_append_no_effect_refuted`, `C04_rejected_append_resolution_refuted`, `C04_rejected_slot_no_effect_partial`, `C04_rejected_duplicate_no_effect_partial`.

**C05 - The resolution describes the actual spacing** (proved). Equivalence between the incrementally kept resolution and the spacing of all consecutive points, for every accepted history; the TimeUnit parser is an oracle.
Theorems: `C05_resolution_of_points`, `C05_resolution_truncation_exact`, `C05_resolution_of_slots`.

**C06 - Inserting preserves the order** (partial). Refuted: a middle insert only checks the previous item. Ends, rejections and slot series proved; C06_insert_position gives the place of the item (also for negative positions), C06_insert_middle exactly when an insertion in the middle is accepted and when it keeps the order.
Theorems: `C06_insert_order_refuted`, `C06_insert_partial`, `C06_insert_position`, `C06_insert_middle`, `C06_order_meaning`.

**C07 - Removing items preserves the order and the other items** (partial). pop/remove/clear remove exactly the addressed item and keep order; refuted: a popped point cannot be appended again, a cleared series keeps the old resolution.
Theorems: `C07_pop`, `C07_remove`, `C07_clear`, `C07_usable_after_pop_refuted`, `C07_clear_is_fresh_refuted`.

**C08 - No public mutation can break the order of a point series** (partial). Refuted through middle insert only; every other combination of mutations keeps order.
Theorems: `C08_no_mutation_breaks_order_refuted`, `C08_mutations_keep_order_partial`.

**C09 - Positional access behaves like a Python list** (partial). Proved for every position in range -n..n-1 and beyond -2n..n-1; refuted between: negative positions down to -2n succeed (the item lookup re-indexes).
Theorems: `C09_get_by_position_partial`, `C09_get_by_position_refuted`.

**C10 - Access by time finds the item with that timestamp** (proved). Full: lookup by time returns the item whose (start) time is t, else an error.
Theorems: `C10_get_by_time`.

**C11 - Slicing by position equals Python list slicing** (partial). Slices with at least one bound are Python slices of the items; refuted: series[:] raises, tail(0) is the whole series.
Theorems: `C11_slice_by_position`, `C11_brackets`, `C11_head_tail`, `C11_no_bounds_refuted`, `C11_tail_zero_refuted`.

**C12 - Slicing by time selects the half-open interval** (proved). Full for well-formed series.
Theorems: `C12_slice_by_time`.

**C13 - Time slices at a cut point partition the series** (proved). Full for point series.
Theorems: `C13_time_slices_partition`.

**C14 - Slicing preserves well-formedness and resolution** (proved). Full: well-formed, and the resolution of a slice is that of the source when it has one.
Theorems: `C14_slice_is_well_formed`, `C14_slice_resolution_by_position`, `C14_slice_resolution_by_time`.

**C15 - A view behaves as the materialised sub-series** (partial). Contents, length, in-window access and sub-slices proved; refuted: a negative index outside the window reaches items outside it.
Theorems: `C15_view_contents`, `C15_view_access_partial`, `C15_view_slice_partial`, `C15_view_access_refuted`.

**C16 - Duplicating a series gives an equal, independent, well-formed series** (partial). duplicate returns an identical object state for every series built by accepted appends; materialize is covered in C15. Refuted for series whose order was broken by insert.
Theorems: `C16_duplicate_points`, `C16_duplicate_slots`, `C16_duplicate_after_insert_refuted`.

**C17 - Changing timezone never moves data in time** (partial). Proved for non-empty series; refuted for the empty one (UnboundLocalError).
Theorems: `C17_change_tz_partial`, `C17_as_tz_partial`, `C17_change_tz_empty_refuted`.

**C18 - The series timezone summarises the one of its items** (proved). Full: the common tz, or UTC when there is more than one.
Theorems: `C18_timezone_summary`.

**C19 - Dictionary conversion round trip** (partial). Proved when times have at most microsecond precision; refuted for points closer than that (the dictionary keys collide).
Theorems: `C19_dict_round_trip_points_partial`, `C19_dict_round_trip_slots_partial`, `C19_dict_round_trip_refuted`.

**C20 - Renaming and removing labels or indexes is uniform** (partial). Rename to a fresh label, remove label/index/data loss proved exactly; refuted: renaming onto an existing label destroys the latter's data.
Theorems: `C20_rename_label_partial`, `C20_rename_label_succeeds`, `C20_remove_label`, `C20_remove_index`, `C20_remove_data_loss`, `C20_rename_onto_existing_refuted`.

**C21 - Minimum and maximum are the extremes** (proved). max()/min() for every series left by any history of calls with numeric data; every label and no other.
Theorems: `C21_max`, `C21_min`.

**C22 - Sum is the sum of the values** (proved). Exact sum for every label; additive under any split.
Theorems: `C22_sum`, `C22_sum_splits`.

**C23 - The average is the (weighted) mean and lies between the extremes** (proved). Plain and weighted mean, and between the extremes for non-negative weights with positive total.
Theorems: `C23_avg`, `C23_avg_weighted`, `C23_avg_between_extremes`.

**C24 - Differences and cumulative sums invert each other** (partial). diff(csum) full for constant resolution, any labels. csum(diff, offset) restores the series for >=3 points or >=2 slots (partial). Refuted: two points (TypeError), zero offset drops the first item, number offset on list data TypeError.
Theorems: `C24_diff_of_csum`, `C24_csum_of_diff_partial`, `C24_csum_of_diff_refuted`, `C24_offset_zero_refuted`.

**C25 - The cumulative sum accumulates** (proved). Partial sums at every position, last value equals sum(); with offset one more leading item.
Theorems: `C25_csum`, `C25_last_is_sum`, `C25_csum_offset`.

**C26 - The derivative of a linear signal is its slope** (proved). Exact slope everywhere for regular series (interval with <= 7 decimals parsed exactly by the unit library).
Theorems: `C26_derivative_of_linear`.

**C27 - Integrating the derivative restores the signal** (partial). Proved for one label, with the first value as integration constant; refuted for two labels (shared running component).
Theorems: `C27_integral_of_derivative_partial`, `C27_two_labels_refuted`.

**C28 - The moving average is the mean of each full window** (proved). Full for every window 1..len.
Theorems: `C28_moving_average`.

**C29 - Normalising maps onto the target range preserving order** (proved). Exact linear map, range, order, idempotence; also explicit source range.
Theorems: `C29_normalize_values`, `C29_normalize_range_and_order`, `C29_normalize_idempotent`, `C29_normalize_with_source_range`.

**C30 - Rescale and offset act point-wise and compose** (proved). Point-wise, composition and inverse laws for numbers and per-label dictionaries.
Theorems: `C30_rescale`, `C30_offset`, `C30_rescale_composes`, `C30_offset_composes`, `C30_rescale_inverse`, `C30_offset_inverse`.

**C31 - Filtering keeps the requested labels untouched** (proved). Exactly the requested labels with original values and times; source unchanged is C35.
Theorems: `C31_filter`.

**C32 - Merging is the intersection with averaged common labels** (partial). Proved for series on a common time line (intersection, union of labels, means of common labels and indexes; empty when disjoint); refuted: misaligned series raise KeyError.
Theorems: `C32_merge_partial`, `C32_merge_no_overlap`, `C32_merge_refuted`.

**C33 - Selecting returns exactly the matching items** (partial). Single equality condition proved (None if nothing matches); conjunctions raise NotImplementedError (refuted).
Theorems: `C33_select_partial`, `C33_select_conjunction_refuted`.

**C34 - In-place operations do the same as the out-of-place ones** (partial). rescale, offset, normalize agree in and out of place; refuted for csum (extra labels), derivative (KeyError on dicts, wrong values on lists).
Theorems: `C34_rescale_in_place`, `C34_offset_in_place`, `C34_normalize_in_place`, `C34_in_place_refuted`.

**C35 - Out-of-place operations do not change their source** (partial). Object-level model: source reads the same after any out-of-place operation and after data writes on the result; refuted for index dictionaries (shared) and slices (shared items).
Theorems: `C35_source_unchanged`, `C35_result_changes_partial`, `C35_shared_indexes_refuted`.

**C36 - Validity regions tile the time axis without overlaps** (proved). Exact tiling for all strictly increasing times and intervals, also within a time window. The cut option (never used by the library) is modelled but no claim is made on it.
Theorems: `C36_validity_regions_tile`, `C36_validity_regions_in_window`.

**C37 - Coverage is the covered fraction** (proved). Covered fraction, in [0,1], 1 iff covered, 0 if no intersection, additive over sub-intervals.
Theorems: `C37_coverage_is_covered_fraction`, `C37_coverage_bounds_and_extremes`, `C37_coverage_additive`, `C37_empty_interval_rejected`.

**C38 - Data loss is the missing fraction** (partial). 1 - coverage with no previous losses; weighted previous losses proved for slots at least as long as the interval and points at least an interval apart; refuted otherwise (values above 1).
Theorems: `C38_data_loss_is_missing_fraction`, `C38_previous_losses_weighted_partial`, `C38_shorter_slots_refuted`, `C38_closer_points_refuted`.

**C39 - The auto-detected sampling interval is the most frequent spacing** (partial). Most frequent spacing proved unless more than 95% of the spacings are distinct (hence always up to 20 points) and after rounding; constant resolution full; termination refuted (21 points at triangular numbers).
Theorems: `C39_most_frequent_partial`, `C39_up_to_twenty_points_partial`, `C39_constant_resolution`, `C39_rounded_partial`, `C39_detection_terminates_refuted`.

**C40 - Linear interpolation is exact and bounded** (partial). On the line, exact, bounded, linear signals; a time after the last point is refused. Refuted on the last point of the series (ValueError) and for a time before the first point, which is not refused but interpolated on the line through the LAST and the first points.
Theorems: `C40_linear_on_straight_line`, `C40_linear_with_positions`, `C40_bounded_by_neighbours`, `C40_exact_on_points`, `C40_reproduces_linear_signals`, `C40_last_point_refuted`, `C40_outside_refused`, `C40_before_refuted`.

**C41 - Uniform interpolation picks the neighbour values** (partial). Mean of the neighbours when their positions are given, and a time which is not between them is refused; refuted: the search always fails, and with previous position 0 nothing is checked at all.
Theorems: `C41_mean_of_given_neighbours_partial`, `C41_search_always_fails_refuted`, `C41_outside_refused`, `C41_first_position_refuted`.

**C42 - Resampling gives a regular grid** (proved). Any wf dict point series with constant or variable resolution, any positive physical unit, any rounding which rounds up. Calendar units are rejected by the constructor.
Theorems: `C42_resample_constant_grid`.

**C43 - Aggregating gives contiguous slots** (partial). Slots from the first unit boundary not before the series, contiguous, with the operation labels; count exact (the slots ending by the last point). Missing: series with previous data losses and slots with no point, where the call fails (C43_refuted).
Theorems: `C43_aggregate_slots_partial`, `C43_refuted`.

**C44 - Data losses of transformed series are fractions and detect gaps** (proved). Loss in [0,1], exactly the uncovered fraction, 0 if covered, 1 if not, for resampling and aggregation with any start/end on the boundaries, for points with no previous losses.
Theorems: `C44_resample_data_loss`, `C44_aggregate_data_loss`.

**C45 - Aggregates and resampled values stay within the source bounds** (partial). Resampling: full, and each value is exactly the mean of the signal with straight lines in the gaps. Aggregation: for slots which contain a point or are in a gap; refuted otherwise (upsampling aggregation gives wrong values).
Theorems: `C45_resample_bounds`, `C45_aggregate_bounds_partial`, `C45_aggregate_refuted`.

**C46 - Transformation start and end limits are honoured** (partial). Nothing before the start; nothing after the end if it is a whole number of units after the start and not in a gap. Refuted: end in a gap is overrun, start/end of zero are ignored.
Theorems: `C46_resample_start_end_partial`, `C46_aggregate_start_end_partial`, `C46_refuted`.

**C47 - The transformation of a dense constant-resolution series loses nothing** (proved). Any series with no gaps and unit (calendar too) not shorter than the sampling interval: the average is weighted on the regions, whose weights make up the whole slot; sum, min and max are over the points of the slot.
Theorems: `C47_dense_aggregate`.

**C48 - Model life cycle: fit before use, and only on compatible series** (partial). All histories of fit/predict/apply/evaluate calls and resets, for any model logic (fit and call are arbitrary functions). Partial: the model does change when a re-fit fails (labels and resolution are overwritten, the old parameters stay and the model stays fitted), refuted by C48_failed_fit_refuted; every refused predict/apply/evaluate, and every fit refused by the checks, leaves the model unchanged.
Theorems: `C48_fit_before_use`, `C48_compatible_series_partial`, `C48_after_fit_exactly_compatible`, `C48_refused_unchanged`, `C48_unusable_fit_unchanged`, `C48_cross_validation`, `C48_failed_fit_refuted`.

**C49 - Saved models are loaded back equal and are never overwritten** (partial). For every model, path, file system and disk failure: refused saves change nothing, no save alters existing files or the model. Round trip proved for all data JSON represents (generic models, PeriodicAverageForecaster exactly, anomaly detectors with nested models), assuming the json module reads what it writes and that the string of the resolution is read as the same unit. Refuted: a PeriodicAverageReconstructor cannot predict after loading (KeyError); a model fitted on one point cannot be loaded; a save failing in json.dumps leaves a directory that blocks the path; a detector given its model class as argument cannot be loaded. Keras files of LSTMForecaster are not modelled.
Theorems: `C49_refused`, `C49_save_changes_nothing_else`, `C49_round_trip`, `C49_context_required`, `C49_reported_as_saved`, `C49_periodic_forecaster`, `C49_data_determine_the_forecaster`, `C49_periodic_reconstructor_refuted`, `C49_single_point_refuted`, `C49_failed_save_refuted`, `C49_nested`, `C49_model_class_argument_refuted`.

**C50 - Cross validation never validates on training data** (partial). All lengths, round numbers and model logics, as a spy on the calls made; C50_rounds says exactly what each round fits on, in which order, and what it evaluates. Partial: 'together they are the series' holds only when the model can update a fit; no model of the library can, and then in the middle rounds the items of the smaller part are not used at all (refuted by C50_fits_on_the_rest_refuted). Disjointness is unconditional.
Theorems: `C50_never_on_training_data`, `C50_validation_parts`, `C50_rounds`, `C50_fits_on_the_rest_partial`, `C50_fits_on_the_rest_refuted`.

**C51 - Windows precede their targets** (partial). Matrix rows, their order, windows, targets and contexts are characterised exactly (C51_rows, for every series, window, limit), with totality (C51_built), the features of each window (C51_features) and what a whole fit hands to the training function, which is arbitrary (C51_fit, C51_fit_succeeds): no value of a target label of the target item or later is in its features. Refuted corners, as in the code: a list of targets raises UnboundLocalError, a context on slots AttributeError, differences on windows of one item IndexError.
Theorems: `C51_rows`, `C51_built`, `C51_features`, `C51_fit`, `C51_fit_succeeds`, `C51_target_list_refuted`, `C51_context_slots_refuted`, `C51_single_item_differences_refuted`.

**C52 - Reconstruction only changes missing data** (proved). Any prediction function (dict of lists or list of dicts), any threshold, in place and not; also the state left by an application in place which raises half way. The per-item flag data_reconstructed is 1 exactly on the items at or above the threshold and 0 on the others; the other indexes are unchanged.
Theorems: `C52_only_missing_data_changes`, `C52_missing_runs_are_predicted`, `C52_any_outcome`.

**C53 - The linear reconstructor interpolates between the gap neighbours** (proved). Points and slots, any labels, any gap; the reconstructor raises exactly when the first or the last item is to be reconstructed.
Theorems: `C53_on_the_line`, `C53_succeeds_iff`.

**C54 - Forecasts extend the series contiguously** (partial). Proved for every predictor (arbitrary function), with or without context data, in place or on a copy, on points and slots with a constant resolution, including what is left behind when the call raises half way (in place). C54_spacing_refuted: the resolution of points goes through a string which loses digits ('1.05' becomes '15s'), so the forecasts are not contiguous for such spacings; the theorems therefore ask that the resolution is the actual distance. The model's checks before apply are in C50.
Theorems: `C54_apply`, `C54_any_outcome`, `C54_succeeds_at_once`, `C54_succeeds_one_at_a_time`, `C54_spacing_refuted`.

**C55 - The periodic average forecaster repeats a periodic signal** (partial). Proved for every periodicity of at least 2, given or detected, all labels, all steps, for fixed-length units and dst_affected=False, with the signal sampled on a grid aligned as in C59 (non-negative times, or a grid through the epoch). Refuted: a constant signal with periodicity 1 raises ZeroDivisionError; an explicit window raises UnboundLocalError at fit. Beyond the claim, C55_shifted_signal: if the series continues the fitted profile moved by a constant, the forecast is moved by shift*p/(p-1) (the offset is divided by window-1), so the continuation is exact only for shift 0 (C55_moved_signal_overshoots).
Theorems: `C55_shifted_signal`, `C55_continues_the_signal`, `C55_on_its_own_history`, `C55_period_one_refuted`, `C55_moved_signal_overshoots`, `C55_explicit_window_refuted`.

**C56 - LSTM normalisation is invertible** (partial). Exact inverse on rationals (rounding of floats is not modelled), order and range, the factors of a fit, and consistency of predict with fit: on what the network was fitted on, predict computes the features of the training row, and de-normalises to the original values. Refuted corners: a constant label makes fit raise ZeroDivisionError; fitting again without normalisation keeps the factors of the previous fit.
Theorems: `C56_inverse`, `C56_range`, `C56_factors`, `C56_consistent`, `C56_constant_label_refuted`, `C56_stale_factors_refuted`.

**C57 - Anomaly indexes are in [0,1] and monotone in the error** (partial). For every ready series (dictionary data, points or slots), every inner model (forecaster, forecasters with context, reconstructor), metric, bound, index type, threshold and strategy: shape and values of the result, 0 up to the start, 1 from the end, order kept with respect to the deviation, when apply succeeds, what fit stores. Unit interval and order under the hypothesis that the density decreases along the range (refuted without), and order with respect to the error for distributions centred in zero (refuted otherwise). Also refuted: a result for all the items with a reconstructor (its break leaves the loop on the items). store_errors=False and names in a tuple of bounds never work (proved). Arbitrary functions: the inner model, density, location, find_x, fit of the distribution, standard deviation and logarithm; a numpy division by zero stops the model (NotANumber).
Theorems: `C57_items_of_the_result`, `C57_in_the_unit_interval_partial`, `C57_zero_up_to_the_start`, `C57_one_from_the_end`, `C57_follows_the_deviation`, `C57_follows_the_error_partial`, `C57_succeeds`, `C57_fit_stores_the_errors`, `C57_fit_series_is_not_anomalous`, `C57_average_not_above_maximum`, `C57_not_without_errors`, `C57_no_names_in_a_tuple`, `C57_in_the_unit_interval_refuted`, `C57_follows_the_error_refuted`, `C57_all_items_with_a_reconstructor_refuted`.

**C58 - Marked events have the requested persistence** (partial). Exact characterisation of the marks for every series with a known anomaly index (C58_everywhere_partial): events over before the end of the series are marked iff they have at least min_persistence items, an event still open at its end only if it has more than min_persistence items (refuted off by one), and a single anomalous item open at the end makes the code raise IndexError (refuted, general). Full property when the last max_gap + 1 items are not anomalous. Not modelled: how a series is left by a failed marking in place; a negative max_gap.
Theorems: `C58_marks_the_events_partial`, `C58_everywhere_partial`, `C58_end_of_series_refuted`, `C58_terminates_refuted`, `C58_replace_index`, `C58_needs_the_index`.

**C59 - Periodicity indexes are periodic and in range** (partial). Range: all items, resolutions and DST settings. Step and periodicity: fixed-length resolutions, on grids aligned to the epoch or starting after it. Partial: before the epoch, off the multiples of the resolution, two consecutive items get the same index, and with a calendar resolution whose length changes (days at a DST change) the index jumps (C59_advances_refuted).
Theorems: `C59_in_range`, `C59_advances_partial`, `C59_dst`, `C59_advances_refuted`.

**C60 - The periodic average reconstructor keeps the profile** (proved). Any periodic signal sampled on a grid, any gaps not touching the ends (there the reconstructor raises by design), fitted on the same series or on another; every phase must be seen in the fit. Periodicity given (its FFT detection is not modelled), no DST correction. Proved also for a gap in a signal that follows the fitted profile moved by a constant.
Theorems: `C60_profile`, `C60_restores`.

**C61 - CSV round trip** (partial). Proved on all healthy series with plain labels and the same indexes on all items, through the actual text of the file (comments, header, fields, sanitisation, detection of the columns, of the timestamp format and of the type), for any sorting, timezone and error handling: C61_points and C61_slots (values under each label, indexes, times, unit). Refuted where the code does not do it: the type written in the file is not read back (daily points come back as slots, hourly slots as points, a single slot cannot be read), labels which are not plain ('timestamp', with commas, 'na'), items with different indexes (put fails half way), lists come back as dictionaries. Text of the numbers: any pair of functions with exact round trip. Also refuted: put ignores the separator of the storage, which then cannot read the file.
Theorems: `C61_points`, `C61_slots`, `C61_type_is_not_kept_refuted`, `C61_other_labels_refuted`, `C61_uneven_indexes_refuted`, `C61_lists_refuted`, `C61_separator_refuted`.

**C62 - Existing files are never overwritten silently** (proved). Proved for every file system, disk behaviour and series: refused without overwrite, same outcome and content as a fresh write with overwrite, nothing else changes, what a full disk leaves is a beginning of the content, and a put reported as done is complete. The claim is proved as stated; beyond it, refuted: the old content is destroyed also when the put fails.
Theorems: `C62_refused`, `C62_overwrite`, `C62_nothing_else`, `C62_beginning`, `C62_failed_overwrite_refuted`.

**C63 - Gaps in slot files are filled linearly and contiguously** (partial). Proved for every number and position of the gaps, for physical and calendar units, for files without index columns: contiguous, rows keep their values, missing slots are on the line and have full data loss, nothing else. Refuted: with index columns a gap raises KeyError unless it is before the last row (whose indexes are then lost); with slots of a second a missing one is within the tolerance of the succession check and is not filled.
Theorems: `C63_filled`, `C63_index_columns_refuted`, `C63_seconds_refuted`.

**C64 - Error metrics are zero exactly on equal sequences** (proved). All lengths and values. The percentage errors need non-zero true values (C64_percentage_of_zero), the log errors positive values and any function that is zero exactly in one; empty sequences are covered by C64_empty. sklearn's MAE and MSE are modelled by their definition.
Theorems: `C64_mean_absolute_error`, `C64_mean_squared_error`, `C64_mean_percentage_error`, `C64_percentage_of_zero`, `C64_mean_log_error`, `C64_max_absolute_error`, `C64_max_percentage_error`, `C64_max_log_error`, `C64_empty`, `C64_lengths`.

**C65 - Time unit strings denote the interval they come from** (partial). Exact characterisation: the string denotes the given decimal if and only if it is an integer, ends in .0, or the first decimal digit is not zero. Refuted otherwise: 1.05 seconds give '15s', 0.05 give '05s' (5 seconds), and numbers below 1e-4, which Python writes with an exponent, give no unit string at all.
Theorems: `C65_time_unit_string`, `C65_small_decimals_refuted`, `C65_tiny_refuted`.

**C66 - Unit arithmetic is consistent** (partial). Proved for numbers, units, time points with fixed and with invertible calendar units, equality. Refuted: a generic point minus a unit raises TypeError; zero divided by a unit raises ZeroDivisionError; TimeUnit(value=...) raises KeyError.
Theorems: `C66_numbers`, `C66_units`, `C66_number_by_unit_partial`, `C66_zero_by_unit_refuted`, `C66_points_refuted`, `C66_time_points`, `C66_equality`, `C66_value_by_name_refuted`.

**C67 - Range rescaling is monotone and hits the end points** (proved). All values and ranges (non-negative, as required by the code; anything else is refused, C67_refused).
Theorems: `C67_formula`, `C67_end_points`, `C67_stays_in_range`, `C67_keeps_the_order`, `C67_inverse`, `C67_refused`.

**C68 - Transformations leave the source series as it was** (partial). Resampling: full. Aggregation: for slots which contain a point or are in a gap; refuted otherwise (the data of the source are multiplied in place).
Theorems: `C68_resample_source_untouched`, `C68_aggregate_source_untouched_partial`, `C68_aggregate_refuted`.

**C69 - The anomaly index of an item does not depend on what follows** (proved). For inner models which read only the items of the view they are given and its resolution (hypothesis reads_past on the inner model, which is arbitrary); reconstructors look ahead by design.
Theorems: `C69_only_the_past_matters`, `C69_on_the_first_items`.

**C70 - Pre-processing a series does not change the anomalies detected** (proved). Equality of the two outcomes, errors included. The series is the same and unchanged in between; predictions left on a series which is modified later are not modelled.
Theorems: `C70_preprocessing_changes_nothing`.

**C71 - The details describe the anomaly index** (partial). Prediction and deviation for any selection, adherence with details=True. Refuted: with a list the adherence is under 'label_adh)'; label_err is the deviation and not the error where this is below the centre of its distribution. With details and some skipped items the application fails (example).
Theorems: `C71_details_partial`, `C71_other_data_kept`, `C71_details_in_a_list_refuted`, `C71_error_detail_refuted`, `C71_error_detail_not_below_the_centre`.

**C72 - Reading a file again gives the same series** (proved). Proved for every text, storage and options, errors included. C72_other_options_differ and C72_after_put_differs show why the options and the file have to be the same: a storage which has read columns by position gives lists from then on, and one which has read a 'timestamp' column cannot read what it puts itself.
Theorems: `C72_reading_again`, `C72_other_options_differ`, `C72_after_put_differs`.

**C73 - A limit gives the beginning of what would be read** (proved). Proved for every text, columns and formats. C73_why_unsorted_points: the limit counts rows of the file, so with sorting it does not give the first items, with skipped errors fewer than n, and the type of the series is detected on fewer rows.
Theorems: `C73_limit`, `C73_why_unsorted_points`.

**C74 - What is not data is ignored** (proved). Proved for every text, position, storage and options: same series, same errors, same storage afterwards.
Theorems: `C74_ignored`, `C74_last_newline`.

**C75 - Each row of a table is read as a point with its values** (partial). Proved for every table with a non-empty label for each column, for any separator, quotes, spaces, decimal commas, timestamps as numbers, ISO dates, custom format or time and date columns, columns by label, any sorting and any bad rows (C75_table, C75_bad_row); how dates are parsed is a parameter. Refuted: with skip_errors a row too short for the timestamp raises IndexError anyway; an unlabelled column shifts the labels of the following ones, so wrong numbers are read; months of 29 days and years of 366 are not recognised (typo 886400).
Theorems: `C75_table`, `C75_bad_row`, `C75_short_row_refuted`, `C75_no_label_refuted`, `C75_leap_refuted`.

**C76 - Evaluating a forecaster measures its one-step predictions** (proved). For every ready series (dictionary data), forecaster (an arbitrary predict on views, with or without context data and targets), metric selection and results series. Logarithm and square root are arbitrary functions with the sign laws given as hypotheses of the zero theorem. A forecaster without a window is asked for the first item with an empty view, whose [-1] is the last item of the series (C76_without_window_looks_ahead): the past-only theorem assumes that the model reads the items of the view.
Theorems: `C76_scores`, `C76_results_series`, `C76_zero_iff_exact`, `C76_succeeds`, `C76_only_the_past`, `C76_refusals`, `C76_without_window_looks_ahead`.

**C77 - Evaluating a reconstructor measures how it rebuilds items which are known** (proved). For every ready series with a single label (multi-label series are refused by the code), arbitrary predict, steps of at least 1. Documented deviations: the last usable place of the series is never used (C77_last_place_not_used: >= for >), the linear interpolation reconstructor can never be evaluated (its predict returns a list of dictionaries: C77_linear_cannot_be_evaluated), MAPE divides by the prediction, no steps raises ZeroDivisionError (example).
Theorems: `C77_scores`, `C77_score_unique`, `C77_without_details`, `C77_zero_iff_exact`, `C77_succeeds`, `C77_periodic_signal`, `C77_linear_cannot_be_evaluated`, `C77_last_place_not_used`.

**C78 - The models based on Prophet give and take the right values at the right times** (proved). For every ready series, clock (local time of an epoch in a timezone, an arbitrary function) and engine (an arbitrary function which can fail); for the signal theorems the engine is one which learns the signal from samples at two or more times (witness: lines). Documented: the reconstructor is fitted on local times and asked for UTC times, so elsewhere than in UTC it gives the signal of another time (C78_elsewhere_differs); the evaluation of the forecaster compares the first item with the forecast after the end of the series (C78_evaluation), so also a perfect model has a zero score only if these are the same (C78_scores_of_a_perfect_model).
Theorems: `C78_fit`, `C78_forecasts`, `C78_continues_the_signal`, `C78_reconstructs`, `C78_restores`, `C78_reconstructor_scores`, `C78_evaluation`, `C78_scores_of_a_perfect_model`, `C78_elsewhere_differs`.

**C79 - The models based on ARIMA only forecast what follows the series they were fitted on** (proved). For every ready series and engine. The fit series is kept by reference: applied in place on it twice, the model is not refused and repeats the same forecasts (C79_again_in_place_repeats); a refused application in place leaves the forecast index 0 on the items (C79_refused). On series of two or more items the evaluation can never succeed (C79_cannot_be_evaluated).
Theorems: `C79_fit`, `C79_forecasts`, `C79_succeeds`, `C79_refused`, `C79_cannot_go_on`, `C79_again_in_place_repeats`, `C79_cannot_be_evaluated`.

**C80 - A plot shows the items of the series and nothing else** (proved). The numbers and times given to the plot, not the text of dates and numbers, nor the HTML and JavaScript around them. The exceptions in the statement are shown to be necessary: C80_negative_inverted (all values the same negative number: the range is upside down), C80_comma_splits (a name with a comma makes two columns), C80_leftover_not_shown (the items after the last whole group are left out).
Theorems: `C80_items`, `C80_groups`, `C80_range`, `C80_columns`, `C80_succeeds`, `C80_refused`, `C80_default_size`, `C80_negative_inverted`, `C80_comma_splits`, `C80_leftover_not_shown`.

**C81 - The resolution guessed for a series is that of its points** (partial). For the first question, and as long as the series is not changed after it, on series whose distances are not almost all different. The interval kept is never deleted: append tries to delete it as a property which has no deleter, and swallows the exception. So after the first question the guess never changes (C81_kept_for_ever), also if it is wrong for the points the series has later (C81_changed_refuted), and as writing a series as text is such a question, printing a series which then grows changes what resampling it gives (C81_printed_refuted). For empty series the exception is a TypeError, not the intended ValueError.
Theorems: `C81_questions_change_nothing`, `C81_kept_for_ever`, `C81_first_time_partial`, `C81_unchanged_partial`, `C81_refused`, `C81_changed_refuted`, `C81_printed_refuted`.

**C82 - A series which is saved is the one which is loaded** (proved). Assumes that numbers are written and read back exactly, that JSON objects of three plain texts are read as they are (reads_json; flat_json is a reader which does), that the text of the unit is read as the unit, and for the labels what C61 assumes (writable). A single slot can be saved but not loaded (C82_single_slot_not_loaded): no sampling interval can be detected, though the unit is in the file.
Theorems: `C82_points`, `C82_slots`, `C82_other_files`, `C82_no_overwrite`, `C82_derived_returns_nothing`, `C82_single_slot_not_loaded`.

**C83 - The periodicity detected is that of the strongest oscillation** (partial). On the exact discrete Fourier transform over the real numbers (the floating point one of numpy is not exact: a frequency which is not in the signal has there a tiny strength and not zero). They use the axioms of the real numbers of the standard library (sig_forall_dec, sig_not_dec, functional_extensionality_dep). Adding a number: proved if the oscillation as long as the series stays weaker, or stronger, than the mean (C83_shifted_partial, the exact condition under which nothing depends on it); refuted in general (C83_shifted_refuted: a wave as long as the series is found if its mean is zero and not if ten is added).
Theorems: `C83_choice`, `C83_range`, `C83_periodic`, `C83_short_refused`, `C83_pattern`, `C83_fit`, `C83_rescaled`, `C83_shifted_partial`, `C83_refused`, `C83_shifted_refuted`.

**C84 - What a dictionary or a JSON document says is what the series holds** (partial). The data are numbers, by position or by label (others are accepted by the code and not modelled). The round trip through JSON is proved for times, ends of the slots, units and values (C84_json_points, C84_json_slots), where dates are written and read back exactly; indexes as the data loss are not written. Refuted: the timezone is lost, all comes back in UTC (C84_timezone_refuted), and for this reason daily slots of a timezone with a change of the hour cannot be read back (C84_daylight_saving_refuted: ValueError, not in succession).
Theorems: `C84_dict`, `C84_accepts`, `C84_refused`, `C84_json_points`, `C84_json_slots`, `C84_timezone_refuted`, `C84_daylight_saving_refuted`.

**C85 - A series converted to a data frame and back is the same** (partial). The frequency which Pandas infers is a parameter; missing cells are not modelled (so the data loss must be there for all the items or for none). In the round trips (C85_points, C85_slots) the data loss comes back as one more label, and the other indexes are not written. Refuted: the type is not kept (C85_type_is_not_kept_refuted: points a day apart come back as slots and cannot be asked for, hourly slots come back as points); yearly frames (C85_years_refuted: Pandas names the years AS-JAN or A-DEC, which is not recognised: points are made, and asking for slots is an error about the unit Y-JYN, as also the A of JAN is replaced). Without a frequency slots raise UnboundLocalError (C85_no_frequency).
Theorems: `C85_rows`, `C85_calendar`, `C85_physical`, `C85_no_frequency`, `C85_dates_only`, `C85_frame`, `C85_points`, `C85_slots`, `C85_type_is_not_kept_refuted`, `C85_years_refuted`.

**C86 - A series can be used as a list without losing its order** (partial). The operators of list which Series does not override (=, del, +=, *=, in, +) are modelled with the methods of Series. C86_assign, C86_delete, C86_extend and C86_history say exactly when the order is kept. Refuted: nothing is checked by them (C86_unchecked_refuted: items out of order, holes in the slots, items of another type or with other labels are accepted); the resolution is not updated (C86_stale_refuted); index() never returns a position, and without bounds always raises TypeError (C86_index_refuted); copy() and + give a plain list (C86_copy_refuted).
Theorems: `C86_sequence_meaning`, `C86_history`, `C86_assign`, `C86_delete`, `C86_outside`, `C86_extend`, `C86_repeat`, `C86_contains`, `C86_point_in_slots`, `C86_index_refuted`, `C86_copy_refuted`, `C86_unchecked_refuted`, `C86_stale_refuted`.

**C87 - Points and slots are what they were made of, and compare by time and data** (partial). Coordinates are numbers (texts which float() accepts are not modelled), timezones are names, what propertime makes of a datetime is a parameter. Refuted: equality is not transitive between points with and without data (C87_transitive_refuted); a slot compared with a point, or with a slot with no data, raises AttributeError (C87_slot_compare_refuted); inverted slots, slots of no length and units which do not match the end are accepted (C87_slot_checks_refuted); the dictionary of indexes of the caller is changed (C87_caller_refuted); with both t and dt points and slots follow different ones, and the timezone asked for is ignored when a point is made from another one (C87_arguments_refuted).
Theorems: `C87_point`, `C87_slot`, `C87_data`, `C87_data_items`, `C87_equality`, `C87_equivalence`, `C87_order`, `C87_timezone`, `C87_transitive_refuted`, `C87_slot_compare_refuted`, `C87_slot_checks_refuted`, `C87_caller_refuted`, `C87_arguments_refuted`.

**C88 - Generic points, slots and series, in any number of dimensions** (partial). The items are integers, floats, points and slots with or without data; C88_append_data says exactly when data are accepted (first data not empty). Refuted: points in more than one dimension cannot follow each other (C88_dimensions_refuted); integers and floats do not mix, inverted and zero length slots are accepted, slices of slots with a step and backwards slices raise, a unit cannot be added to a start with data (C88_limits_refuted); insertions in the middle are only compared with the item before (C88_insert_refuted).
Theorems: `C88_history`, `C88_sequence_meaning`, `C88_new`, `C88_append`, `C88_append_among_plain`, `C88_data_alike`, `C88_append_data`, `C88_append_type`, `C88_compare`, `C88_slot`, `C88_length`, `C88_lengths_add_up`, `C88_remove`, `C88_pop`, `C88_slice`, `C88_dimensions_refuted`, `C88_limits_refuted`, `C88_insert_refuted`.

**C89 - The resolution of points whose times are floats** (proved). Double precision rounding is modelled with exact rationals in Float.v and proved equal to the one of the Flocq library (C89_rounding_is_ieee); overflow is not modelled. The claim is proved as stated; beyond it, refuted: points every tenth of a second from 0 have a variable resolution (C89_tenths_refuted); two points at 0.2 and 0.3 have the resolution of the text 0.0999999, that is, with C65, of 999999 seconds (C89_two_tenths_refuted); a tenth of a second in this century is 0.1000001 s (C89_this_century_refuted).
Theorems: `C89_rounding_is_ieee`, `C89_rounding`, `C89_same_points`, `C89_resolution`, `C89_same_age_exact`, `C89_binary_times`, `C89_truncation_error`, `C89_distance_error`, `C89_tenths_refuted`, `C89_two_tenths_refuted`, `C89_this_century_refuted`.

**C90 - Sums and averages of floats** (proved). With the double precision rounding of C89; overflow is not modelled. The claim is proved as stated; beyond it, refuted: the average of 0.1, 0.1 and 0.1 is above the maximum (C90_avg_refuted), and the sum depends on the order of the items (C90_order_refuted).
Theorems: `C90_sum_error`, `C90_error_is_small`, `C90_sum_exact`, `C90_avg_error`, `C90_avg_nearly_between`, `C90_avg_exact`, `C90_avg_refuted`, `C90_order_refuted`, `C90_weighted_error`.

**C91 - Normalisation of floats** (proved). With the double precision rounding of C89; overflow is not modelled. The claim is proved as stated; beyond it, refuted: normalising to [-1, 0.1] gives a value above 0.1 (C91_overshoot_refuted), and different values may become the same (C91_distinct_refuted).
Theorems: `C91_normalize_range`, `C91_normalize_idempotent`, `C91_normalize_order_and_error`, `C91_constant_refused`, `C91_overshoot_refuted`, `C91_distinct_refuted`.

**C92 - Interpolating floats** (partial). With the double precision rounding of C89; overflow is not modelled. C92_linear_between_partial asks for an instant which is not in the last 2^-49 of the gap and for values which are not nearly subnormal; both conditions are needed: C92_end_of_gap_refuted (between -2 and 0.1 the value is above 0.1 at the last instant) and C92_tiny_values_refuted.
Theorems: `C92_linear_between_partial`, `C92_linear_error`, `C92_exact_on_points`, `C92_uniform_between`, `C92_end_of_gap_refuted`, `C92_tiny_values_refuted`.

**C93 - Coverage and data loss with float times** (partial). With the double precision rounding of C89; overflow is not modelled. C93_loss_error and C93_loss_exact exclude losses already in the points; C93_previous_losses_error has them, for points which each cover a whole sampling interval no longer than the part (as in C38). Refuted: points at 0.2 and 0.5, which cover all of [0.05, 0.65], give a coverage above 1 and a negative data loss (C93_negative_loss_refuted).
Theorems: `C93_coverage_error`, `C93_loss_error`, `C93_coverage_exact`, `C93_loss_exact`, `C93_empty_interval_rejected`, `C93_negative_loss_refuted`, `C93_previous_losses_error`.

**C94 - Cumulative sums, differences and moving averages of floats** (proved). With the double precision rounding of C89; overflow is not modelled. The claim is proved as stated; beyond it, refuted: of 0.1, 0.2 and 0.3, diff after csum gives 0.20000000000000004 for the second (C94_diff_of_csum_refuted); the moving average of 0.1, 0.1 and 0.1 is above 0.1 (C94_mavg_refuted).
Theorems: `C94_csum_error`, `C94_csum_exact`, `C94_last_is_sum`, `C94_csum_increases`, `C94_diff`, `C94_mavg_error`, `C94_mavg_exact`, `C94_diff_of_csum_exact`, `C94_diff_of_csum_refuted`, `C94_mavg_refuted`.

**C95 - Offsets and rescaling of floats** (proved). With the double precision rounding of C89; overflow is not modelled. The claim is proved as stated; beyond it, refuted: an offset of 10^17 and back makes 0.1 and 0.2 zero, and they are the same value in between (C95_offset_inverse_refuted); 49 and the float nearest to 1/49 do not undo each other (C95_rescale_inverse_refuted).
Theorems: `C95_offset`, `C95_rescale`, `C95_power_of_two_inverse`, `C95_offset_inverse`, `C95_offset_inverse_refuted`, `C95_rescale_inverse_refuted`.

**C96 - CSV tables read as lists** (proved). Points (slots are C63 and C74). Refuted beyond it: a first row with a decimal comma or with a missing value is taken for a header, it is lost and its values become the labels (C96_first_row_refuted); asking once for columns by position makes the storage read lists from then on (C96_positions_stick_refuted).
Theorems: `C96_lists`, `C96_bad_row`, `C96_no_labels`, `C96_first_row_refuted`, `C96_positions_stick_refuted`.

**C97 - The summary of a series** (proved). str(item) and str(series) are parameters; without newlines they are assumed to have neither line breaks nor three dots in a row. The limit is not negative. With one item only, or a limit of one, a comma follows it (C97_one).
Theorems: `C97_all`, `C97_some`, `C97_one`.

**C98 - What the mark of a plot highlights** (partial). Partial because it does not hold in general: C98_highlights_partial is for the same offset from UTC everywhere; C98_mark and C98_rows give the exact positions for all offsets not behind UTC; C98_other_timezone_refuted shows a mark in UTC over items one hour ahead which highlights none of those in it; C98_behind_utc_refused that the call fails for offsets behind UTC (the ISO text is cut at its first dash, which leaves the year). dt_from_str is a parameter: it is assumed to read back what isoformat() writes and to refuse a text with neither a T nor a space. Date.UTC is in SpecMarks.v.
Theorems: `C98_rows`, `C98_mark`, `C98_highlights_partial`, `C98_behind_utc_refused`, `C98_no_timezone_refused`, `C98_other_timezone_refuted`.

**C99 - The inspection of a fitted anomaly detector** (partial). Partial because the automatic limits are those of the first label (C99_range) and not of each one (C99_own_range_refuted). C99_series is for labels which are not the name of the prediction or of the error of another (own_names). The check for store_errors comes after the errors are read, so that a KeyError is raised in place of its ValueError (C99_not_stored). What is printed of the distribution as it was stored and the drawings are not modelled.
Theorems: `C99_details`, `C99_range`, `C99_succeeds`, `C99_not_stored`, `C99_series`, `C99_own_range_refuted`.

**C100 - The indexes of resampled and aggregated items** (proved). C100_resample_indexes and C100_aggregate_indexes give the exact value of every index of every new item (index_mean in SpecTransform.v), C100_mean its range and when it is None. As for C46, the aggregation is for a series with no data losses or with a point in every slot (where there is none the data of the source are changed on the way).
Theorems: `C100_resample_indexes`, `C100_aggregate_indexes`, `C100_mean`.

**C101 - Derivatives and integrals with any sampling** (partial). C101_derivative and C101_straight_line hold for any sampling and any labels. C101_integral_partial is for series with one label: with two or more the claim is false of the code (C101_several_labels_refuted), since the slope found for a label is used for the next one. At the ends of a series with variable resolution the derivative is not the slope (C101_ends_refuted: 3 instead of 1), since the change is divided by the detected sampling interval and not by the time it took.
Theorems: `C101_derivative`, `C101_integral_partial`, `C101_straight_line`, `C101_ends_refuted`, `C101_several_labels_refuted`.

**C102 - The derivative of floats** (partial). The derivative with the rounding of doubles (FloatCalc.v; overflow, infinities and nan are not modelled, as in C89). C102_line_exact is for values and times of at most 53 bits; in general it fails: C102_line_refuted, where 0.1, 0.2, 0.3 have different derivatives at the two ends.
Theorems: `C102_derivative`, `C102_sign`, `C102_line_exact`, `C102_line_refuted`.

**C103 - The integral of floats** (partial). The integral (one label, with an integration constant, without offset) with the rounding of doubles (FloatInt.v; overflow, infinities and nan are not modelled, as in C89). That the integral is always the double closest to the real one is refuted: C103_closest_refuted, for the constant 0.7 over three minutes.
Theorems: `C103_integral_exact`, `C103_derivative_of_integral`, `C103_closest_refuted`.


## 6. Function by function

The model files which cite lines of each function of the library. A function without a file is not modelled (or, for the
one-line delegations, only through the function it calls).

| file | function | lines | model |
|---|---|---|---|
| datastructures.py | `Point.__init__` | 33-45 | Generic.v, Make.v |
| datastructures.py | `Point.__coordinates_repr__` | 48-52 | Generic.v, Make.v |
| datastructures.py | `Point.__repr__` | 54-55 | Generic.v, Make.v |
| datastructures.py | `Point.__str__` | 57-58 | Generic.v, Make.v |
| datastructures.py | `Point.__eq__` | 60-69 | Generic.v, Items.v, Make.v |
| datastructures.py | `Point.__gt__` | 71-81 | Generic.v, Make.v |
| datastructures.py | `Point.__getitem__` | 83-84 | Generic.v, Make.v |
| datastructures.py | `TimePoint.__init__` | 96-143 | Csv.v, Items.v, Make.v |
| datastructures.py | `TimePoint.t` | 146-148 | Items.v, Make.v |
| datastructures.py | `TimePoint.__gt__` | 150-154 | Items.v, Make.v |
| datastructures.py | `TimePoint.tz` | 157-162 | Items.v, Make.v |
| datastructures.py | `TimePoint.change_tz` | 164-166 | Access.v, Items.v, Make.v |
| datastructures.py | `TimePoint.dt` | 169-171 | Items.v, Make.v |
| datastructures.py | `TimePoint.__repr__` | 173-174 | Make.v |
| datastructures.py | `DataPoint.__init__` | 187-221 | Alias.v, Csv.v, Generic.v, Items.v, Make.v |
| datastructures.py | `DataPoint.__repr__` | 223-227 | Generic.v, Make.v |
| datastructures.py | `DataPoint.__eq__` | 229-235 | Generic.v, Items.v, Make.v |
| datastructures.py | `DataPoint.data` | 238-243 | Items.v, Make.v |
| datastructures.py | `DataPoint.data_indexes` | 246-248 | Make.v |
| datastructures.py | `DataPoint.data_indexes` | 251-252 | Make.v |
| datastructures.py | `DataPoint.data_loss` | 255-261 | Items.v, Make.v |
| datastructures.py | `DataPoint.data_labels` | 263-269 | Items.v, Make.v |
| datastructures.py | `DataPoint._data_by_label` | 271-278 | Items.v, Make.v |
| datastructures.py | `DataTimePoint.__repr__` | 293-297 | - |
| datastructures.py | `Slot.__init__` | 316-341 | Forecast.v, Generic.v, Items.v, Make.v |
| datastructures.py | `Slot.__repr__` | 343-344 | Generic.v, Make.v |
| datastructures.py | `Slot.__str__` | 346-347 | Generic.v, Make.v |
| datastructures.py | `Slot.__eq__` | 349-354 | Generic.v, Items.v, Make.v |
| datastructures.py | `Slot.__succedes__` | 356-360 | Generic.v, Make.v |
| datastructures.py | `Slot._compute_length` | 363-368 | Generic.v, Make.v |
| datastructures.py | `Slot.length` | 371-377 | Generic.v, Make.v |
| datastructures.py | `Slot.unit` | 380-392 | Generic.v, Make.v |
| datastructures.py | `TimeSlot.__init__` | 407-433 | Items.v, Make.v |
| datastructures.py | `TimeSlot.__succedes__` | 437-444 | Items.v, Make.v |
| datastructures.py | `TimeSlot.change_tz` | 446-450 | Access.v, Make.v |
| datastructures.py | `TimeSlot.unit` | 453-460 | Make.v |
| datastructures.py | `TimeSlot.t` | 463-465 | Make.v |
| datastructures.py | `TimeSlot.dt` | 468-470 | Make.v |
| datastructures.py | `TimeSlot.__repr__` | 472-473 | Make.v |
| datastructures.py | `DataSlot.__init__` | 489-523 | Alias.v, Forecast.v, Items.v, Make.v |
| datastructures.py | `DataSlot.__repr__` | 525-529 | Make.v |
| datastructures.py | `DataSlot.__eq__` | 531-534 | Generic.v, Items.v, Make.v |
| datastructures.py | `DataSlot.data` | 537-542 | Items.v, Make.v |
| datastructures.py | `DataSlot.data_indexes` | 545-547 | Make.v |
| datastructures.py | `DataSlot.data_indexes` | 550-551 | Make.v |
| datastructures.py | `DataSlot.data_loss` | 554-560 | Items.v, Make.v |
| datastructures.py | `DataSlot.data_labels` | 562-568 | Items.v, Make.v |
| datastructures.py | `DataSlot._data_by_label` | 570-577 | Items.v, Make.v |
| datastructures.py | `DataTimeSlot.__repr__` | 593-597 | Make.v |
| datastructures.py | `Series.__init__` | 626-632 | Float.v, Generic.v, Series.v |
| datastructures.py | `Series.item_type` | 635-640 | Float.v, Generic.v, Series.v |
| datastructures.py | `Series.append` | 642-699 | Generic.v, Items.v, Series.v |
| datastructures.py | `Series.__sum__` | 701-702 | Generic.v, Series.v |
| datastructures.py | `Series.__hash__` | 704-705 | Generic.v, Series.v |
| datastructures.py | `Series.__repr__` | 707-708 | Generic.v, Series.v |
| datastructures.py | `Series.__str__` | 710-711 | Generic.v, Series.v |
| datastructures.py | `Series._all_data_indexes` | 713-735 | Generic.v, Series.v, Transform.v |
| datastructures.py | `Series.insert` | 738-778 | Csv.v, Generic.v, Series.v |
| datastructures.py | `Series.remove` | 780-792 | Generic.v, Series.v |
| datastructures.py | `Series.pop` | 794-812 | Generic.v, Series.v |
| datastructures.py | `Series.clear` | 814-816 | Generic.v, Series.v |
| datastructures.py | `Series.index` | 818-827 | Generic.v, Lists.v, Series.v |
| datastructures.py | `Series.copy` | 829-831 | Generic.v, Lists.v, Series.v |
| datastructures.py | `Series.duplicate` | 833-835 | Generic.v, Series.v |
| datastructures.py | `Series._item_by_i` | 837-838 | Generic.v, Series.v |
| datastructures.py | `Series._slice_by_i` | 840-841 | Generic.v, Series.v |
| datastructures.py | `Series.extend` | 844-846 | Generic.v, Series.v |
| datastructures.py | `Series.count` | 848-850 | Generic.v, Series.v |
| datastructures.py | `Series.sort` | 852-854 | Generic.v, Series.v |
| datastructures.py | `Series.reverse` | 856-858 | Generic.v, Series.v |
| datastructures.py | `Series.__getitem__` | 865-878 | Generic.v, Series.v |
| datastructures.py | `Series.data_labels` | 885-894 | Access.v |
| datastructures.py | `Series.rename_data_label` | 896-902 | Access.v |
| datastructures.py | `Series.remove_data_label` | 904-910 | Access.v |
| datastructures.py | `Series.remove_data_index` | 912-917 | Access.v |
| datastructures.py | `Series.remove_data_loss` | 919-924 | Access.v |
| datastructures.py | `Series.min` | 933-937 | - |
| datastructures.py | `Series.max` | 939-943 | Alias.v |
| datastructures.py | `Series.avg` | 945-949 | Alias.v |
| datastructures.py | `Series.sum` | 951-955 | Alias.v |
| datastructures.py | `Series.derivative` | 957-962 | Alias.v |
| datastructures.py | `Series.integral` | 964-970 | Alias.v |
| datastructures.py | `Series.diff` | 972-976 | Alias.v |
| datastructures.py | `Series.csum` | 978-983 | Alias.v |
| datastructures.py | `Series.normalize` | 985-990 | Alias.v |
| datastructures.py | `Series.rescale` | 992-997 | Alias.v |
| datastructures.py | `Series.offset` | 999-1004 | Alias.v |
| datastructures.py | `Series.mavg` | 1006-1011 | Alias.v |
| datastructures.py | `Series.merge` | 1013-1016 | - |
| datastructures.py | `Series.get` | 1018-1020 | - |
| datastructures.py | `Series.filter` | 1022-1025 | - |
| datastructures.py | `Series.slice` | 1027-1030 | - |
| datastructures.py | `Series.select` | 1032-1035 | - |
| datastructures.py | `Series.aggregate` | 1042-1046 | Transform.v |
| datastructures.py | `Series.resample` | 1048-1052 | Transform.v |
| datastructures.py | `Series._summary` | 1059-1102 | Summary.v |
| datastructures.py | `Series.summary` | 1104-1114 | Summary.v |
| datastructures.py | `Series.inspect` | 1116-1122 | Summary.v |
| datastructures.py | `Series.contents` | 1124-1126 | Access.v |
| datastructures.py | `Series.head` | 1128-1134 | Access.v |
| datastructures.py | `Series.tail` | 1136-1142 | Access.v |
| datastructures.py | `TimeSeries.__repr__` | 1190-1199 | Series.v |
| datastructures.py | `TimeSeries.__init__` | 1206-1215 | Series.v |
| datastructures.py | `TimeSeries.append` | 1222-1310 | Cache.v, Float.v, Series.v |
| datastructures.py | `TimeSeries._item_by_t` | 1312-1317 | Access.v, Series.v |
| datastructures.py | `TimeSeries.__getitem__` | 1324-1351 | Access.v, Series.v |
| datastructures.py | `TimeSeries.tz` | 1358-1375 | Access.v, Series.v |
| datastructures.py | `TimeSeries.change_tz` | 1377-1381 | Access.v, Series.v |
| datastructures.py | `TimeSeries.as_tz` | 1383-1387 | Access.v, Series.v |
| datastructures.py | `TimeSeries._autodetected_sampling_interval` | 1395-1403 | Cache.v, Series.v |
| datastructures.py | `TimeSeries._autodetected_sampling_interval_confidence` | 1406-1414 | Cache.v, Series.v |
| datastructures.py | `TimeSeries.resolution` | 1417-1433 | Series.v |
| datastructures.py | `TimeSeries.guess_resolution` | 1435-1459 | Cache.v |
| datastructures.py | `TimeSeries._resolution_string` | 1462-1471 | Cache.v |
| datastructures.py | `TimeSeries.load` | 1479-1510 | Load.v |
| datastructures.py | `TimeSeries.save` | 1513-1517 | Load.v |
| datastructures.py | `TimeSeries.from_dict` | 1525-1565 | Access.v, Convert.v |
| datastructures.py | `TimeSeries.to_dict` | 1567-1572 | Access.v |
| datastructures.py | `TimeSeries.from_json` | 1576-1579 | Convert.v |
| datastructures.py | `TimeSeries.to_json` | 1582-1587 | Convert.v |
| datastructures.py | `TimeSeries.from_csv` | 1591-1602 | Csv.v |
| datastructures.py | `TimeSeries.to_csv` | 1604-1608 | Csv.v |
| datastructures.py | `TimeSeries.from_df` | 1612-1726 | Convert.v |
| datastructures.py | `TimeSeries.to_df` | 1728-1752 | Convert.v, Wrappers.v |
| datastructures.py | `TimeSeries.slice` | 1759-1762 | - |
| datastructures.py | `TimeSeries.get` | 1764-1766 | - |
| datastructures.py | `TimeSeries.view` | 1768-1770 | - |
| datastructures.py | `TimeSeries.plot` | 1776-1789 | - |
| datastructures.py | `TimeSeriesView.__init__` | 1800-1806 | Access.v |
| datastructures.py | `TimeSeriesView.__getitem__` | 1808-1845 | Access.v |
| datastructures.py | `TimeSeriesView.__iter__` | 1847-1852 | Access.v |
| datastructures.py | `TimeSeriesView.__next__` | 1854-1867 | Access.v |
| datastructures.py | `TimeSeriesView.__len__` | 1869-1873 | Access.v |
| datastructures.py | `TimeSeriesView.__repr__` | 1875-1879 | Access.v |
| datastructures.py | `TimeSeriesView.__bool__` | 1881-1885 | Access.v, Models.v |
| datastructures.py | `TimeSeriesView.item_type` | 1888-1892 | Access.v, Models.v |
| datastructures.py | `TimeSeriesView.resolution` | 1895-1899 | Access.v, Models.v, Wrappers.v |
| datastructures.py | `TimeSeriesView.data_labels` | 1901-1905 | Access.v, Models.v |
| datastructures.py | `TimeSeriesView.materialize` | 1907-1912 | Access.v |
| datastructures.py | `TimeSeriesView.duplicate` | 1914-1915 | Access.v |
| interpolators.py | `Interpolator.evaluate` | 12-13 | - |
| interpolators.py | `LinearInterpolator.__init__` | 19-21 | Intervals.v |
| interpolators.py | `LinearInterpolator.evaluate` | 23-80 | FloatOps.v, Intervals.v |
| interpolators.py | `UniformInterpolator.__init__` | 86-88 | Intervals.v |
| interpolators.py | `UniformInterpolator.evaluate` | 90-124 | FloatOps.v, Intervals.v |
| logger.py | `setup` | 14-37 | - |
| models/anomaly_detectors.py | `AnomalyDetector.predict` | 38-40 | - |
| models/anomaly_detectors.py | `AnomalyDetector.evaluate` | 42-44 | - |
| models/anomaly_detectors.py | `AnomalyDetector.cross_validate` | 46-48 | - |
| models/anomaly_detectors.py | `AnomalyDetector.mark_events` | 51-128 | Events.v |
| models/anomaly_detectors.py | `ModelBasedAnomalyDetector.model_class` | 165-169 | - |
| models/anomaly_detectors.py | `ModelBasedAnomalyDetector.__init__` | 171-189 | - |
| models/anomaly_detectors.py | `ModelBasedAnomalyDetector.load` | 192-205 | Save.v |
| models/anomaly_detectors.py | `ModelBasedAnomalyDetector.save` | 207-217 | Save.v |
| models/anomaly_detectors.py | `ModelBasedAnomalyDetector._get_actual_value` | 219-221 | Anomaly.v |
| models/anomaly_detectors.py | `ModelBasedAnomalyDetector._get_predicted_value` | 223-252 | Anomaly.v |
| models/anomaly_detectors.py | `ModelBasedAnomalyDetector.fit` | 255-427 | Anomaly.v, Inspect.v |
| models/anomaly_detectors.py | `ModelBasedAnomalyDetector.inspect` | 429-481 | Inspect.v |
| models/anomaly_detectors.py | `ModelBasedAnomalyDetector.preprocess` | 483-515 | Anomaly.v |
| models/anomaly_detectors.py | `ModelBasedAnomalyDetector.apply` | 518-774 | Anomaly.v |
| models/anomaly_detectors.py | `ModelBasedAnomalyDetector.error_distribution_function` | 777-780 | - |
| models/base.py | `Model.__init__` | 52-77 | Models.v, Save.v |
| models/base.py | `Model.id` | 80-85 | - |
| models/base.py | `Model.load` | 88-109 | Save.v |
| models/base.py | `Model.save` | 111-147 | Save.v |
| models/base.py | `Model._is_fit_implemented` | 150-159 | Models.v |
| models/base.py | `Model._is_parametric` | 161-166 | - |
| models/base.py | `Model.fit_function` | 169-202 | Models.v, Save.v |
| models/base.py | `Model.fit_function.do_fit` | 172-200 | Models.v, Save.v |
| models/base.py | `Model.fit` | 204-206 | - |
| models/base.py | `Model.predict_function` | 209-242 | Forecast.v, Models.v, Wrappers.v |
| models/base.py | `Model.predict_function.do_predict` | 212-240 | Forecast.v, Models.v, Wrappers.v |
| models/base.py | `Model.predict` | 244-246 | Models.v |
| models/base.py | `Model.apply_function` | 249-276 | Models.v |
| models/base.py | `Model.apply_function.do_apply` | 252-274 | Models.v |
| models/base.py | `Model.apply` | 278-280 | Models.v |
| models/base.py | `Model.evaluate_function` | 283-310 | Models.v |
| models/base.py | `Model.evaluate_function.do_evaluate` | 286-308 | Models.v |
| models/base.py | `Model.evaluate` | 312-314 | - |
| models/base.py | `Model.cross_validate` | 316-447 | Models.v |
| models/base.py | `_ProphetModel._remove_timezone` | 458-459 | Wrappers.v |
| models/base.py | `_ProphetModel._from_timeseria_to_prophet` | 462-483 | Wrappers.v |
| models/base.py | `_ARIMAModel._get_start_end_indexes` | 493-532 | - |
| models/base.py | `_KerasModel._load_keras_model` | 542-547 | - |
| models/base.py | `_KerasModel._save_keras_model` | 549-556 | - |
| models/base.py | `_KerasModel._to_matrix_representation` | 563-604 | Lstm.v |
| models/base.py | `_KerasModel._compute_window_features` | 608-672 | Lstm.v |
| models/forecasters.py | `Forecaster._get_actual_value` | 59-61 | Evaluate.v |
| models/forecasters.py | `Forecaster._get_predicted_value` | 63-83 | Evaluate.v |
| models/forecasters.py | `Forecaster.forecast` | 85-135 | Forecast.v |
| models/forecasters.py | `Forecaster.apply` | 138-193 | Forecast.v |
| models/forecasters.py | `Forecaster.evaluate` | 196-432 | Evaluate.v |
| models/forecasters.py | `PeriodicAverageForecaster.window` | 448-449 | - |
| models/forecasters.py | `PeriodicAverageForecaster.__init__` | 451-462 | Forecast.v |
| models/forecasters.py | `PeriodicAverageForecaster.load` | 465-470 | Forecast.v, Save.v |
| models/forecasters.py | `PeriodicAverageForecaster.fit` | 473-526 | Forecast.v, Recon.v, Save.v |
| models/forecasters.py | `PeriodicAverageForecaster.predict` | 530-587 | Forecast.v |
| models/forecasters.py | `PeriodicAverageForecaster._plot_averages` | 589-596 | - |
| models/forecasters.py | `ProphetForecaster.fit` | 611-635 | Wrappers.v |
| models/forecasters.py | `ProphetForecaster.predict` | 638-667 | Wrappers.v |
| models/forecasters.py | `ARIMAForecaster.__init__` | 688-695 | Wrappers.v |
| models/forecasters.py | `ARIMAForecaster.fit` | 698-716 | Wrappers.v |
| models/forecasters.py | `ARIMAForecaster.predict` | 719-730 | Wrappers.v |
| models/forecasters.py | `AARIMAForecaster.fit` | 745-775 | Wrappers.v |
| models/forecasters.py | `AARIMAForecaster.predict` | 778-787 | Wrappers.v |
| models/forecasters.py | `LSTMForecaster.window` | 808-809 | Lstm.v |
| models/forecasters.py | `LSTMForecaster.__init__` | 811-828 | Lstm.v |
| models/forecasters.py | `LSTMForecaster.load` | 831-835 | Lstm.v |
| models/forecasters.py | `LSTMForecaster.save` | 837-840 | Lstm.v |
| models/forecasters.py | `LSTMForecaster.fit` | 843-969 | Lstm.v |
| models/forecasters.py | `LSTMForecaster.predict` | 972-1042 | Lstm.v |
| models/reconstructors.py | `Reconstructor.apply` | 45-82 | Recon.v |
| models/reconstructors.py | `Reconstructor._reconstruct` | 84-123 | Recon.v |
| models/reconstructors.py | `Reconstructor.evaluate` | 126-303 | Evaluate.v |
| models/reconstructors.py | `LinearInterpolationReconstructor.predict` | 331-355 | Evaluate.v, Recon.v |
| models/reconstructors.py | `PeriodicAverageReconstructor.fit` | 372-430 | Evaluate.v, Recon.v, Save.v |
| models/reconstructors.py | `PeriodicAverageReconstructor.predict` | 433-465 | Evaluate.v, Recon.v, Save.v |
| models/reconstructors.py | `PeriodicAverageReconstructor._plot_averages` | 467-474 | - |
| models/reconstructors.py | `ProphetReconstructor.fit` | 492-510 | Wrappers.v |
| models/reconstructors.py | `ProphetReconstructor.predict` | 513-539 | Wrappers.v |
| operations.py | `Operation.__str__` | 28-29 | Transform.v |
| operations.py | `Operation.__repr__` | 32-33 | Transform.v |
| operations.py | `Operation.__call__` | 35-62 | Access.v, Ops.v, Transform.v |
| operations.py | `Operation.__name__` | 65-66 | - |
| operations.py | `Max.__init__` | 76-77 | Ops.v |
| operations.py | `Max._call` | 79-97 | Ops.v |
| operations.py | `Min.__init__` | 104-105 | Ops.v |
| operations.py | `Min._call` | 107-124 | Ops.v |
| operations.py | `Avg._call` | 132-188 | FloatOps.v, Items.v, Ops.v |
| operations.py | `Sum._call` | 194-206 | FloatOps.v, Ops.v |
| operations.py | `Derivative._call` | 216-352 | Alias.v, FloatCalc.v, FloatOps.v, Ops.v |
| operations.py | `Integral._call` | 358-511 | Alias.v, FloatInt.v, FloatOps.v, Ops.v |
| operations.py | `Diff._call` | 516-519 | FloatOps.v, Ops.v |
| operations.py | `CSum._call` | 524-527 | FloatOps.v, Ops.v |
| operations.py | `Normalize._call` | 533-613 | Alias.v, FloatOps.v, Ops.v |
| operations.py | `Rescale._call` | 619-677 | Alias.v, FloatOps.v, Ops.v |
| operations.py | `Offset._call` | 683-742 | Alias.v, FloatOps.v, Ops.v |
| operations.py | `MAvg._call` | 748-803 | Alias.v, FloatOps.v, Ops.v |
| operations.py | `Get.__call__` | 809-813 | Access.v, Series.v |
| operations.py | `Get._call` | 815-848 | Access.v, Series.v |
| operations.py | `Filter._call` | 854-878 | Access.v, Alias.v, Ops.v |
| operations.py | `Slice._call` | 884-999 | Access.v |
| operations.py | `Merge._call` | 1005-1148 | Alias.v, Ops.v |
| operations.py | `Select._call` | 1158-1187 | Alias.v, Ops.v |
| plots.py | `to_rgba_str_from_norm_rgb` | 100-101 | - |
| plots.py | `_utc_fake_s_from_dt` | 103-110 | Marks.v |
| plots.py | `_check_data_for_plot` | 112-125 | - |
| plots.py | `_to_dg_time` | 128-135 | Marks.v |
| plots.py | `_to_dg_data` | 137-349 | Marks.v, Plots.v |
| plots.py | `dygraphs_plot` | 356-1160 | Marks.v, Plots.v |
| plots.py | `matplotlib_plot` | 1168-1172 | - |
| storages.py | `Storage.get` | 32-33 | - |
| storages.py | `Storage.put` | 35-36 | - |
| storages.py | `CSVFileStorage.__init__` | 87-161 | Csv.v |
| storages.py | `CSVFileStorage.get` | 164-735 | Csv.v |
| storages.py | `CSVFileStorage.put` | 738-788 | Csv.v, Load.v |
| transformations.py | `_TimeSeriesDenseView.__init__` | 28-42 | - |
| transformations.py | `_TimeSeriesDenseView.__getitem__` | 44-51 | - |
| transformations.py | `_TimeSeriesDenseView.__iter__` | 53-56 | Transform.v |
| transformations.py | `_TimeSeriesDenseView.__next__` | 58-133 | Intervals.v, Transform.v |
| transformations.py | `_TimeSeriesDenseView.__len__` | 135-143 | Transform.v |
| transformations.py | `_TimeSeriesDenseView.__repr__` | 145-149 | - |
| transformations.py | `_TimeSeriesDenseView.item_type` | 152-154 | - |
| transformations.py | `_TimeSeriesDenseView.resolution` | 157-158 | - |
| transformations.py | `_TimeSeriesDenseView.data_labels` | 160-161 | - |
| transformations.py | `_compute_new` | 164-371 | Items.v, Transform.v |
| transformations.py | `Transformation.__str__` | 382-383 | - |
| transformations.py | `Transformation.process` | 385-694 | Cache.v, Intervals.v, Transform.v |
| transformations.py | `Resampler.__init__` | 704-717 | Transform.v |
| transformations.py | `Resampler.process` | 719-721 | Transform.v |
| transformations.py | `Aggregator.__init__` | 731-755 | Transform.v |
| transformations.py | `Aggregator.process` | 757-759 | Transform.v |
| units.py | `Unit.__init__` | 22-24 | Utils.v |
| units.py | `Unit.__repr__` | 26-27 | Utils.v |
| units.py | `Unit.__add__` | 29-45 | Generic.v, Utils.v |
| units.py | `Unit.__radd__` | 47-48 | Generic.v, Utils.v |
| units.py | `Unit.__sub__` | 50-66 | Utils.v |
| units.py | `Unit.__rsub__` | 68-69 | Utils.v |
| units.py | `Unit.__truediv__` | 71-80 | Utils.v |
| units.py | `Unit.__rtruediv__` | 82-83 | Utils.v |
| units.py | `Unit.__mul__` | 85-94 | Utils.v |
| units.py | `Unit.__rmul__` | 96-97 | Utils.v |
| units.py | `Unit.__eq__` | 99-108 | Utils.v |
| units.py | `TimeUnit.__init__` | 149-155 | Forecast.v, Items.v, Utils.v |
| units.py | `TimeUnit.__radd__` | 158-173 | Forecast.v, Items.v, Ops.v, Utils.v |
| units.py | `TimeUnit.__rsub__` | 175-182 | Items.v, Ops.v, Utils.v |
| units.py | `TimeUnit.as_seconds` | 185-187 | Items.v, Ops.v |
| units.py | `TimeUnit.ceil` | 189-191 | Items.v, Ops.v |
| units.py | `TimeUnit.floor` | 193-195 | Items.v, Ops.v |
| units.py | `TimeUnit.round` | 197-199 | Items.v |
| units.py | `TimeUnit.shift` | 201-203 | Items.v |
| utilities.py | `ensure_reproducibility` | 30-45 | - |
| utilities.py | `is_numerical` | 48-59 | - |
| utilities.py | `detect_encoding` | 62-83 | - |
| utilities.py | `detect_sampling_interval` | 86-139 | Csv.v, Intervals.v |
| utilities.py | `detect_periodicity` | 142-218 | Periodicity.v |
| utilities.py | `mean_absolute_percentage_error` | 221-229 | Utils.v |
| utilities.py | `max_absolute_percentage_error` | 232-245 | Utils.v |
| utilities.py | `mean_absolute_error` | 248-250 | Utils.v |
| utilities.py | `max_absolute_error` | 253-265 | Utils.v |
| utilities.py | `mean_absolute_log_error` | 268-275 | Utils.v |
| utilities.py | `max_absolute_log_error` | 278-290 | Utils.v |
| utilities.py | `mean_squared_error` | 293-295 | Utils.v |
| utilities.py | `rescale` | 298-324 | Utils.v |
| utilities.py | `os_shell` | 328-389 | - |
| utilities.py | `DistributionFunction.__init__` | 395-403 | Anomaly.v |
| utilities.py | `DistributionFunction.__call__` | 405-406 | Anomaly.v |
| utilities.py | `DistributionFunction.plot` | 408-427 | Anomaly.v |
| utilities.py | `DistributionFunction.adherence` | 429-431 | Anomaly.v |
| utilities.py | `DistributionFunction.find_x` | 433-449 | Anomaly.v |
| utilities.py | `DistributionFunction.find_x.scaled_gaussian` | 444-445 | Anomaly.v |
| utilities.py | `_Gaussian.__init__` | 457-460 | - |
| utilities.py | `_Gaussian.__call__` | 462-463 | - |
| utilities.py | `_Gaussian.cumulative` | 465-466 | - |
| utilities.py | `_Gaussian.from_data` | 469-471 | - |
| utilities.py | `_Gaussian.adherence` | 473-474 | - |
| utilities.py | `_Gaussian.plot` | 476-503 | - |
| utilities.py | `_Gaussian.find_xes` | 506-517 | - |
| utilities.py | `_Gaussian.find_xes.scaled_gaussian` | 512-513 | - |
| utilities.py | `_is_close` | 524-525 | Items.v |
| utilities.py | `_is_almost_equal` | 528-532 | Intervals.v |
| utilities.py | `_set_from_t_and_to_t` | 534-555 | - |
| utilities.py | `_item_is_in_range` | 558-589 | - |
| utilities.py | `_compute_validity_regions` | 592-654 | Intervals.v |
| utilities.py | `_compute_coverage` | 657-719 | FloatOps.v, Intervals.v |
| utilities.py | `_compute_data_loss` | 722-801 | FloatOps.v, Intervals.v |
| utilities.py | `_check_timeseries` | 804-817 | Models.v |
| utilities.py | `_check_resolution` | 820-845 | Models.v |
| utilities.py | `_check_resolution.__check_resolution` | 822-841 | Models.v |
| utilities.py | `_check_data_labels` | 847-853 | Models.v |
| utilities.py | `_check_series_of_points_or_slots` | 855-858 | Ops.v |
| utilities.py | `_check_indexed_data` | 860-864 | Ops.v |
| utilities.py | `_get_periodicity_index` | 866-913 | Recon.v |
| utilities.py | `_sanitize_string` | 916-927 | Csv.v |
| utilities.py | `_is_list_of_integers` | 930-937 | - |
| utilities.py | `_to_float` | 940-952 | Csv.v |
| utilities.py | `_to_time_unit_string` | 956-971 | Utils.v |
| utilities.py | `_compute_distribution_approximation_errors` | 974-1014 | - |
| utilities.py | `_detect_notebook_major_version` | 1017-1030 | - |
| utilities.py | `_is_index_based` | 1033-1040 | - |
| utilities.py | `_is_key_based` | 1043-1052 | - |
| utilities.py | `_has_numerical_values` | 1055-1074 | - |
