{
 "claims": [
  {
   "property": "C01",
   "status": "proved",
   "theorems": [
    "C01_append_keeps_order",
    "C01_append_effect",
    "C01_later_point_accepted"
   ],
   "note": "Full: any append history; plus exact effect of a call and acceptance of later points."
  },
  {
   "property": "C02",
   "status": "partial",
   "theorems": [
    "C02_slots_contiguous_refuted",
    "C02_slots_partial",
    "C02_slots_on_grid_partial"
   ],
   "note": "Exact succession refuted (relative tolerance 1e-9 is 1.7 s at current epochs: the same 1-second slot is accepted twice). Proved: same tz, same/close unit, succession up to 1e-9 for every history, exact on grids with |t|/step < 1e9."
  },
  {
   "property": "C03",
   "status": "partial",
   "theorems": [
    "C03_same_shape_partial",
    "C03_same_shape_refuted",
    "C03_same_type_refuted"
   ],
   "note": "Proved when the first item has non-empty data; refuted for empty first data and for subclasses."
  },
  {
   "property": "C04",
   "status": "partial",
   "theorems": [
    "C04_rejected_append_keeps_items",
    "C04_rejected_append_no_effect_refuted",
    "C04_rejected_append_resolution_refuted",
    "C04_rejected_slot_no_effect_partial",
    "C04_rejected_duplicate_no_effect_partial"
   ],
   "note": "Items never change on rejection (all series); slot series and duplicate timestamps: no effect at all; refuted in general for points (prev_t is overwritten in a finally block)."
  },
  {
   "property": "C05",
   "status": "proved",
   "theorems": [
    "C05_resolution_of_points",
    "C05_resolution_truncation_exact",
    "C05_resolution_of_slots"
   ],
   "note": "Equivalence between the incrementally kept resolution and the spacing of all consecutive points, for every accepted history; the TimeUnit parser is an oracle."
  },
  {
   "property": "C06",
   "status": "partial",
   "theorems": [
    "C06_insert_order_refuted",
    "C06_insert_partial",
    "C06_insert_position",
    "C06_insert_middle",
    "C06_order_meaning"
   ],
   "note": "Refuted: a middle insert only checks the previous item. Ends, rejections and slot series proved; C06_insert_position gives the place of the item (also for negative positions), C06_insert_middle exactly when an insertion in the middle is accepted and when it keeps the order."
  },
  {
   "property": "C07",
   "status": "partial",
   "theorems": [
    "C07_pop",
    "C07_remove",
    "C07_clear",
    "C07_usable_after_pop_refuted",
    "C07_clear_is_fresh_refuted"
   ],
   "note": "pop/remove/clear remove exactly the addressed item and keep order; refuted: a popped point cannot be appended again, a cleared series keeps the old resolution."
  },
  {
   "property": "C08",
   "status": "partial",
   "theorems": [
    "C08_no_mutation_breaks_order_refuted",
    "C08_mutations_keep_order_partial"
   ],
   "note": "Refuted through middle insert only; every other combination of mutations keeps order."
  },
  {
   "property": "C09",
   "status": "partial",
   "theorems": [
    "C09_get_by_position_partial",
    "C09_get_by_position_refuted"
   ],
   "note": "Proved for every position in range -n..n-1 and beyond -2n..n-1; refuted between: negative positions down to -2n succeed (the item lookup re-indexes)."
  },
  {
   "property": "C10",
   "status": "proved",
   "theorems": [
    "C10_get_by_time"
   ],
   "note": "Full: lookup by time returns the item whose (start) time is t, else an error."
  },
  {
   "property": "C11",
   "status": "partial",
   "theorems": [
    "C11_slice_by_position",
    "C11_brackets",
    "C11_head_tail",
    "C11_no_bounds_refuted",
    "C11_tail_zero_refuted"
   ],
   "note": "Slices with at least one bound are Python slices of the items; refuted: series[:] raises, tail(0) is the whole series."
  },
  {
   "property": "C12",
   "status": "proved",
   "theorems": [
    "C12_slice_by_time"
   ],
   "note": "Full for well-formed series."
  },
  {
   "property": "C13",
   "status": "proved",
   "theorems": [
    "C13_time_slices_partition"
   ],
   "note": "Full for point series."
  },
  {
   "property": "C14",
   "status": "proved",
   "theorems": [
    "C14_slice_is_well_formed",
    "C14_slice_resolution_by_position",
    "C14_slice_resolution_by_time"
   ],
   "note": "Full: well-formed, and the resolution of a slice is that of the source when it has one."
  },
  {
   "property": "C15",
   "status": "partial",
   "theorems": [
    "C15_view_contents",
    "C15_view_access_partial",
    "C15_view_slice_partial",
    "C15_view_access_refuted"
   ],
   "note": "Contents, length, in-window access and sub-slices proved; refuted: a negative index outside the window reaches items outside it."
  },
  {
   "property": "C16",
   "status": "partial",
   "theorems": [
    "C16_duplicate_points",
    "C16_duplicate_slots",
    "C16_duplicate_after_insert_refuted"
   ],
   "note": "duplicate returns an identical object state for every series built by accepted appends; materialize is covered in C15. Refuted for series whose order was broken by insert."
  },
  {
   "property": "C17",
   "status": "partial",
   "theorems": [
    "C17_change_tz_partial",
    "C17_as_tz_partial",
    "C17_change_tz_empty_refuted"
   ],
   "note": "Proved for non-empty series; refuted for the empty one (UnboundLocalError)."
  },
  {
   "property": "C18",
   "status": "proved",
   "theorems": [
    "C18_timezone_summary"
   ],
   "note": "Full: the common tz, or UTC when there is more than one."
  },
  {
   "property": "C19",
   "status": "partial",
   "theorems": [
    "C19_dict_round_trip_points_partial",
    "C19_dict_round_trip_slots_partial",
    "C19_dict_round_trip_refuted"
   ],
   "note": "Proved when times have at most microsecond precision; refuted for points closer than that (the dictionary keys collide)."
  },
  {
   "property": "C20",
   "status": "partial",
   "theorems": [
    "C20_rename_label_partial",
    "C20_rename_label_succeeds",
    "C20_remove_label",
    "C20_remove_index",
    "C20_remove_data_loss",
    "C20_rename_onto_existing_refuted"
   ],
   "note": "Rename to a fresh label, remove label/index/data loss proved exactly; refuted: renaming onto an existing label destroys the latter's data."
  },
  {
   "property": "C21",
   "status": "proved",
   "theorems": [
    "C21_max",
    "C21_min"
   ],
   "note": "max()/min() for every series left by any history of calls with numeric data; every label and no other."
  },
  {
   "property": "C22",
   "status": "proved",
   "theorems": [
    "C22_sum",
    "C22_sum_splits"
   ],
   "note": "Exact sum for every label; additive under any split."
  },
  {
   "property": "C23",
   "status": "proved",
   "theorems": [
    "C23_avg",
    "C23_avg_weighted",
    "C23_avg_between_extremes"
   ],
   "note": "Plain and weighted mean, and between the extremes for non-negative weights with positive total."
  },
  {
   "property": "C24",
   "status": "partial",
   "theorems": [
    "C24_diff_of_csum",
    "C24_csum_of_diff_partial",
    "C24_csum_of_diff_refuted",
    "C24_offset_zero_refuted"
   ],
   "note": "diff(csum) full for constant resolution, any labels. csum(diff, offset) restores the series for >=3 points or >=2 slots (partial). Refuted: two points (TypeError), zero offset drops the first item, number offset on list data TypeError."
  },
  {
   "property": "C25",
   "status": "proved",
   "theorems": [
    "C25_csum",
    "C25_last_is_sum",
    "C25_csum_offset"
   ],
   "note": "Partial sums at every position, last value equals sum(); with offset one more leading item."
  },
  {
   "property": "C26",
   "status": "proved",
   "theorems": [
    "C26_derivative_of_linear"
   ],
   "note": "Exact slope everywhere for regular series (interval with <= 7 decimals parsed exactly by the unit library)."
  },
  {
   "property": "C27",
   "status": "partial",
   "theorems": [
    "C27_integral_of_derivative_partial",
    "C27_two_labels_refuted"
   ],
   "note": "Proved for one label, with the first value as integration constant; refuted for two labels (shared running component)."
  },
  {
   "property": "C28",
   "status": "proved",
   "theorems": [
    "C28_moving_average"
   ],
   "note": "Full for every window 1..len."
  },
  {
   "property": "C29",
   "status": "proved",
   "theorems": [
    "C29_normalize_values",
    "C29_normalize_range_and_order",
    "C29_normalize_idempotent",
    "C29_normalize_with_source_range"
   ],
   "note": "Exact linear map, range, order, idempotence; also explicit source range."
  },
  {
   "property": "C30",
   "status": "proved",
   "theorems": [
    "C30_rescale",
    "C30_offset",
    "C30_rescale_composes",
    "C30_offset_composes",
    "C30_rescale_inverse",
    "C30_offset_inverse"
   ],
   "note": "Point-wise, composition and inverse laws for numbers and per-label dictionaries."
  },
  {
   "property": "C31",
   "status": "proved",
   "theorems": [
    "C31_filter"
   ],
   "note": "Exactly the requested labels with original values and times; source unchanged is C35."
  },
  {
   "property": "C32",
   "status": "partial",
   "theorems": [
    "C32_merge_partial",
    "C32_merge_no_overlap",
    "C32_merge_refuted"
   ],
   "note": "Proved for series on a common time line (intersection, union of labels, means of common labels and indexes; empty when disjoint); refuted: misaligned series raise KeyError."
  },
  {
   "property": "C33",
   "status": "partial",
   "theorems": [
    "C33_select_partial",
    "C33_select_conjunction_refuted"
   ],
   "note": "Single equality condition proved (None if nothing matches); conjunctions raise NotImplementedError (refuted)."
  },
  {
   "property": "C34",
   "status": "partial",
   "theorems": [
    "C34_rescale_in_place",
    "C34_offset_in_place",
    "C34_normalize_in_place",
    "C34_in_place_refuted"
   ],
   "note": "rescale, offset, normalize agree in and out of place; refuted for csum (extra labels), derivative (KeyError on dicts, wrong values on lists)."
  },
  {
   "property": "C35",
   "status": "partial",
   "theorems": [
    "C35_source_unchanged",
    "C35_result_changes_partial",
    "C35_shared_indexes_refuted"
   ],
   "note": "Object-level model: source reads the same after any out-of-place operation and after data writes on the result; refuted for index dictionaries (shared) and slices (shared items)."
  },
  {
   "property": "C36",
   "status": "proved",
   "theorems": [
    "C36_validity_regions_tile",
    "C36_validity_regions_in_window"
   ],
   "note": "Exact tiling for all strictly increasing times and intervals, also within a time window. The cut option (never used by the library) is modelled but no claim is made on it."
  },
  {
   "property": "C37",
   "status": "proved",
   "theorems": [
    "C37_coverage_is_covered_fraction",
    "C37_coverage_bounds_and_extremes",
    "C37_coverage_additive",
    "C37_empty_interval_rejected"
   ],
   "note": "Covered fraction, in [0,1], 1 iff covered, 0 if no intersection, additive over sub-intervals."
  },
  {
   "property": "C38",
   "status": "partial",
   "theorems": [
    "C38_data_loss_is_missing_fraction",
    "C38_previous_losses_weighted_partial",
    "C38_shorter_slots_refuted",
    "C38_closer_points_refuted"
   ],
   "note": "1 - coverage with no previous losses; weighted previous losses proved for slots at least as long as the interval and points at least an interval apart; refuted otherwise (values above 1)."
  },
  {
   "property": "C39",
   "status": "partial",
   "theorems": [
    "C39_most_frequent_partial",
    "C39_up_to_twenty_points_partial",
    "C39_constant_resolution",
    "C39_rounded_partial",
    "C39_detection_terminates_refuted"
   ],
   "note": "Most frequent spacing proved unless more than 95% of the spacings are distinct (hence always up to 20 points) and after rounding; constant resolution full; termination refuted (21 points at triangular numbers)."
  },
  {
   "property": "C40",
   "status": "partial",
   "theorems": [
    "C40_linear_on_straight_line",
    "C40_linear_with_positions",
    "C40_bounded_by_neighbours",
    "C40_exact_on_points",
    "C40_reproduces_linear_signals",
    "C40_last_point_refuted",
    "C40_outside_refused",
    "C40_before_refuted"
   ],
   "note": "On the line, exact, bounded, linear signals; a time after the last point is refused. Refuted on the last point of the series (ValueError) and for a time before the first point, which is not refused but interpolated on the line through the LAST and the first points."
  },
  {
   "property": "C41",
   "status": "partial",
   "theorems": [
    "C41_mean_of_given_neighbours_partial",
    "C41_search_always_fails_refuted",
    "C41_outside_refused",
    "C41_first_position_refuted"
   ],
   "note": "Mean of the neighbours when their positions are given, and a time which is not between them is refused; refuted: the search always fails, and with previous position 0 nothing is checked at all."
  },
  {
   "property": "C42",
   "status": "proved",
   "theorems": [
    "C42_resample_constant_grid"
   ],
   "note": "Any wf dict point series with constant or variable resolution, any positive physical unit, any rounding which rounds up. Calendar units are rejected by the constructor."
  },
  {
   "property": "C43",
   "status": "partial",
   "theorems": [
    "C43_aggregate_slots_partial",
    "C43_refuted"
   ],
   "note": "Slots from the first unit boundary not before the series, contiguous, with the operation labels; count exact (the slots ending by the last point). Missing: series with previous data losses and slots with no point, where the call fails (C43_refuted)."
  },
  {
   "property": "C44",
   "status": "proved",
   "theorems": [
    "C44_resample_data_loss",
    "C44_aggregate_data_loss"
   ],
   "note": "Loss in [0,1], exactly the uncovered fraction, 0 if covered, 1 if not, for resampling and aggregation with any start/end on the boundaries, for points with no previous losses."
  },
  {
   "property": "C45",
   "status": "partial",
   "theorems": [
    "C45_resample_bounds",
    "C45_aggregate_bounds_partial",
    "C45_aggregate_refuted"
   ],
   "note": "Resampling: full, and each value is exactly the mean of the signal with straight lines in the gaps. Aggregation: for slots which contain a point or are in a gap; refuted otherwise (upsampling aggregation gives wrong values)."
  },
  {
   "property": "C46",
   "status": "partial",
   "theorems": [
    "C46_resample_start_end_partial",
    "C46_aggregate_start_end_partial",
    "C46_refuted"
   ],
   "note": "Nothing before the start; nothing after the end if it is a whole number of units after the start and not in a gap. Refuted: end in a gap is overrun, start/end of zero are ignored."
  },
  {
   "property": "C47",
   "status": "proved",
   "theorems": [
    "C47_dense_aggregate"
   ],
   "note": "Any series with no gaps and unit (calendar too) not shorter than the sampling interval: the average is weighted on the regions, whose weights make up the whole slot; sum, min and max are over the points of the slot."
  },
  {
   "property": "C48",
   "status": "partial",
   "theorems": [
    "C48_fit_before_use",
    "C48_compatible_series_partial",
    "C48_after_fit_exactly_compatible",
    "C48_refused_unchanged",
    "C48_unusable_fit_unchanged",
    "C48_cross_validation",
    "C48_failed_fit_refuted"
   ],
   "note": "All histories of fit/predict/apply/evaluate calls and resets, for any model logic (fit and call are arbitrary functions). Partial: the model does change when a re-fit fails (labels and resolution are overwritten, the old parameters stay and the model stays fitted), refuted by C48_failed_fit_refuted; every refused predict/apply/evaluate, and every fit refused by the checks, leaves the model unchanged."
  },
  {
   "property": "C49",
   "status": "partial",
   "theorems": [
    "C49_refused",
    "C49_save_changes_nothing_else",
    "C49_round_trip",
    "C49_context_required",
    "C49_reported_as_saved",
    "C49_periodic_forecaster",
    "C49_data_determine_the_forecaster",
    "C49_periodic_reconstructor_refuted",
    "C49_single_point_refuted",
    "C49_failed_save_refuted",
    "C49_nested",
    "C49_model_class_argument_refuted"
   ],
   "note": "For every model, path, file system and disk failure: refused saves change nothing, no save alters existing files or the model. Round trip proved for all data JSON represents (generic models, PeriodicAverageForecaster exactly, anomaly detectors with nested models), assuming the json module reads what it writes and that the string of the resolution is read as the same unit. Refuted: a PeriodicAverageReconstructor cannot predict after loading (KeyError); a model fitted on one point cannot be loaded; a save failing in json.dumps leaves a directory that blocks the path; a detector given its model class as argument cannot be loaded. Keras files of LSTMForecaster are not modelled."
  },
  {
   "property": "C50",
   "status": "partial",
   "theorems": [
    "C50_never_on_training_data",
    "C50_validation_parts",
    "C50_rounds",
    "C50_fits_on_the_rest_partial",
    "C50_fits_on_the_rest_refuted"
   ],
   "note": "All lengths, round numbers and model logics, as a spy on the calls made; C50_rounds says exactly what each round fits on, in which order, and what it evaluates. Partial: 'together they are the series' holds only when the model can update a fit; no model of the library can, and then in the middle rounds the items of the smaller part are not used at all (refuted by C50_fits_on_the_rest_refuted). Disjointness is unconditional."
  },
  {
   "property": "C51",
   "status": "partial",
   "theorems": [
    "C51_rows",
    "C51_built",
    "C51_features",
    "C51_fit",
    "C51_fit_succeeds",
    "C51_target_list_refuted",
    "C51_context_slots_refuted",
    "C51_single_item_differences_refuted"
   ],
   "note": "Matrix rows, their order, windows, targets and contexts are characterised exactly (C51_rows, for every series, window, limit), with totality (C51_built), the features of each window (C51_features) and what a whole fit hands to the training function, which is arbitrary (C51_fit, C51_fit_succeeds): no value of a target label of the target item or later is in its features. Refuted corners, as in the code: a list of targets raises UnboundLocalError, a context on slots AttributeError, differences on windows of one item IndexError."
  },
  {
   "property": "C52",
   "status": "proved",
   "theorems": [
    "C52_only_missing_data_changes",
    "C52_missing_runs_are_predicted",
    "C52_any_outcome"
   ],
   "note": "Any prediction function (dict of lists or list of dicts), any threshold, in place and not; also the state left by an application in place which raises half way. The per-item flag data_reconstructed is 1 exactly on the items at or above the threshold and 0 on the others; the other indexes are unchanged."
  },
  {
   "property": "C53",
   "status": "proved",
   "theorems": [
    "C53_on_the_line",
    "C53_succeeds_iff"
   ],
   "note": "Points and slots, any labels, any gap; the reconstructor raises exactly when the first or the last item is to be reconstructed."
  },
  {
   "property": "C54",
   "status": "partial",
   "theorems": [
    "C54_apply",
    "C54_any_outcome",
    "C54_succeeds_at_once",
    "C54_succeeds_one_at_a_time",
    "C54_spacing_refuted"
   ],
   "note": "Proved for every predictor (arbitrary function), with or without context data, in place or on a copy, on points and slots with a constant resolution, including what is left behind when the call raises half way (in place). C54_spacing_refuted: the resolution of points goes through a string which loses digits ('1.05' becomes '15s'), so the forecasts are not contiguous for such spacings; the theorems therefore ask that the resolution is the actual distance. The model's checks before apply are in C50."
  },
  {
   "property": "C55",
   "status": "partial",
   "theorems": [
    "C55_shifted_signal",
    "C55_continues_the_signal",
    "C55_on_its_own_history",
    "C55_period_one_refuted",
    "C55_moved_signal_overshoots",
    "C55_explicit_window_refuted"
   ],
   "note": "Proved for every periodicity of at least 2, given or detected, all labels, all steps, for fixed-length units and dst_affected=False, with the signal sampled on a grid aligned as in C59 (non-negative times, or a grid through the epoch). Refuted: a constant signal with periodicity 1 raises ZeroDivisionError; an explicit window raises UnboundLocalError at fit. Beyond the claim, C55_shifted_signal: if the series continues the fitted profile moved by a constant, the forecast is moved by shift*p/(p-1) (the offset is divided by window-1), so the continuation is exact only for shift 0 (C55_moved_signal_overshoots)."
  },
  {
   "property": "C56",
   "status": "partial",
   "theorems": [
    "C56_inverse",
    "C56_range",
    "C56_factors",
    "C56_consistent",
    "C56_constant_label_refuted",
    "C56_stale_factors_refuted"
   ],
   "note": "Exact inverse on rationals (rounding of floats is not modelled), order and range, the factors of a fit, and consistency of predict with fit: on what the network was fitted on, predict computes the features of the training row, and de-normalises to the original values. Refuted corners: a constant label makes fit raise ZeroDivisionError; fitting again without normalisation keeps the factors of the previous fit."
  },
  {
   "property": "C57",
   "status": "partial",
   "theorems": [
    "C57_items_of_the_result",
    "C57_in_the_unit_interval_partial",
    "C57_zero_up_to_the_start",
    "C57_one_from_the_end",
    "C57_follows_the_deviation",
    "C57_follows_the_error_partial",
    "C57_succeeds",
    "C57_fit_stores_the_errors",
    "C57_fit_series_is_not_anomalous",
    "C57_average_not_above_maximum",
    "C57_not_without_errors",
    "C57_no_names_in_a_tuple",
    "C57_in_the_unit_interval_refuted",
    "C57_follows_the_error_refuted",
    "C57_all_items_with_a_reconstructor_refuted"
   ],
   "note": "For every ready series (dictionary data, points or slots), every inner model (forecaster, forecasters with context, reconstructor), metric, bound, index type, threshold and strategy: shape and values of the result, 0 up to the start, 1 from the end, order kept with respect to the deviation, when apply succeeds, what fit stores. Unit interval and order under the hypothesis that the density decreases along the range (refuted without), and order with respect to the error for distributions centred in zero (refuted otherwise). Also refuted: a result for all the items with a reconstructor (its break leaves the loop on the items). store_errors=False and names in a tuple of bounds never work (proved). Arbitrary functions: the inner model, density, location, find_x, fit of the distribution, standard deviation and logarithm; a numpy division by zero stops the model (NotANumber)."
  },
  {
   "property": "C58",
   "status": "partial",
   "theorems": [
    "C58_marks_the_events_partial",
    "C58_everywhere_partial",
    "C58_end_of_series_refuted",
    "C58_terminates_refuted",
    "C58_replace_index",
    "C58_needs_the_index"
   ],
   "note": "Exact characterisation of the marks for every series with a known anomaly index (C58_everywhere_partial): events over before the end of the series are marked iff they have at least min_persistence items, an event still open at its end only if it has more than min_persistence items (refuted off by one), and a single anomalous item open at the end makes the code raise IndexError (refuted, general). Full property when the last max_gap + 1 items are not anomalous. Not modelled: how a series is left by a failed marking in place; a negative max_gap."
  },
  {
   "property": "C59",
   "status": "partial",
   "theorems": [
    "C59_in_range",
    "C59_advances_partial",
    "C59_dst",
    "C59_advances_refuted"
   ],
   "note": "Range: all items, resolutions and DST settings. Step and periodicity: fixed-length resolutions, on grids aligned to the epoch or starting after it. Partial: before the epoch, off the multiples of the resolution, two consecutive items get the same index, and with a calendar resolution whose length changes (days at a DST change) the index jumps (C59_advances_refuted)."
  },
  {
   "property": "C60",
   "status": "proved",
   "theorems": [
    "C60_profile",
    "C60_restores"
   ],
   "note": "Any periodic signal sampled on a grid, any gaps not touching the ends (there the reconstructor raises by design), fitted on the same series or on another; every phase must be seen in the fit. Periodicity given (its FFT detection is not modelled), no DST correction. Proved also for a gap in a signal that follows the fitted profile moved by a constant."
  },
  {
   "property": "C61",
   "status": "partial",
   "theorems": [
    "C61_points",
    "C61_slots",
    "C61_type_is_not_kept_refuted",
    "C61_other_labels_refuted",
    "C61_uneven_indexes_refuted",
    "C61_lists_refuted",
    "C61_separator_refuted"
   ],
   "note": "Proved on all healthy series with plain labels and the same indexes on all items, through the actual text of the file (comments, header, fields, sanitisation, detection of the columns, of the timestamp format and of the type), for any sorting, timezone and error handling: C61_points and C61_slots (values under each label, indexes, times, unit). Refuted where the code does not do it: the type written in the file is not read back (daily points come back as slots, hourly slots as points, a single slot cannot be read), labels which are not plain ('timestamp', with commas, 'na'), items with different indexes (put fails half way), lists come back as dictionaries. Text of the numbers: any pair of functions with exact round trip. Also refuted: put ignores the separator of the storage, which then cannot read the file."
  },
  {
   "property": "C62",
   "status": "proved",
   "theorems": [
    "C62_refused",
    "C62_overwrite",
    "C62_nothing_else",
    "C62_beginning",
    "C62_failed_overwrite_refuted"
   ],
   "note": "Proved for every file system, disk behaviour and series: refused without overwrite, same outcome and content as a fresh write with overwrite, nothing else changes, what a full disk leaves is a beginning of the content, and a put reported as done is complete. The claim is proved as stated; beyond it, refuted: the old content is destroyed also when the put fails."
  },
  {
   "property": "C63",
   "status": "partial",
   "theorems": [
    "C63_filled",
    "C63_index_columns_refuted",
    "C63_seconds_refuted"
   ],
   "note": "Proved for every number and position of the gaps, for physical and calendar units, for files without index columns: contiguous, rows keep their values, missing slots are on the line and have full data loss, nothing else. Refuted: with index columns a gap raises KeyError unless it is before the last row (whose indexes are then lost); with slots of a second a missing one is within the tolerance of the succession check and is not filled."
  },
  {
   "property": "C64",
   "status": "proved",
   "theorems": [
    "C64_mean_absolute_error",
    "C64_mean_squared_error",
    "C64_mean_percentage_error",
    "C64_percentage_of_zero",
    "C64_mean_log_error",
    "C64_max_absolute_error",
    "C64_max_percentage_error",
    "C64_max_log_error",
    "C64_empty",
    "C64_lengths"
   ],
   "note": "All lengths and values. The percentage errors need non-zero true values (C64_percentage_of_zero), the log errors positive values and any function that is zero exactly in one; empty sequences are covered by C64_empty. sklearn's MAE and MSE are modelled by their definition."
  },
  {
   "property": "C65",
   "status": "partial",
   "theorems": [
    "C65_time_unit_string",
    "C65_small_decimals_refuted",
    "C65_tiny_refuted"
   ],
   "note": "Exact characterisation: the string denotes the given decimal if and only if it is an integer, ends in .0, or the first decimal digit is not zero. Refuted otherwise: 1.05 seconds give '15s', 0.05 give '05s' (5 seconds), and numbers below 1e-4, which Python writes with an exponent, give no unit string at all."
  },
  {
   "property": "C66",
   "status": "partial",
   "theorems": [
    "C66_numbers",
    "C66_units",
    "C66_number_by_unit_partial",
    "C66_zero_by_unit_refuted",
    "C66_points_refuted",
    "C66_time_points",
    "C66_equality",
    "C66_value_by_name_refuted"
   ],
   "note": "Proved for numbers, units, time points with fixed and with invertible calendar units, equality. Refuted: a generic point minus a unit raises TypeError; zero divided by a unit raises ZeroDivisionError; TimeUnit(value=...) raises KeyError."
  },
  {
   "property": "C67",
   "status": "proved",
   "theorems": [
    "C67_formula",
    "C67_end_points",
    "C67_stays_in_range",
    "C67_keeps_the_order",
    "C67_inverse",
    "C67_refused"
   ],
   "note": "All values and ranges (non-negative, as required by the code; anything else is refused, C67_refused)."
  },
  {
   "property": "C68",
   "status": "partial",
   "theorems": [
    "C68_resample_source_untouched",
    "C68_aggregate_source_untouched_partial",
    "C68_aggregate_refuted"
   ],
   "note": "Resampling: full. Aggregation: for slots which contain a point or are in a gap; refuted otherwise (the data of the source are multiplied in place)."
  },
  {
   "property": "C69",
   "status": "proved",
   "theorems": [
    "C69_only_the_past_matters",
    "C69_on_the_first_items"
   ],
   "note": "For inner models which read only the items of the view they are given and its resolution (hypothesis reads_past on the inner model, which is arbitrary); reconstructors look ahead by design."
  },
  {
   "property": "C70",
   "status": "proved",
   "theorems": [
    "C70_preprocessing_changes_nothing"
   ],
   "note": "Equality of the two outcomes, errors included. The series is the same and unchanged in between; predictions left on a series which is modified later are not modelled."
  },
  {
   "property": "C71",
   "status": "partial",
   "theorems": [
    "C71_details_partial",
    "C71_other_data_kept",
    "C71_details_in_a_list_refuted",
    "C71_error_detail_refuted",
    "C71_error_detail_not_below_the_centre"
   ],
   "note": "Prediction and deviation for any selection, adherence with details=True. Refuted: with a list the adherence is under 'label_adh)'; label_err is the deviation and not the error where this is below the centre of its distribution. With details and some skipped items the application fails (example)."
  },
  {
   "property": "C72",
   "status": "proved",
   "theorems": [
    "C72_reading_again",
    "C72_other_options_differ",
    "C72_after_put_differs"
   ],
   "note": "Proved for every text, storage and options, errors included. C72_other_options_differ and C72_after_put_differs show why the options and the file have to be the same: a storage which has read columns by position gives lists from then on, and one which has read a 'timestamp' column cannot read what it puts itself."
  },
  {
   "property": "C73",
   "status": "proved",
   "theorems": [
    "C73_limit",
    "C73_why_unsorted_points"
   ],
   "note": "Proved for every text, columns and formats. C73_why_unsorted_points: the limit counts rows of the file, so with sorting it does not give the first items, with skipped errors fewer than n, and the type of the series is detected on fewer rows."
  },
  {
   "property": "C74",
   "status": "proved",
   "theorems": [
    "C74_ignored",
    "C74_last_newline"
   ],
   "note": "Proved for every text, position, storage and options: same series, same errors, same storage afterwards."
  },
  {
   "property": "C75",
   "status": "partial",
   "theorems": [
    "C75_table",
    "C75_bad_row",
    "C75_short_row_refuted",
    "C75_no_label_refuted",
    "C75_leap_refuted"
   ],
   "note": "Proved for every table with a non-empty label for each column, for any separator, quotes, spaces, decimal commas, timestamps as numbers, ISO dates, custom format or time and date columns, columns by label, any sorting and any bad rows (C75_table, C75_bad_row); how dates are parsed is a parameter. Refuted: with skip_errors a row too short for the timestamp raises IndexError anyway; an unlabelled column shifts the labels of the following ones, so wrong numbers are read; months of 29 days and years of 366 are not recognised (typo 886400)."
  },
  {
   "property": "C76",
   "status": "proved",
   "theorems": [
    "C76_scores",
    "C76_results_series",
    "C76_zero_iff_exact",
    "C76_succeeds",
    "C76_only_the_past",
    "C76_refusals",
    "C76_without_window_looks_ahead"
   ],
   "note": "For every ready series (dictionary data), forecaster (an arbitrary predict on views, with or without context data and targets), metric selection and results series. Logarithm and square root are arbitrary functions with the sign laws given as hypotheses of the zero theorem. A forecaster without a window is asked for the first item with an empty view, whose [-1] is the last item of the series (C76_without_window_looks_ahead): the past-only theorem assumes that the model reads the items of the view."
  },
  {
   "property": "C77",
   "status": "proved",
   "theorems": [
    "C77_scores",
    "C77_score_unique",
    "C77_without_details",
    "C77_zero_iff_exact",
    "C77_succeeds",
    "C77_periodic_signal",
    "C77_linear_cannot_be_evaluated",
    "C77_last_place_not_used"
   ],
   "note": "For every ready series with a single label (multi-label series are refused by the code), arbitrary predict, steps of at least 1. Documented deviations: the last usable place of the series is never used (C77_last_place_not_used: >= for >), the linear interpolation reconstructor can never be evaluated (its predict returns a list of dictionaries: C77_linear_cannot_be_evaluated), MAPE divides by the prediction, no steps raises ZeroDivisionError (example)."
  },
  {
   "property": "C78",
   "status": "proved",
   "theorems": [
    "C78_fit",
    "C78_forecasts",
    "C78_continues_the_signal",
    "C78_reconstructs",
    "C78_restores",
    "C78_reconstructor_scores",
    "C78_evaluation",
    "C78_scores_of_a_perfect_model",
    "C78_elsewhere_differs"
   ],
   "note": "For every ready series, clock (local time of an epoch in a timezone, an arbitrary function) and engine (an arbitrary function which can fail); for the signal theorems the engine is one which learns the signal from samples at two or more times (witness: lines). Documented: the reconstructor is fitted on local times and asked for UTC times, so elsewhere than in UTC it gives the signal of another time (C78_elsewhere_differs); the evaluation of the forecaster compares the first item with the forecast after the end of the series (C78_evaluation), so also a perfect model has a zero score only if these are the same (C78_scores_of_a_perfect_model)."
  },
  {
   "property": "C79",
   "status": "proved",
   "theorems": [
    "C79_fit",
    "C79_forecasts",
    "C79_succeeds",
    "C79_refused",
    "C79_cannot_go_on",
    "C79_again_in_place_repeats",
    "C79_cannot_be_evaluated"
   ],
   "note": "For every ready series and engine. The fit series is kept by reference: applied in place on it twice, the model is not refused and repeats the same forecasts (C79_again_in_place_repeats); a refused application in place leaves the forecast index 0 on the items (C79_refused). On series of two or more items the evaluation can never succeed (C79_cannot_be_evaluated)."
  },
  {
   "property": "C80",
   "status": "proved",
   "theorems": [
    "C80_items",
    "C80_groups",
    "C80_range",
    "C80_columns",
    "C80_succeeds",
    "C80_refused",
    "C80_default_size",
    "C80_negative_inverted",
    "C80_comma_splits",
    "C80_leftover_not_shown"
   ],
   "note": "The numbers and times given to the plot, not the text of dates and numbers, nor the HTML and JavaScript around them. The exceptions in the statement are shown to be necessary: C80_negative_inverted (all values the same negative number: the range is upside down), C80_comma_splits (a name with a comma makes two columns), C80_leftover_not_shown (the items after the last whole group are left out)."
  },
  {
   "property": "C81",
   "status": "partial",
   "theorems": [
    "C81_questions_change_nothing",
    "C81_kept_for_ever",
    "C81_first_time_partial",
    "C81_unchanged_partial",
    "C81_refused",
    "C81_changed_refuted",
    "C81_printed_refuted"
   ],
   "note": "For the first question, and as long as the series is not changed after it, on series whose distances are not almost all different. The interval kept is never deleted: append tries to delete it as a property which has no deleter, and swallows the exception. So after the first question the guess never changes (C81_kept_for_ever), also if it is wrong for the points the series has later (C81_changed_refuted), and as writing a series as text is such a question, printing a series which then grows changes what resampling it gives (C81_printed_refuted). For empty series the exception is a TypeError, not the intended ValueError."
  },
  {
   "property": "C82",
   "status": "proved",
   "theorems": [
    "C82_points",
    "C82_slots",
    "C82_other_files",
    "C82_no_overwrite",
    "C82_derived_returns_nothing",
    "C82_single_slot_not_loaded"
   ],
   "note": "Assumes that numbers are written and read back exactly, that JSON objects of three plain texts are read as they are (reads_json; flat_json is a reader which does), that the text of the unit is read as the unit, and for the labels what C61 assumes (writable). A single slot can be saved but not loaded (C82_single_slot_not_loaded): no sampling interval can be detected, though the unit is in the file."
  },
  {
   "property": "C83",
   "status": "partial",
   "theorems": [
    "C83_choice",
    "C83_range",
    "C83_periodic",
    "C83_short_refused",
    "C83_pattern",
    "C83_fit",
    "C83_rescaled",
    "C83_shifted_partial",
    "C83_refused",
    "C83_shifted_refuted"
   ],
   "note": "On the exact discrete Fourier transform over the real numbers (the floating point one of numpy is not exact: a frequency which is not in the signal has there a tiny strength and not zero). They use the axioms of the real numbers of the standard library (sig_forall_dec, sig_not_dec, functional_extensionality_dep). Adding a number: proved if the oscillation as long as the series stays weaker, or stronger, than the mean (C83_shifted_partial, the exact condition under which nothing depends on it); refuted in general (C83_shifted_refuted: a wave as long as the series is found if its mean is zero and not if ten is added)."
  },
  {
   "property": "C84",
   "status": "partial",
   "theorems": [
    "C84_dict",
    "C84_accepts",
    "C84_refused",
    "C84_json_points",
    "C84_json_slots",
    "C84_timezone_refuted",
    "C84_daylight_saving_refuted"
   ],
   "note": "The data are numbers, by position or by label (others are accepted by the code and not modelled). The round trip through JSON is proved for times, ends of the slots, units and values (C84_json_points, C84_json_slots), where dates are written and read back exactly; indexes as the data loss are not written. Refuted: the timezone is lost, all comes back in UTC (C84_timezone_refuted), and for this reason daily slots of a timezone with a change of the hour cannot be read back (C84_daylight_saving_refuted: ValueError, not in succession)."
  },
  {
   "property": "C85",
   "status": "partial",
   "theorems": [
    "C85_rows",
    "C85_calendar",
    "C85_physical",
    "C85_no_frequency",
    "C85_dates_only",
    "C85_frame",
    "C85_points",
    "C85_slots",
    "C85_type_is_not_kept_refuted",
    "C85_years_refuted"
   ],
   "note": "The frequency which Pandas infers is a parameter; missing cells are not modelled (so the data loss must be there for all the items or for none). In the round trips (C85_points, C85_slots) the data loss comes back as one more label, and the other indexes are not written. Refuted: the type is not kept (C85_type_is_not_kept_refuted: points a day apart come back as slots and cannot be asked for, hourly slots come back as points); yearly frames (C85_years_refuted: Pandas names the years AS-JAN or A-DEC, which is not recognised: points are made, and asking for slots is an error about the unit Y-JYN, as also the A of JAN is replaced). Without a frequency slots raise UnboundLocalError (C85_no_frequency)."
  },
  {
   "property": "C86",
   "status": "partial",
   "theorems": [
    "C86_sequence_meaning",
    "C86_history",
    "C86_assign",
    "C86_delete",
    "C86_outside",
    "C86_extend",
    "C86_repeat",
    "C86_contains",
    "C86_point_in_slots",
    "C86_index_refuted",
    "C86_copy_refuted",
    "C86_unchecked_refuted",
    "C86_stale_refuted"
   ],
   "note": "The operators of list which Series does not override (=, del, +=, *=, in, +) are modelled with the methods of Series. C86_assign, C86_delete, C86_extend and C86_history say exactly when the order is kept. Refuted: nothing is checked by them (C86_unchecked_refuted: items out of order, holes in the slots, items of another type or with other labels are accepted); the resolution is not updated (C86_stale_refuted); index() never returns a position, and without bounds always raises TypeError (C86_index_refuted); copy() and + give a plain list (C86_copy_refuted)."
  },
  {
   "property": "C87",
   "status": "partial",
   "theorems": [
    "C87_point",
    "C87_slot",
    "C87_data",
    "C87_data_items",
    "C87_equality",
    "C87_equivalence",
    "C87_order",
    "C87_timezone",
    "C87_transitive_refuted",
    "C87_slot_compare_refuted",
    "C87_slot_checks_refuted",
    "C87_caller_refuted",
    "C87_arguments_refuted"
   ],
   "note": "Coordinates are numbers (texts which float() accepts are not modelled), timezones are names, what propertime makes of a datetime is a parameter. Refuted: equality is not transitive between points with and without data (C87_transitive_refuted); a slot compared with a point, or with a slot with no data, raises AttributeError (C87_slot_compare_refuted); inverted slots, slots of no length and units which do not match the end are accepted (C87_slot_checks_refuted); the dictionary of indexes of the caller is changed (C87_caller_refuted); with both t and dt points and slots follow different ones, and the timezone asked for is ignored when a point is made from another one (C87_arguments_refuted)."
  },
  {
   "property": "C88",
   "status": "partial",
   "theorems": [
    "C88_history",
    "C88_sequence_meaning",
    "C88_new",
    "C88_append",
    "C88_append_among_plain",
    "C88_data_alike",
    "C88_append_data",
    "C88_append_type",
    "C88_compare",
    "C88_slot",
    "C88_length",
    "C88_lengths_add_up",
    "C88_remove",
    "C88_pop",
    "C88_slice",
    "C88_dimensions_refuted",
    "C88_limits_refuted",
    "C88_insert_refuted"
   ],
   "note": "The items are integers, floats, points and slots with or without data; C88_append_data says exactly when data are accepted (first data not empty). Refuted: points in more than one dimension cannot follow each other (C88_dimensions_refuted); integers and floats do not mix, inverted and zero length slots are accepted, slices of slots with a step and backwards slices raise, a unit cannot be added to a start with data (C88_limits_refuted); insertions in the middle are only compared with the item before (C88_insert_refuted)."
  },
  {
   "property": "C89",
   "status": "proved",
   "theorems": [
    "C89_rounding_is_ieee",
    "C89_rounding",
    "C89_same_points",
    "C89_resolution",
    "C89_same_age_exact",
    "C89_binary_times",
    "C89_truncation_error",
    "C89_distance_error",
    "C89_tenths_refuted",
    "C89_two_tenths_refuted",
    "C89_this_century_refuted"
   ],
   "note": "Double precision rounding is modelled with exact rationals in Float.v and proved equal to the one of the Flocq library (C89_rounding_is_ieee); overflow is not modelled. The claim is proved as stated; beyond it, refuted: points every tenth of a second from 0 have a variable resolution (C89_tenths_refuted); two points at 0.2 and 0.3 have the resolution of the text 0.0999999, that is, with C65, of 999999 seconds (C89_two_tenths_refuted); a tenth of a second in this century is 0.1000001 s (C89_this_century_refuted)."
  },
  {
   "property": "C90",
   "status": "proved",
   "theorems": [
    "C90_sum_error",
    "C90_error_is_small",
    "C90_sum_exact",
    "C90_avg_error",
    "C90_avg_nearly_between",
    "C90_avg_exact",
    "C90_avg_refuted",
    "C90_order_refuted",
    "C90_weighted_error"
   ],
   "note": "With the double precision rounding of C89; overflow is not modelled. The claim is proved as stated; beyond it, refuted: the average of 0.1, 0.1 and 0.1 is above the maximum (C90_avg_refuted), and the sum depends on the order of the items (C90_order_refuted)."
  },
  {
   "property": "C91",
   "status": "proved",
   "theorems": [
    "C91_normalize_range",
    "C91_normalize_idempotent",
    "C91_normalize_order_and_error",
    "C91_constant_refused",
    "C91_overshoot_refuted",
    "C91_distinct_refuted"
   ],
   "note": "With the double precision rounding of C89; overflow is not modelled. The claim is proved as stated; beyond it, refuted: normalising to [-1, 0.1] gives a value above 0.1 (C91_overshoot_refuted), and different values may become the same (C91_distinct_refuted)."
  },
  {
   "property": "C92",
   "status": "partial",
   "theorems": [
    "C92_linear_between_partial",
    "C92_linear_error",
    "C92_exact_on_points",
    "C92_uniform_between",
    "C92_end_of_gap_refuted",
    "C92_tiny_values_refuted"
   ],
   "note": "With the double precision rounding of C89; overflow is not modelled. C92_linear_between_partial asks for an instant which is not in the last 2^-49 of the gap and for values which are not nearly subnormal; both conditions are needed: C92_end_of_gap_refuted (between -2 and 0.1 the value is above 0.1 at the last instant) and C92_tiny_values_refuted."
  },
  {
   "property": "C93",
   "status": "partial",
   "theorems": [
    "C93_coverage_error",
    "C93_loss_error",
    "C93_coverage_exact",
    "C93_loss_exact",
    "C93_empty_interval_rejected",
    "C93_negative_loss_refuted",
    "C93_previous_losses_error"
   ],
   "note": "With the double precision rounding of C89; overflow is not modelled. C93_loss_error and C93_loss_exact exclude losses already in the points; C93_previous_losses_error has them, for points which each cover a whole sampling interval no longer than the part (as in C38). Refuted: points at 0.2 and 0.5, which cover all of [0.05, 0.65], give a coverage above 1 and a negative data loss (C93_negative_loss_refuted)."
  },
  {
   "property": "C94",
   "status": "proved",
   "theorems": [
    "C94_csum_error",
    "C94_csum_exact",
    "C94_last_is_sum",
    "C94_csum_increases",
    "C94_diff",
    "C94_mavg_error",
    "C94_mavg_exact",
    "C94_diff_of_csum_exact",
    "C94_diff_of_csum_refuted",
    "C94_mavg_refuted"
   ],
   "note": "With the double precision rounding of C89; overflow is not modelled. The claim is proved as stated; beyond it, refuted: of 0.1, 0.2 and 0.3, diff after csum gives 0.20000000000000004 for the second (C94_diff_of_csum_refuted); the moving average of 0.1, 0.1 and 0.1 is above 0.1 (C94_mavg_refuted)."
  },
  {
   "property": "C95",
   "status": "proved",
   "theorems": [
    "C95_offset",
    "C95_rescale",
    "C95_power_of_two_inverse",
    "C95_offset_inverse",
    "C95_offset_inverse_refuted",
    "C95_rescale_inverse_refuted"
   ],
   "note": "With the double precision rounding of C89; overflow is not modelled. The claim is proved as stated; beyond it, refuted: an offset of 10^17 and back makes 0.1 and 0.2 zero, and they are the same value in between (C95_offset_inverse_refuted); 49 and the float nearest to 1/49 do not undo each other (C95_rescale_inverse_refuted)."
  },
  {
   "property": "C96",
   "status": "proved",
   "theorems": [
    "C96_lists",
    "C96_bad_row",
    "C96_no_labels",
    "C96_first_row_refuted",
    "C96_positions_stick_refuted"
   ],
   "note": "Points (slots are C63 and C74). Refuted beyond it: a first row with a decimal comma or with a missing value is taken for a header, it is lost and its values become the labels (C96_first_row_refuted); asking once for columns by position makes the storage read lists from then on (C96_positions_stick_refuted)."
  },
  {
   "property": "C97",
   "status": "proved",
   "theorems": [
    "C97_all",
    "C97_some",
    "C97_one"
   ],
   "note": "str(item) and str(series) are parameters; without newlines they are assumed to have neither line breaks nor three dots in a row. The limit is not negative. With one item only, or a limit of one, a comma follows it (C97_one)."
  },
  {
   "property": "C98",
   "status": "partial",
   "theorems": [
    "C98_rows",
    "C98_mark",
    "C98_highlights_partial",
    "C98_behind_utc_refused",
    "C98_no_timezone_refused",
    "C98_other_timezone_refuted"
   ],
   "note": "Partial because it does not hold in general: C98_highlights_partial is for the same offset from UTC everywhere; C98_mark and C98_rows give the exact positions for all offsets not behind UTC; C98_other_timezone_refuted shows a mark in UTC over items one hour ahead which highlights none of those in it; C98_behind_utc_refused that the call fails for offsets behind UTC (the ISO text is cut at its first dash, which leaves the year). dt_from_str is a parameter: it is assumed to read back what isoformat() writes and to refuse a text with neither a T nor a space. Date.UTC is in SpecMarks.v."
  },
  {
   "property": "C99",
   "status": "partial",
   "theorems": [
    "C99_details",
    "C99_range",
    "C99_succeeds",
    "C99_not_stored",
    "C99_series",
    "C99_own_range_refuted"
   ],
   "note": "Partial because the automatic limits are those of the first label (C99_range) and not of each one (C99_own_range_refuted). C99_series is for labels which are not the name of the prediction or of the error of another (own_names). The check for store_errors comes after the errors are read, so that a KeyError is raised in place of its ValueError (C99_not_stored). What is printed of the distribution as it was stored and the drawings are not modelled."
  },
  {
   "property": "C100",
   "status": "proved",
   "theorems": [
    "C100_resample_indexes",
    "C100_aggregate_indexes",
    "C100_mean"
   ],
   "note": "C100_resample_indexes and C100_aggregate_indexes give the exact value of every index of every new item (index_mean in SpecTransform.v), C100_mean its range and when it is None. As for C46, the aggregation is for a series with no data losses or with a point in every slot (where there is none the data of the source are changed on the way)."
  },
  {
   "property": "C101",
   "status": "partial",
   "theorems": [
    "C101_derivative",
    "C101_integral_partial",
    "C101_straight_line",
    "C101_ends_refuted",
    "C101_several_labels_refuted"
   ],
   "note": "C101_derivative and C101_straight_line hold for any sampling and any labels. C101_integral_partial is for series with one label: with two or more the claim is false of the code (C101_several_labels_refuted), since the slope found for a label is used for the next one. At the ends of a series with variable resolution the derivative is not the slope (C101_ends_refuted: 3 instead of 1), since the change is divided by the detected sampling interval and not by the time it took."
  },
  {
   "property": "C102",
   "status": "partial",
   "theorems": [
    "C102_derivative",
    "C102_sign",
    "C102_line_exact",
    "C102_line_refuted"
   ],
   "note": "The derivative with the rounding of doubles (FloatCalc.v; overflow, infinities and nan are not modelled, as in C89). C102_line_exact is for values and times of at most 53 bits; in general it fails: C102_line_refuted, where 0.1, 0.2, 0.3 have different derivatives at the two ends."
  },
  {
   "property": "C103",
   "status": "partial",
   "theorems": [
    "C103_integral_exact",
    "C103_derivative_of_integral",
    "C103_closest_refuted"
   ],
   "note": "The integral (one label, with an integration constant, without offset) with the rounding of doubles (FloatInt.v; overflow, infinities and nan are not modelled, as in C89). That the integral is always the double closest to the real one is refuted: C103_closest_refuted, for the constant 0.7 over three minutes."
  }
 ]
}