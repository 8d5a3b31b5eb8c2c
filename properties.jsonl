{"id": "C01", "title": "Appending keeps point series in strict time order", "statement": "Starting from an empty time series, after any sequence of append calls (accepted or rejected with an exception), the points in the series have strictly increasing timestamps; an append is accepted only if the new timestamp is greater than the one of the last point.", "quantifier": "every finite sequence of appended points, in any order, including duplicates and rejected ones", "why_tests_cant": "the claim is about unboundedly long mixed histories of accepted and rejected appends; a test fixes a few of them", "anchors": ["timeseria/datastructures.py:TimeSeries.append", "timeseria/datastructures.py:Series.append"]}
{"id": "C02", "title": "Appending keeps slot series in succession, on one unit and one timezone", "statement": "After any sequence of append calls on an initially empty series, every two consecutive slots are in succession (each starts where the previous one ends), and all the slots have the same unit and the same timezone.", "quantifier": "every finite sequence of appended slots, accepted or rejected", "why_tests_cant": "histories are unbounded and the succession check has a relative tolerance whose effect grows with the epoch", "anchors": ["timeseria/datastructures.py:TimeSlot.__succedes__", "timeseria/datastructures.py:TimeSeries.append", "timeseria/datastructures.py:Series.append", "timeseria/utilities.py:_is_close"]}
{"id": "C03", "title": "All the items of a series carry data of the same shape", "statement": "After any sequence of append calls all the items of the series have the same item type and data of the same container type with the same labels (same length for lists, same key set for dictionaries).", "quantifier": "every finite sequence of appended items with list or dictionary data", "why_tests_cant": "must hold for all histories and all data shapes, including empty containers", "anchors": ["timeseria/datastructures.py:Series.append", "timeseria/datastructures.py:Series.data_labels"]}
{"id": "C04", "title": "A rejected append has no effect", "statement": "If append raises, the items of the series, its resolution and the outcome of every later append are the same as if the rejected call had never been made.", "quantifier": "every series reachable by appends and every rejected item", "why_tests_cant": "needs comparing two whole histories, with and without the rejected call", "anchors": ["timeseria/datastructures.py:TimeSeries.append"]}
{"id": "C05", "title": "The resolution describes the actual spacing", "statement": "For a point series built with accepted appends the resolution is undefined with fewer than two points, is the common distance between consecutive points if all the distances are equal, and is 'variable' otherwise; for a slot series it is the unit of its slots.", "quantifier": "every sequence of accepted appends of any length", "why_tests_cant": "equivalence between an incrementally maintained flag and a property of all consecutive pairs", "anchors": ["timeseria/datastructures.py:TimeSeries.append", "timeseria/datastructures.py:TimeSeries.resolution", "timeseria/utilities.py:_to_time_unit_string"]}
{"id": "C06", "title": "Inserting preserves the order", "statement": "insert(i, x) on a point series either raises and leaves the items unchanged, or leaves x in position i with all the timestamps strictly increasing; on a slot series it only accepts insertions at the two ends that keep the succession.", "quantifier": "every series in order, every position (also negative or out of range) and every item", "why_tests_cant": "the position and both neighbours vary without bound", "anchors": ["timeseria/datastructures.py:Series.insert"]}
{"id": "C07", "title": "Removing items preserves the order and the other items", "statement": "pop, remove and clear remove exactly the addressed item(s), keep all the others in their original order, keep strict time order (points) or succession (slots), and leave a series to which a valid next item can be appended.", "quantifier": "every series, every index or item, and every following append", "why_tests_cant": "interaction between removal and the bookkeeping used by later appends, over all histories", "anchors": ["timeseria/datastructures.py:Series.pop", "timeseria/datastructures.py:Series.remove", "timeseria/datastructures.py:Series.clear"]}
{"id": "C08", "title": "No public mutation can break the order of a point series", "statement": "After any sequence of append, insert, pop, remove, clear, extend, sort, reverse and count calls, whatever their outcome, the timestamps of a point series are strictly increasing.", "quantifier": "every finite sequence of mutating calls with any arguments", "why_tests_cant": "state-machine invariant over all interleavings of all the mutators", "anchors": ["timeseria/datastructures.py:Series", "timeseria/datastructures.py:TimeSeries"]}
{"id": "C09", "title": "Positional access behaves like a Python list", "statement": "series[i] returns the item in position i, counting from the end for negative i, and raises IndexError for any position outside of the series.", "quantifier": "every non-empty series and every integer i", "why_tests_cant": "all integers, also far out of range on the negative side", "anchors": ["timeseria/datastructures.py:TimeSeries.__getitem__", "timeseria/operations.py:Get"]}
{"id": "C10", "title": "Access by time finds the item with that timestamp", "statement": "get(at_t=t) (series[t] with a float) returns the item whose timestamp is t if there is one, which is unique, and raises otherwise.", "quantifier": "every series in order and every timestamp", "why_tests_cant": "for all series and timestamps, uniqueness included", "anchors": ["timeseria/datastructures.py:TimeSeries._item_by_t", "timeseria/operations.py:Get"]}
{"id": "C11", "title": "Slicing by position equals Python list slicing", "statement": "slice(from_i, to_i), and series[a:b] with integers, contain exactly the items of the Python list slice [a:b] of the series contents, in the same order, for any combination of missing, negative and out of range bounds.", "quantifier": "every non-empty series and every pair of optional integer bounds", "why_tests_cant": "all integer bounds and all lengths", "anchors": ["timeseria/operations.py:Slice", "timeseria/datastructures.py:TimeSeries.__getitem__"]}
{"id": "C12", "title": "Slicing by time selects the half-open interval", "statement": "slice(from_t, to_t) contains exactly the points with from_t <= t < to_t, and exactly the slots entirely contained in [from_t, to_t], in the original order, with missing bounds meaning no bound, and never raises on a well-formed series.", "quantifier": "every series in order, every optional pair of time bounds", "why_tests_cant": "all positions of the bounds with respect to all the items, including bounds equal to timestamps and outside of the series", "anchors": ["timeseria/operations.py:Slice", "timeseria/utilities.py:_set_from_t_and_to_t", "timeseria/utilities.py:_item_is_in_range"]}
{"id": "C13", "title": "Time slices at a cut point partition the series", "statement": "For every time t the slice up to t and the slice from t of a point series, concatenated, are the original items: nothing lost, nothing duplicated.", "quantifier": "every point series and every cut time", "why_tests_cant": "all cut points and all series", "anchors": ["timeseria/operations.py:Slice"]}
{"id": "C14", "title": "Slicing preserves well-formedness and resolution", "statement": "A slice of a well-formed point series is a well-formed point series; if the source has a constant resolution, any slice with at least two points has the same one.", "quantifier": "every well-formed series and every bounds", "why_tests_cant": "property of all contiguous sub-sequences of arbitrary series", "anchors": ["timeseria/operations.py:Slice", "timeseria/datastructures.py:TimeSeries.append"]}
{"id": "C15", "title": "A view behaves as the materialised sub-series", "statement": "A view of positions [from_i, to_i) has length to_i-from_i, iterates over exactly those items in order, and positional access and slicing on the view give the same result as on the corresponding materialised sub-series.", "quantifier": "every series, every window and every access", "why_tests_cant": "all windows and all in-range and out-of-range accesses", "anchors": ["timeseria/datastructures.py:TimeSeriesView"]}
{"id": "C16", "title": "Duplicating a series gives an equal, independent, well-formed series", "statement": "duplicate() and materialize() give a series with equal items, in the same order, with the same resolution, satisfying the same ordering guarantees, and appending to the copy behaves as appending to the original.", "quantifier": "every series reachable through appends", "why_tests_cant": "for all histories, as the copy is rebuilt by replaying the appends", "anchors": ["timeseria/datastructures.py:Series.duplicate", "timeseria/datastructures.py:TimeSeriesView.materialize", "timeseria/datastructures.py:TimeSeries.append"]}
{"id": "C17", "title": "Changing timezone never moves data in time", "statement": "change_tz and as_tz change the timezone of the series and of all of its items and nothing else: timestamps, data and indexes stay the same, and as_tz does not touch the original.", "quantifier": "every series and every timezone", "why_tests_cant": "over all series, including empty ones", "anchors": ["timeseria/datastructures.py:TimeSeries.change_tz", "timeseria/datastructures.py:TimeSeries.as_tz", "timeseria/datastructures.py:TimeSeries.tz"]}
{"id": "C18", "title": "The series timezone summarises the one of its items", "statement": "For a point series with no timezone explicitly set, the timezone is undefined if empty, the common timezone if all the points are on the same, and UTC if they are on different ones.", "quantifier": "every sequence of points on any timezones", "why_tests_cant": "fold over arbitrarily long sequences", "anchors": ["timeseria/datastructures.py:TimeSeries.tz"]}
{"id": "C19", "title": "Dictionary conversion round trip", "statement": "TimeSeries.from_dict(series.to_dict()) gives a series with the same timestamps and data as the original, for points and, with the slot unit, for slots.", "quantifier": "every well-formed point series with list or dictionary data; every slot series with its unit", "why_tests_cant": "encode/decode law on all series", "anchors": ["timeseria/datastructures.py:TimeSeries.from_dict", "timeseria/datastructures.py:TimeSeries.to_dict"]}
{"id": "C20", "title": "Renaming and removing labels or indexes is uniform", "statement": "rename_data_label, remove_data_label, remove_data_index and remove_data_loss affect all the items in the same way and touch only the named label or index: all the other values, the timestamps and the number of items are unchanged, and the items keep having the same labels.", "quantifier": "every series with dictionary data, every pair of labels", "why_tests_cant": "for all label sets, including a new label equal to an existing one", "anchors": ["timeseria/datastructures.py:Series.rename_data_label", "timeseria/datastructures.py:Series.remove_data_label", "timeseria/datastructures.py:Series.remove_data_index"]}
{"id": "C21", "title": "Minimum and maximum are the extremes", "statement": "min() and max() give, for each data label, a value which occurs in the series for that label and which bounds all the others.", "quantifier": "every non-empty series with numeric data and every label", "why_tests_cant": "for all lengths and all values, including all-negative ones", "anchors": ["timeseria/operations.py:Min", "timeseria/operations.py:Max"]}
{"id": "C22", "title": "Sum is the sum of the values", "statement": "sum() gives for each data label the sum of the values in the series, and it is additive under splitting the series in two.", "quantifier": "every non-empty numeric series", "why_tests_cant": "for all lengths and values", "anchors": ["timeseria/operations.py:Sum"]}
{"id": "C23", "title": "The average is the (weighted) mean and lies between the extremes", "statement": "avg() gives for each label the arithmetic mean of the values, or the mean weighted on the weights if all the items have one, and the result is always between the minimum and the maximum.", "quantifier": "every non-empty numeric series, every non-negative weights with positive total", "why_tests_cant": "for all lengths, values and weights; includes a shortcut taken when the weights sum to one", "anchors": ["timeseria/operations.py:Avg"]}
{"id": "C24", "title": "Differences and cumulative sums invert each other", "statement": "csum(diff(s), offset = first value) restores the values of s from the second on, at their timestamps, and diff(csum(s)) restores the values of s from the second on.", "quantifier": "every numeric series of any length and with any number of labels", "why_tests_cant": "inductive law on arbitrary sequences", "anchors": ["timeseria/operations.py:Diff", "timeseria/operations.py:CSum", "timeseria/operations.py:Derivative", "timeseria/operations.py:Integral"]}
{"id": "C25", "title": "The cumulative sum accumulates", "statement": "csum gives for each item the sum of all the values up to it (plus the offset), so that its last value equals sum().", "quantifier": "every numeric series", "why_tests_cant": "prefix sums of arbitrary sequences", "anchors": ["timeseria/operations.py:CSum", "timeseria/operations.py:Integral"]}
{"id": "C26", "title": "The derivative of a linear signal is its slope", "statement": "For a point series with constant resolution sampling a linear signal, derivative() gives exactly the slope in every point, and has the same timestamps as the source.", "quantifier": "every slope, intercept, resolution, number of points", "why_tests_cant": "for all the lengths and all parameters, with different formulas at the edges", "anchors": ["timeseria/operations.py:Derivative"]}
{"id": "C27", "title": "Integrating the derivative restores the signal", "statement": "For a series with constant resolution, integral of the derivative with the first value as integration constant (c) restores the series.", "quantifier": "every signal on a constant-resolution point series with one or more labels", "why_tests_cant": "the central-difference derivative and the integral use different recurrences whose cancellation is an inductive argument", "anchors": ["timeseria/operations.py:Derivative", "timeseria/operations.py:Integral"]}
{"id": "C28", "title": "The moving average is the mean of each full window", "statement": "mavg(w) has len-w+1 items, each at the timestamp of the last item of its window (for slots: of the window) and with the mean of the w values of the window for each label.", "quantifier": "every numeric series and every window between 1 and its length", "why_tests_cant": "all window sizes and lengths, boundary windows included", "anchors": ["timeseria/operations.py:MAvg"]}
{"id": "C29", "title": "Normalising maps onto the target range preserving order", "statement": "normalize() maps the minimum of each label to the lower end and the maximum to the upper end of the target range, every value inside the range, preserves the order of the values and the timestamps, and applying it twice is the same as once.", "quantifier": "every numeric series with non constant labels, every target range", "why_tests_cant": "for all values", "anchors": ["timeseria/operations.py:Normalize"]}
{"id": "C30", "title": "Rescale and offset act point-wise and compose", "statement": "rescale(k) multiplies and offset(k) adds, for the given labels or for all of them, leaving the rest, the timestamps and the indexes unchanged; rescale(a) then rescale(b) is rescale(a*b), offset(a) then offset(b) is offset(a+b), and the inverse operation restores the data.", "quantifier": "every numeric series, every factor", "why_tests_cant": "algebraic laws on all inputs", "anchors": ["timeseria/operations.py:Rescale", "timeseria/operations.py:Offset"]}
{"id": "C31", "title": "Filtering keeps the requested labels untouched", "statement": "filter(labels) gives a series with the same timestamps where every item has exactly the requested labels, with the original values, and does not alter the source.", "quantifier": "every series with dictionary data and every non-empty set of existing labels", "why_tests_cant": "for all label sets and items", "anchors": ["timeseria/operations.py:Filter"]}
{"id": "C32", "title": "Merging is the intersection with averaged common labels", "statement": "merge of several series with compatible resolution contains exactly the timestamps present in all of them, in order, with the union of labels.", "quantifier": "every number of well-formed series", "why_tests_cant": "for all overlaps, offsets and number of series", "anchors": ["timeseria/operations.py:Merge"]}
{"id": "C33", "title": "Selecting returns exactly the matching items", "statement": "select with an equality condition returns exactly the items with that value for that label, in order; conditions joined with and return the items matching all of them.", "quantifier": "every series and every conjunction of equalities", "why_tests_cant": "for all contents, including no match", "anchors": ["timeseria/operations.py:Select"]}
{"id": "C34", "title": "In-place operations do the same as the out-of-place ones", "statement": "For the operations with an inplace option, the data of the series after the in-place call is the data of the series returned by the out-of-place call.", "quantifier": "every numeric series", "why_tests_cant": "in-place loops read values they may have already overwritten; only a relational argument on all inputs excludes it", "anchors": ["timeseria/operations.py:Derivative", "timeseria/operations.py:Rescale", "timeseria/operations.py:Offset", "timeseria/operations.py:Normalize"]}
{"id": "C35", "title": "Out-of-place operations do not change their source", "statement": "No out-of-place operation or transformation changes the items, data, indexes or later results of its source series, and changing the result does not change the source.", "quantifier": "every series and operation", "why_tests_cant": "aliasing: any following mutation must be considered", "anchors": ["timeseria/operations.py:Rescale", "timeseria/operations.py:Offset", "timeseria/operations.py:Filter", "timeseria/transformations.py:_compute_new"]}
{"id": "C36", "title": "Validity regions tile the time axis without overlaps", "statement": "With a sampling interval si, the validity region of each point contains the point, extends at most si/2 on each side, and never overlaps the region of another point; where two consecutive points are closer than si the boundary is exactly half way.", "quantifier": "every strictly increasing sequence of timestamps and every positive interval", "why_tests_cant": "for all spacings of all sequences", "anchors": ["timeseria/utilities.py:_compute_validity_regions"]}
{"id": "C37", "title": "Coverage is the covered fraction", "statement": "The coverage of a slot is the fraction of its length covered by the validity regions of the points, is always between 0 and 1, 0 if no region intersects it and 1 if the regions cover it.", "quantifier": "every slot and every sequence of points with disjoint regions", "why_tests_cant": "a measure-theoretic statement on all configurations", "anchors": ["timeseria/utilities.py:_compute_coverage"]}
{"id": "C38", "title": "Data loss is the missing fraction", "statement": "The data loss of a slot is between 0 and 1, is one minus the coverage if the points carry no previous data loss, and combines the previous data losses weighted on the overlap otherwise.", "quantifier": "every slot and points, with any data losses in [0,1]", "why_tests_cant": "for all configurations of points, gaps and previous losses", "anchors": ["timeseria/utilities.py:_compute_data_loss"]}
{"id": "C39", "title": "The auto-detected sampling interval is the most frequent spacing", "statement": "The sampling interval detection always terminates, gives the most frequent distance between consecutive points, equal to the resolution if this is constant, with a confidence between 0 and 1 which is 1 for constant resolutions.", "quantifier": "every point series with at least two points", "why_tests_cant": "termination and optimality on all inputs", "anchors": ["timeseria/utilities.py:detect_sampling_interval"]}
{"id": "C40", "title": "Linear interpolation is exact and bounded", "statement": "Interpolating at a time between two points gives the value on the straight line through them for each label: exact on the points, always between the two values, and reproducing any linear signal.", "quantifier": "every series, every time within it, every label", "why_tests_cant": "for all reals in all intervals", "anchors": ["timeseria/interpolators.py:LinearInterpolator"]}
{"id": "C41", "title": "Uniform interpolation picks the neighbour values", "statement": "The uniform interpolator gives for each label the mean of the previous and the next value, for any time within the series, therefore bounded by them.", "quantifier": "every series, every time within it", "why_tests_cant": "for all positions", "anchors": ["timeseria/interpolators.py:UniformInterpolator"]}
{"id": "C42", "title": "Resampling gives a regular grid", "statement": "resample(unit) gives points at constant distance equal to the unit, strictly increasing, all with the same labels as the source.", "quantifier": "every well-formed point series with at least two points, every positive unit", "why_tests_cant": "for all spacings, gaps and units", "anchors": ["timeseria/transformations.py:Transformation.process", "timeseria/transformations.py:Resampler", "timeseria/transformations.py:_compute_new"]}
{"id": "C43", "title": "Aggregating gives contiguous slots", "statement": "aggregate(unit) gives slots of the given unit, each starting where the previous one ends, starting from the first unit boundary not before the series start.", "quantifier": "every well-formed point series, every positive unit", "why_tests_cant": "for all spacings, gaps and units", "anchors": ["timeseria/transformations.py:Transformation.process", "timeseria/transformations.py:Aggregator"]}
{"id": "C44", "title": "Data losses of transformed series are fractions and detect gaps", "statement": "Each item produced by resampling or aggregating a series with no previous data losses has a data loss in [0,1], which is 0 in slots fully covered by points and 1 in slots within a gap.", "quantifier": "every well-formed point series, every positive unit and interval", "why_tests_cant": "for all configurations of gaps and units", "anchors": ["timeseria/transformations.py:_compute_new", "timeseria/utilities.py:_compute_data_loss"]}
{"id": "C45", "title": "Aggregates and resampled values stay within the source bounds", "statement": "Average-based resampling and aggregation give values between the minimum and the maximum of the source for each label, and a constant signal stays constant.", "quantifier": "every well-formed point series and every positive unit", "why_tests_cant": "for all weights, gaps and interpolated values", "anchors": ["timeseria/transformations.py:_compute_new", "timeseria/transformations.py:_TimeSeriesDenseView", "timeseria/operations.py:Avg"]}
{"id": "C46", "title": "Transformation start and end limits are honoured", "statement": "With start and end arguments a transformation gives no item before the start or after the end, for any start and end values.", "quantifier": "every series, every start and end", "why_tests_cant": "all positions of the limits, also zero and inside gaps", "anchors": ["timeseria/transformations.py:Transformation.process"]}
{"id": "C47", "title": "The transformation of a dense constant-resolution series loses nothing", "statement": "Aggregating a point series whose resolution divides the unit gives in each slot the plain mean of the points in it weighted on their validity, and the weights of each slot sum to one.", "quantifier": "every constant-resolution series and every multiple unit", "why_tests_cant": "for all multiples and alignments", "anchors": ["timeseria/transformations.py:_compute_new"]}
{"id": "C48", "title": "Model life cycle: fit before use, and only on compatible series", "statement": "A model that must be fitted never predicts, applies or evaluates before a successful fit; after it, it accepts only series with the same labels and resolution as the fit ones; a failed call does not change the model.", "quantifier": "every finite sequence of fit, predict, apply and evaluate calls on any series", "why_tests_cant": "state machine over all call histories", "anchors": ["timeseria/models/base.py:Model.fit_function", "timeseria/models/base.py:Model.predict_function", "timeseria/models/base.py:Model.apply_function", "timeseria/models/base.py:Model.evaluate_function"]}
{"id": "C49", "title": "Saved models are loaded back equal and are never overwritten", "statement": "Saving an unfitted model or on an existing path raises and changes nothing on disk; loading a saved model gives a fitted model with the same parameters, accepting the same series.", "quantifier": "every fitted model and every file system state", "why_tests_cant": "for all contents of the store", "anchors": ["timeseria/models/base.py:Model.save", "timeseria/models/base.py:Model.load"]}
{"id": "C50", "title": "Cross validation never validates on training data", "statement": "In each round of cross_validate the items used for fitting and those used for evaluating are disjoint, together they are the series (except the remainder of the division), and the validation parts of different rounds are disjoint.", "quantifier": "every series length and number of rounds", "why_tests_cant": "for all lengths and rounds, remainders included", "anchors": ["timeseria/models/base.py:Model.cross_validate"]}
{"id": "C51", "title": "Windows precede their targets", "statement": "In the matrix form used for fitting, the window of each target is made of exactly the preceding items, in order, each target has its own values, and no item from the target on leaks in its window.", "quantifier": "every series and window size", "why_tests_cant": "for all lengths and windows", "anchors": ["timeseria/models/base.py:_KerasModel._to_matrix_representation", "timeseria/models/base.py:_KerasModel._compute_window_features"]}
{"id": "C52", "title": "Reconstruction only changes missing data", "statement": "Applying a reconstructor keeps the number of items and their timestamps, changes the data only of the items with data loss at or above the threshold, and flags exactly the changed ones.", "quantifier": "every series with data losses and every threshold", "why_tests_cant": "for all patterns of consecutive losses", "anchors": ["timeseria/models/reconstructors.py:Reconstructor.apply", "timeseria/models/reconstructors.py:Reconstructor._reconstruct"]}
{"id": "C53", "title": "The linear reconstructor interpolates between the gap neighbours", "statement": "Each reconstructed item lies on the straight line between the last item before the gap and the first after it, for each label.", "quantifier": "every gap position and length, every label", "why_tests_cant": "for all gap sizes", "anchors": ["timeseria/models/reconstructors.py:LinearInterpolationReconstructor.predict"]}
{"id": "C54", "title": "Forecasts extend the series contiguously", "statement": "apply(series, steps) gives the original items followed by exactly steps forecast items, contiguous and in order, with the forecast index set to 1 exactly on them.", "quantifier": "every series, every number of steps and every predictor", "why_tests_cant": "for all steps and whatever the predictor returns", "anchors": ["timeseria/models/forecasters.py:Forecaster.apply", "timeseria/models/forecasters.py:Forecaster.forecast"]}
{"id": "C55", "title": "The periodic average forecaster repeats a periodic signal", "statement": "On a perfectly periodic signal, the periodic average forecaster fitted on it forecasts the same signal.", "quantifier": "every periodic signal, any periodicity and number of periods", "why_tests_cant": "for all periods and phases", "anchors": ["timeseria/models/forecasters.py:PeriodicAverageForecaster"]}
{"id": "C56", "title": "LSTM normalisation is invertible", "statement": "The normalisation applied before training or predicting and the de-normalisation applied to the results are inverse of each other for each label, on the range seen at fit time.", "quantifier": "every value and every fit range", "why_tests_cant": "for all values", "anchors": ["timeseria/models/forecasters.py:LSTMForecaster"]}
{"id": "C57", "title": "Anomaly indexes are in [0,1] and monotone in the error", "statement": "The anomaly index given to each item is between 0 and 1, is 0 below the start of the range and 1 above its end, and does not decrease as the error grows.", "quantifier": "every error value and every index range", "why_tests_cant": "for all values", "anchors": ["timeseria/models/anomaly_detectors.py:ModelBasedAnomalyDetector.apply"]}
{"id": "C58", "title": "Marked events have the requested persistence", "statement": "mark_events marks exactly the maximal runs of anomalous items at least as long as the minimum persistence, everywhere in the series, and terminates without errors.", "quantifier": "every sequence of anomaly flags and every persistence", "why_tests_cant": "for all run positions, also at the ends of the series", "anchors": ["timeseria/models/anomaly_detectors.py:AnomalyDetector.mark_events"]}
{"id": "C59", "title": "Periodicity indexes are periodic and in range", "statement": "The periodicity index of an item is in [0, periodicity), increases by one (modulo the periodicity) at each step, and is the same for items at a distance multiple of the period.", "quantifier": "every timestamp, also negative, every resolution and periodicity", "why_tests_cant": "for all timestamps", "anchors": ["timeseria/utilities.py:_get_periodicity_index"]}
{"id": "C60", "title": "The periodic average reconstructor keeps the profile", "statement": "On a gap in a perfectly periodic signal, the periodic average reconstructor restores the missing values.", "quantifier": "every periodic signal and gap", "why_tests_cant": "for all periods, gap positions and lengths", "anchors": ["timeseria/models/reconstructors.py:PeriodicAverageReconstructor"]}
{"id": "C61", "title": "CSV round trip", "statement": "A series stored to a CSV file and loaded back is equal to the original: timestamps, labels, data and indexes.", "quantifier": "every well-formed series", "why_tests_cant": "encode/decode law on all series, labels and index sets", "anchors": ["timeseria/storages.py:CSVFileStorage.put", "timeseria/storages.py:CSVFileStorage.get", "timeseria/datastructures.py:TimeSeries.save", "timeseria/datastructures.py:TimeSeries.load"]}
{"id": "C62", "title": "Existing files are never overwritten silently", "statement": "put without overwrite on an existing file raises and leaves the file as it was; with overwrite the final content is the same as writing to a fresh file.", "quantifier": "every file system state and every series", "why_tests_cant": "for all states", "anchors": ["timeseria/storages.py:CSVFileStorage.put"]}
{"id": "C63", "title": "Gaps in slot files are filled linearly and contiguously", "statement": "When loading slots, missing ones are filled so that the loaded series is contiguous, the existing slots keep their data, and the filled ones are on the straight line between the neighbours and have full data loss.", "quantifier": "every set of rows on the slot grid", "why_tests_cant": "for all gap sizes and positions", "anchors": ["timeseria/storages.py:CSVFileStorage.get"]}
{"id": "C64", "title": "Error metrics are zero exactly on equal sequences", "statement": "The mean absolute, squared, absolute percentage and absolute log errors are the averages of the respective errors, non-negative, zero if and only if the sequences are equal; MAE and MSE are symmetric; the maximum versions are the greatest of the errors and bound the means; sequences of different lengths are rejected.", "quantifier": "every pair of numeric sequences", "why_tests_cant": "for all lengths and values", "anchors": ["timeseria/utilities.py:mean_absolute_error", "timeseria/utilities.py:mean_squared_error", "timeseria/utilities.py:max_absolute_error", "timeseria/utilities.py:mean_absolute_percentage_error", "timeseria/utilities.py:max_absolute_percentage_error", "timeseria/utilities.py:mean_absolute_log_error", "timeseria/utilities.py:max_absolute_log_error"]}
{"id": "C65", "title": "Time unit strings denote the interval they come from", "statement": "The time unit built for a distance in seconds has exactly that length.", "quantifier": "every distance, also fractional", "why_tests_cant": "string manipulation over all decimal representations", "anchors": ["timeseria/utilities.py:_to_time_unit_string"]}
{"id": "C66", "title": "Unit arithmetic is consistent", "statement": "Adding a unit to a point or number and subtracting it gives back the start, unit addition and division by a number agree with the numeric ones, and equality is an equivalence.", "quantifier": "every unit and value", "why_tests_cant": "algebraic laws", "anchors": ["timeseria/units.py:Unit", "timeseria/units.py:TimeUnit"]}
{"id": "C67", "title": "Range rescaling is monotone and hits the end points", "statement": "rescale maps the source range onto the target range: end points to end points, preserving order, inverse to the opposite rescaling.", "quantifier": "every value and every pair of non-empty ranges", "why_tests_cant": "for all values and ranges", "anchors": ["timeseria/utilities.py:rescale"]}
{"id": "C68", "title": "Transformations leave the source series as it was", "statement": "resample and aggregate return a new series and leave the items of the source series with the same times, data and indexes as before the call.", "quantifier": "every point series, unit, start and end", "why_tests_cant": "mutation through shared items in the slot computation, for every alignment of points and slots", "anchors": ["timeseria/transformations.py:Resampler", "timeseria/transformations.py:Aggregator", "timeseria/transformations.py:_compute_new"]}
{"id": "C69", "title": "The anomaly index of an item does not depend on what follows", "statement": "For an anomaly detector based on a forecaster which only reads the items it is given, the item of the result at a position depends only on the items of the series up to that position: applying the detector to the first items of a series gives the first items of the result, and succeeds if it succeeds on all.", "quantifier": "every pair of series with the same first items, every detector with a forecaster and every apply argument", "why_tests_cant": "it compares the application on a series with that on all of its possible continuations", "anchors": ["timeseria/models/anomaly_detectors.py:ModelBasedAnomalyDetector.apply", "timeseria/models/anomaly_detectors.py:ModelBasedAnomalyDetector._get_predicted_value"]}
{"id": "C70", "title": "Pre-processing a series does not change the anomalies detected", "statement": "After preprocess, apply on that series has the same outcome as without it: the same items, indexes and details, or the same error.", "quantifier": "every series, detector and apply argument", "why_tests_cant": "equality of two executions for every series and argument, including those which fail", "anchors": ["timeseria/models/anomaly_detectors.py:ModelBasedAnomalyDetector.preprocess", "timeseria/models/anomaly_detectors.py:ModelBasedAnomalyDetector.apply"]}
{"id": "C71", "title": "The details describe the anomaly index", "statement": "If asked for, the prediction, the error and the adherence of every label are added to the items of the result as label_pred, label_err and label_adh, and all the other data are left as they are.", "quantifier": "every series, label, detector and selection of details", "why_tests_cant": "over all labels, including those with names similar to those of the details, and selections", "anchors": ["timeseria/models/anomaly_detectors.py:ModelBasedAnomalyDetector.apply"]}
{"id": "C72", "title": "Reading a file again gives the same series", "statement": "Reading a CSV file with a storage which has already read it with the same options has the same outcome, series or error, as the first time, although the storage remembers what it has detected; and leaves the storage as the first time.", "quantifier": "every file content, storage settings and reading options", "why_tests_cant": "equality of two executions over all texts and settings, with a state which the first one changes", "anchors": ["timeseria/storages.py:CSVFileStorage.get"]}
{"id": "C73", "title": "A limit gives the beginning of what would be read", "statement": "If a series of points is asked for, without sorting and without skipping errors, and the whole file can be read, reading it with a limit of n gives the first n items of what is read without.", "quantifier": "every file content, columns, formats and limit", "why_tests_cant": "relates two executions over all texts", "anchors": ["timeseria/storages.py:CSVFileStorage.get"]}
{"id": "C74", "title": "What is not data is ignored", "statement": "Adding or removing anywhere in a CSV file empty lines, comments and lines without the separator, or the newline at its end, does not change the outcome of reading it.", "quantifier": "every file content, position, storage settings and reading options", "why_tests_cant": "relates two executions over all texts", "anchors": ["timeseria/storages.py:CSVFileStorage.get"]}
{"id": "C75", "title": "Each row of a table is read as a point with its values", "statement": "Reading as points a CSV table with a header gives one point for each well formed row, in the order of the file or, if asked, of time: at the time in its timestamp column or columns, with the numbers under the labels of the header, all or those asked for, and with the indexes apart. A row which is not well formed is left out if errors are to be skipped and otherwise makes reading fail.", "quantifier": "every table with a label for each column, separator, quoting, time columns and format, choice of labels, and any number of well formed and bad rows", "why_tests_cant": "parsing of all texts", "anchors": ["timeseria/storages.py:CSVFileStorage.get", "timeseria/storages.py:CSVFileStorage.__init__", "timeseria/utilities.py:_sanitize_string", "timeseria/utilities.py:_to_float"]}
{"id": "C76", "title": "Evaluating a forecaster measures its one-step predictions", "statement": "The result has, for each label evaluated and each metric asked for, the entry label_metric, and no others: the metric computed on the actual values of the items after the window and on what the model predicts for each of them given only the items before it (and its own data as context). No score is negative, and a score is zero exactly if all of these predictions are exact. The results series, if asked for, has these items with their predictions and errors added. Unknown metrics, more than one step and empty series are refused, and otherwise the evaluation succeeds if the predictions do and no error has to be divided by zero or have a logarithm taken of a number which is not positive.", "quantifier": "every fitted forecaster, series, label, selection of metrics and results", "why_tests_cant": "over all series, models and selections of metrics, with a loop on the items, and a comparison with all continuations of the series", "anchors": ["timeseria/models/forecasters.py:Forecaster.evaluate", "timeseria/models/forecasters.py:Forecaster._get_actual_value", "timeseria/models/forecasters.py:Forecaster._get_predicted_value"]}
{"id": "C77", "title": "Evaluating a reconstructor measures how it rebuilds items which are known", "statement": "For each number of steps k the score is the metric between the items predicted and the actual ones, over all the runs of k items which, with the windows before and after, are inside the series (excluding its last item) and have no data loss at or above the threshold, in order and up to the limit; the percentage error is relative to the prediction. The overall score is the average over the numbers of steps, and is the same with and without the details. No score is negative, and it is zero exactly if all of these items are predicted exactly: as for a periodic average reconstructor on the periodic signal it is fitted on, also if moved by a constant. The evaluation succeeds if there is a run for each number of steps and the predictions succeed.", "quantifier": "every fitted reconstructor, series with a label, steps, limit, threshold and metrics", "why_tests_cant": "over all series, positions of the data losses and models, with nested loops", "anchors": ["timeseria/models/reconstructors.py:Reconstructor.evaluate", "timeseria/models/reconstructors.py:PeriodicAverageReconstructor.predict"]}
{"id": "C78", "title": "The models based on Prophet give and take the right values at the right times", "statement": "Fitting gives Prophet the local time and the value of each item of the series. Applying the forecaster appends one item for each step, one resolution after the other, with what Prophet answers for the local time of each. Applying the reconstructor replaces each missing item, also at the ends, with what Prophet answers for its time in UTC, and no other. So if Prophet learns a signal the forecasts continue it, and on a series in UTC the missing items get it and the evaluation of the reconstructor gives zero.", "quantifier": "every series, timezone, resolution, signal, number of steps and data losses, whatever Prophet answers", "why_tests_cant": "over all series and all behaviours of a library which cannot be run in all cases", "anchors": ["timeseria/models/forecasters.py:ProphetForecaster.fit", "timeseria/models/forecasters.py:ProphetForecaster.predict", "timeseria/models/reconstructors.py:ProphetReconstructor.fit", "timeseria/models/reconstructors.py:ProphetReconstructor.predict", "timeseria/models/base.py:_ProphetModel"]}
{"id": "C79", "title": "The models based on ARIMA only forecast what follows the series they were fitted on", "statement": "Fitting gives the library the values of the series in order. Applying to the series of the fit, or to one which ends at the same time, appends one item for each step, one resolution after the other, with the forecasts of the library in order. Applying to any series which ends at another time, as the result itself, is refused and adds no items.", "quantifier": "every pair of series, number of steps and behaviour of the library", "why_tests_cant": "over all series and all behaviours of a library which cannot be run in all cases", "anchors": ["timeseria/models/forecasters.py:ARIMAForecaster.fit", "timeseria/models/forecasters.py:ARIMAForecaster.predict", "timeseria/models/forecasters.py:AARIMAForecaster.fit", "timeseria/models/forecasters.py:AARIMAForecaster.predict"]}
{"id": "C80", "title": "A plot shows the items of the series and nothing else", "statement": "Without aggregation the plot has one row for each item, in order, with its time, its value for each of the labels chosen and its indexes, if any. Aggregated by n it has one row for each n items, in order, at the middle of their time, with the least value, the mean and the greatest value of each label and the mean of each index (a missing one counts as zero); the items after the last whole group are not shown. There is one column for each label and index, under its name, if no name has a comma. The range of the plot, if not given, contains all the values, unless they are all the same negative number. Above the threshold for aggregation the rows are less than the threshold and not less than a tenth of it, up to it there is one for each item. Empty series, unknown labels or indexes and empty choices of labels are refused, and everything else can be plotted.", "quantifier": "every series of points or slots, with data by position or by label, choice of labels and indexes, aggregation and threshold", "why_tests_cant": "over all series lengths and group sizes, with running sums and extremes", "anchors": ["timeseria/plots.py:_to_dg_data", "timeseria/plots.py:dygraphs_plot"]}
{"id": "C81", "title": "The resolution guessed for a series is that of its points", "statement": "For a point series of variable resolution the guess is the unit of a distance between neighbours which is the most frequent, with a confidence between zero and one; the same distance is the default validity of the points in resampling and aggregating. Guessing, asking for the interval or writing the series as text change nothing of the series, and so do not change any later result. Slot series, series with less than two points and series with a constant resolution are refused.", "quantifier": "every history of additions, removals, duplications and questions, in any order", "why_tests_cant": "over all histories: what matters is the order of questions and changes", "anchors": ["timeseria/datastructures.py:TimeSeries.guess_resolution", "timeseria/datastructures.py:TimeSeries._autodetected_sampling_interval", "timeseria/datastructures.py:TimeSeries.append"]}
{"id": "C82", "title": "A series which is saved is the one which is loaded", "statement": "Saving a series of points, or of two slots or more, to a file and loading the file gives a series with the same type of items, times, units, values and indexes, on the timezone of the series saved: also where reading the file without its comments would find another type, unit or timezone. Files without the parameters of a series are refused, and an existing file is overwritten only if asked. Loading on a class derived from the one of time series returns nothing.", "quantifier": "every series of points or slots with data, of any length, times, labels, indexes and timezone, and every file system with a place for the file", "why_tests_cant": "over all series and texts; the round trip goes through the text of a file", "anchors": ["timeseria/datastructures.py:TimeSeries.save", "timeseria/datastructures.py:TimeSeries.load", "timeseria/storages.py:CSVFileStorage.put", "timeseria/storages.py:CSVFileStorage.get"]}
{"id": "C83", "title": "The periodicity detected is that of the strongest oscillation", "statement": "For a series with one label at regular intervals the periodicity detected is the number of items, rounded, of one period of the strongest local maximum of its spectrum, where maxima with less than ten periods are skipped if the next one is almost as strong and more than ten times shorter; there is an error only if there are no maxima at all. It is at least two and at most the number of items. If a pattern of p values is repeated it is p, or p divided by a whole number, and it is exactly p if the slowest oscillation of the pattern is the strongest, so that a periodic average reconstructor which detects it is as one which is given it. Constants and alternating values have none. Multiplying all the values by a number, or adding a number to all of them, does not change what is detected.", "quantifier": "every series of any length and values", "why_tests_cant": "over all signals: the spectrum is computed on real numbers, the result depends on an order of them", "anchors": ["timeseria/utilities.py:detect_periodicity", "timeseria/models/reconstructors.py:PeriodicAverageReconstructor.fit"]}
{"id": "C84", "title": "What a dictionary or a JSON document says is what the series holds", "statement": "A series made from a dictionary has one item for each entry, in the same order: at the instant of its key (a datetime with its timezone, a number of seconds or a text which is a number or a date, in UTC) and with the data of its value (a number alone is labelled \"value\"); slots if a unit is given, otherwise points. All the dictionaries which describe points in order or slots in succession are accepted, other keys are refused. A series written as JSON and read back has the same times, values, timezones and slots.", "quantifier": "every dictionary and every series of points or slots with data", "why_tests_cant": "over all dictionaries, series and texts", "anchors": ["timeseria/datastructures.py:TimeSeries.from_dict", "timeseria/datastructures.py:TimeSeries.from_json", "timeseria/datastructures.py:TimeSeries.to_json"]}
{"id": "C85", "title": "A series converted to a data frame and back is the same", "statement": "The frame of a series has one row for each item, at its time, with its values under the names of the labels and its data loss, if any. A series made from a frame has one item for each row, in the same order, at the time of the row (in UTC if this has no timezone), with the values of its cells: slots of the unit of the frequency if this is of days, months or years, points otherwise; the type can be asked for. The index must be of dates. Converting a series to a frame and back gives the same items.", "quantifier": "every frame with any frequency, number of rows and columns, and every series", "why_tests_cant": "over all series, frames and multiples of the frequencies", "anchors": ["timeseria/datastructures.py:TimeSeries.from_df", "timeseria/datastructures.py:TimeSeries.to_df"]}
{"id": "C86", "title": "A series can be used as a list without losing its order", "statement": "Assigning, deleting, adding or repeating items with the operators of a list changes exactly the items asked for. The items stay in order or in succession if and only if what is put there fits what is before and after, and so do they after any history of calls of which each one fits; nothing else is checked. An item is in the series if and only if an equal one is. The position of an item and a copy of the series can be asked for.", "quantifier": "every series of points or slots, and every history of method calls and list operators", "why_tests_cant": "over all series and histories: the invariant is on the whole list after any number of calls", "anchors": ["timeseria/datastructures.py:Series", "timeseria/datastructures.py:Series.index", "timeseria/datastructures.py:Series.copy", "timeseria/datastructures.py:Series.append"]}
{"id": "C87", "title": "Points and slots are what they were made of, and compare by time and data", "statement": "A time point is made exactly when its arguments say a time, and has that time and that timezone; a time slot exactly when they say a start and an end or a unit, and goes from one to the other. Data must be there, and indexes, the data loss included, are those given. Two items are equal if and only if they are at the same time and have the same data, if both have data; points are strictly ordered by their time. The timezone and the indexes do not matter to comparisons.", "quantifier": "every combination of arguments, and every two or three items", "why_tests_cant": "over all combinations of arguments and all pairs and triples of items", "anchors": ["timeseria/datastructures.py:TimePoint", "timeseria/datastructures.py:TimeSlot", "timeseria/datastructures.py:DataPoint", "timeseria/datastructures.py:DataSlot", "timeseria/datastructures.py:Point.__eq__", "timeseria/datastructures.py:Slot.__eq__", "timeseria/datastructures.py:TimePoint.__gt__"]}
{"id": "C88", "title": "Generic points, slots and series, in any number of dimensions", "statement": "A series of numbers, points or slots is made exactly when these are of the same type and shape and one after the other: numbers and points with increasing values, slots each starting where the previous one ends in all the dimensions. It stays so after any history of additions, insertions at the two ends and removals. The length of a slot is the mean of the differences of its coordinates, and the lengths of slots in succession add up. A slice of it with increasing positions holds the items at those positions.", "quantifier": "every number of dimensions, list of items and history of calls", "why_tests_cant": "over all dimensions, lists and histories", "anchors": ["timeseria/datastructures.py:Point", "timeseria/datastructures.py:Slot", "timeseria/datastructures.py:Series", "timeseria/datastructures.py:Series.append", "timeseria/datastructures.py:Series.insert", "timeseria/datastructures.py:Slot.length"]}
{"id": "C89", "title": "The resolution of points whose times are floats", "statement": "Rounding does not change which points are accepted or refused. The resolution is a single one if and only if the rounded distances between the stored times are all the same. For times of the same age these distances are exact, and a series of points every d seconds has resolution d when its times are multiples of 1/128 of a second, whole seconds in particular, however far from 1970. For other times the seconds the resolution is made from are within a ten-millionth of a second, and four roundings, from the distance.", "quantifier": "every list of points with double precision times", "why_tests_cant": "over all the doubles and all the lists: rounding errors show up only for some times", "anchors": ["timeseria/datastructures.py:TimeSeries.append", "timeseria/datastructures.py:TimeSeries.resolution"]}
{"id": "C90", "title": "Sums and averages of floats", "statement": "The sum of n floats differs from the exact sum by at most (1 + 2^-53)^(n-1) - 1 of the sum of the absolute values, and the average (of items without weights) from the exact mean by at most (1 + 2^-53)^n - 1 of the mean of the absolute values. With weights which are not negative the average differs from the weighted mean by at most (1 + 2^-53)^(4n+2) - 1 of the weighted mean of the absolute values (but for products too small for a float). When the values are multiples of a power of two (integers, for instance) and the absolute values sum up to less than 2^53 units the sum is exact, the average is the float nearest to the mean and lies between the minimum and the maximum.", "quantifier": "every series of double precision values, with any labels", "why_tests_cant": "over all the doubles and all the lengths: the errors accumulate, and show up only for some values", "anchors": ["timeseria/operations.py:Sum", "timeseria/operations.py:Avg"]}
{"id": "C91", "title": "Normalisation of floats", "statement": "Normalising a series of floats to [0, 1] raises only if a label is constant. Otherwise the minimum becomes exactly 0, the maximum exactly 1, all the values are in between, and normalising again changes nothing. On any target range larger values do not become smaller and each value is within a few roundings of its exact normalisation.", "quantifier": "every series of double precision values, with any labels, and every target range", "why_tests_cant": "over all the doubles: values of very different sizes or very near to each other", "anchors": ["timeseria/operations.py:Normalize"]}
{"id": "C92", "title": "Interpolating floats", "statement": "The linear interpolation between two points with float times and values differs from the exact line only by a few roundings, gives exactly the value of a point at its time and, unless the instant is at the very end of the gap or the values have hardly any digits, stays between the two neighbouring values. The uniform interpolation always stays between them.", "quantifier": "every series of points with double precision times and values, and every double precision instant in a gap", "why_tests_cant": "over all the doubles: the value passes the neighbours only for a few times and values", "anchors": ["timeseria/interpolators.py:LinearInterpolator", "timeseria/interpolators.py:UniformInterpolator"]}
{"id": "C93", "title": "Coverage and data loss with float times", "statement": "With float times the coverage of an interval is the covered fraction and the data loss the missing one, but for a few roundings for each measured point, and the coverage is not negative. Data losses the points already had are added in proportion to their share of the interval, again but for a few roundings for each point. If the times are multiples of a power of two (whole seconds, for instance) the coverage is the float nearest to the covered fraction: both are between 0 and 1, the data loss is 0 only if all is covered and 1 only if nothing is.", "quantifier": "every list of disjoint validity regions with double precision bounds, and every interval", "why_tests_cant": "over all the doubles: the data loss becomes negative only for some times", "anchors": ["timeseria/utilities.py:_compute_coverage", "timeseria/utilities.py:_compute_data_loss"]}
{"id": "C94", "title": "Cumulative sums, differences and moving averages of floats", "statement": "With float values each value of csum is the sum of the values so far but for one rounding for each of them (relatively to their absolute values), the last one is to the last digit the value of sum, and csum does not decrease where the values are not negative; each value of diff is the float nearest to the difference of the neighbours; each value of mavg is the mean of its window but for one rounding for each value of it. If the values are multiples of a power of two (whole numbers, for instance) and not too many, csum is exact, mavg is the float nearest to the mean and lies between the smallest and the largest value of the window, and diff after csum gives the values back.", "quantifier": "every series with double precision values, every window, and every item of the result", "why_tests_cant": "over all the doubles: the values which diff does not restore after csum, or whose mean is out of their range, are found only by trying all", "anchors": ["timeseria/operations.py:Diff", "timeseria/operations.py:CSum", "timeseria/operations.py:Derivative", "timeseria/operations.py:Integral", "timeseria/operations.py:MAvg"]}
{"id": "C95", "title": "Offsets and rescaling of floats", "statement": "With float values each value of offset is the float nearest to the value plus the offset, and each of rescale the float nearest to the value times the factor, for the labels which are given (the others stay as they are): the error is at most 2^-53 of the result (plus 2^-1075 for rescale), results which are floats are exact, and the order of the values is kept (for rescale: reversed if the factor is negative). Rescaling by a power of two above one and back restores the values; so does an offset and back if all are multiples of a power of two.", "quantifier": "every series with double precision values, every offset and factor, as a number or for each label", "why_tests_cant": "over all the doubles: the values which an offset and its inverse do not restore are found only by trying all", "anchors": ["timeseria/operations.py:Rescale", "timeseria/operations.py:Offset"]}
{"id": "C96", "title": "CSV tables read as lists", "statement": "A CSV table without a header (each cell of the first row has a number or a date), or one of which some columns are asked for by position, or read as lists on request, gives one point for each good row, at its time, with the list of the numbers of the columns: in the order of the file, without the time columns, or as they were asked for. Without labels the time is in the first column, or in those given by position. Bad rows are left out if errors are skipped; otherwise the first one makes the reading fail, even if it is the first of all. Asking for labels (or dictionaries) where there is no header fails.", "quantifier": "every table, separator, set of time and data columns, text of the numbers, and order of the rows", "why_tests_cant": "over all the files and all the settings of the storage", "anchors": ["timeseria/storages.py:CSVFileStorage.get", "timeseria/storages.py:CSVFileStorage.__init__", "timeseria/utilities.py:_sanitize_string", "timeseria/utilities.py:_to_float", "timeseria/utilities.py:_is_list_of_integers"]}
{"id": "C97", "title": "The summary of a series", "statement": "The summary (and what inspect prints) has the description of the series and then, between brackets, the texts of its items in their order, one per line (or with spaces in place of the line breaks): all of them, each once, if there is no limit or if they are not more than it; otherwise as many as the limit, the first ones and then the last ones, half and half (one more of the first if the limit is odd), with the dots in place of those left out.", "quantifier": "every healthy series of points or slots, every limit, every text of the items", "why_tests_cant": "over all the lengths and limits: an item shown twice or lost at the boundary between the two halves shows only for some of them", "anchors": ["timeseria/datastructures.py:Series._summary", "timeseria/datastructures.py:Series.summary", "timeseria/datastructures.py:Series.inspect", "timeseria/datastructures.py:Series.head", "timeseria/datastructures.py:Series.tail"]}
{"id": "C98", "title": "What the mark of a plot highlights", "statement": "The items of a plot are drawn where the clock of their timezone is, and the mark from where the clock of the timezone of its start is to where that of its end is, so that it highlights exactly the items from its start to its end; the mark changes neither the rows nor their range. (It does so only if its datetimes and the items are as much ahead of UTC: with other timezones it highlights other items, and a timezone behind UTC is refused.)", "quantifier": "every plot, every start and end of the mark, every time and timezone of the items, offsets of all signs", "why_tests_cant": "over all the dates and offsets: tests use UTC or one timezone ahead of it, where cutting the text at the plus works, while it cuts at the first dash of the date for those behind UTC", "anchors": ["timeseria/plots.py:_utc_fake_s_from_dt", "timeseria/plots.py:_to_dg_time", "timeseria/plots.py:_to_dg_data", "timeseria/plots.py:dygraphs_plot"]}
{"id": "C99", "title": "The inspection of a fitted anomaly detector", "statement": "After a fit which stored the errors, the inspection gives for every label, in order, the mean, the least and the greatest of the absolute values of its errors on the series of the fit; the plots of the distributions go from the given limits or from the least to the greatest of the errors; the series has, for every item which had a prediction, its values, the predictions and the errors. Without the errors it is refused. (The automatic limits are those of the first label, for all of them.)", "quantifier": "every fitted detector (forecasters with and without context, reconstructors), metric, series and set of labels, every choice of the limits", "why_tests_cant": "over all the sets of labels: the limits found for the first label stay for the next ones, which shows only with labels of different scales", "anchors": ["timeseria/models/anomaly_detectors.py:ModelBasedAnomalyDetector.inspect", "timeseria/models/anomaly_detectors.py:ModelBasedAnomalyDetector.fit"]}
{"id": "C100", "title": "The indexes of resampled and aggregated items", "statement": "Every item of a resampled or aggregated series has, besides its data loss, exactly the indexes which some item of the source has. The value of each is the mean of the values of the points which have one, each counted for the part of its validity region in the interval of the new item; it is between the least and the greatest of those, and it is None exactly if no point with a value has some part of the interval. The interpolated points do not count.", "quantifier": "every series of points, every name of an index, values None or missing on any of the items, every unit, start, end and sampling interval", "why_tests_cant": "over all the series and indexes: each mean depends on where the regions fall in the interval and on which points have a value, and tests look at one or two intervals where all of them do", "anchors": ["timeseria/transformations.py:_compute_new", "timeseria/transformations.py:Resampler", "timeseria/transformations.py:Aggregator"]}
{"id": "C101", "title": "Derivatives and integrals with any sampling", "statement": "The derivative of a series, with a constant or a variable resolution, has the same times, time zone and indexes, with every label renamed, and at each inner item the value is the mean of the slopes before and after it, so a straight line has its slope as derivative whatever the sampling; at the first and at the last item the only change is divided by the sampling interval. The integral starts from the constant and its slopes, taken over the real time between the items, have as mean at each inner item the value there, and the first one is the first value.", "quantifier": "every series of points or slots with numeric data and at least two items, every constant or variable resolution and detected sampling interval, every constant of integration", "why_tests_cant": "over all the samplings: the spacing between the items enters in each term, and tests use evenly spaced series or a single uneven one", "anchors": ["timeseria/operations.py:Derivative", "timeseria/operations.py:Integral"]}
{"id": "C102", "title": "The derivative of floats", "statement": "With Python floats for times and values, the derivative at an inner item lies between two floats, each a few roundings away from the slope before or after the item and on the same side of zero; at the ends it is a few roundings away from the only change over the sampling interval. So a label which never decreases has no negative derivative, the derivative of a constant label is exactly 0, and where values and times need less than 53 bits the derivative of a straight line is exactly its slope.", "quantifier": "every series with times and values which are doubles, at least two items and any constant or variable resolution; all labels and positions", "why_tests_cant": "over all the doubles: how much the roundings of subtractions, sums and divisions add up to, and that they never change a sign, cannot be settled by sampling", "anchors": ["timeseria/operations.py:Derivative"]}
{"id": "C103", "title": "The integral of floats", "statement": "With Python floats for times and values, the integral of a series of one label is exactly the real one, label by label and item by item, whenever the values of the series and of its integral, the changes of the integral, the times between the items and the slopes are floats. If half of each change over two steps is a float too, the float derivative of that integral gives the values back, but for the first and the last item. Without that, it can be further from the real integral than the float closest to it, even for a constant label.", "quantifier": "every sampled series of one label with at least two items and values which are doubles, every integration constant", "why_tests_cant": "over all the doubles and any number of accumulated roundings: where the float and the real integral agree cannot be settled by sampling", "anchors": ["timeseria/operations.py:Integral"]}
