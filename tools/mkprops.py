import json
P=[]
def p(title, statement, quantifier, why, *anchors):
    P.append(dict(id="C%02d"%(len(P)+1), title=title, statement=statement, quantifier=quantifier, why_tests_cant=why, anchors=list(anchors)))
DS='timeseria/datastructures.py:'; OP='timeseria/operations.py:'; UT='timeseria/utilities.py:'; TR='timeseria/transformations.py:'; IN='timeseria/interpolators.py:'
MB='timeseria/models/base.py:'; MR='timeseria/models/reconstructors.py:'; MF='timeseria/models/forecasters.py:'; MA='timeseria/models/anomaly_detectors.py:'; ST='timeseria/storages.py:'; UN='timeseria/units.py:'
# ---- container
p("Appending keeps point series in strict time order",
  "Starting from an empty time series, after any sequence of append calls (accepted or rejected with an exception), the points in the series have strictly increasing timestamps; an append is accepted only if the new timestamp is greater than the one of the last point.",
  "every finite sequence of appended points, in any order, including duplicates and rejected ones",
  "the claim is about unboundedly long mixed histories of accepted and rejected appends; a test fixes a few of them",
  DS+"TimeSeries.append", DS+"Series.append")
p("Appending keeps slot series in succession, on one unit and one timezone",
  "After any sequence of append calls on an initially empty series, every two consecutive slots are in succession (each starts where the previous one ends), and all the slots have the same unit and the same timezone.",
  "every finite sequence of appended slots, accepted or rejected",
  "histories are unbounded and the succession check has a relative tolerance whose effect grows with the epoch",
  DS+"TimeSlot.__succedes__", DS+"TimeSeries.append", DS+"Series.append", UT+"_is_close")
p("All the items of a series carry data of the same shape",
  "After any sequence of append calls all the items of the series have the same item type and data of the same container type with the same labels (same length for lists, same key set for dictionaries).",
  "every finite sequence of appended items with list or dictionary data",
  "must hold for all histories and all data shapes, including empty containers",
  DS+"Series.append", DS+"Series.data_labels")
p("A rejected append has no effect",
  "If append raises, the items of the series, its resolution and the outcome of every later append are the same as if the rejected call had never been made.",
  "every series reachable by appends and every rejected item",
  "needs comparing two whole histories, with and without the rejected call",
  DS+"TimeSeries.append")
p("The resolution describes the actual spacing",
  "For a point series built with accepted appends the resolution is undefined with fewer than two points, is the common distance between consecutive points if all the distances are equal, and is 'variable' otherwise; for a slot series it is the unit of its slots.",
  "every sequence of accepted appends of any length",
  "equivalence between an incrementally maintained flag and a property of all consecutive pairs",
  DS+"TimeSeries.append", DS+"TimeSeries.resolution", UT+"_to_time_unit_string")
p("Inserting preserves the order",
  "insert(i, x) on a point series either raises and leaves the items unchanged, or leaves x in position i with all the timestamps strictly increasing; on a slot series it only accepts insertions at the two ends that keep the succession.",
  "every series in order, every position (also negative or out of range) and every item",
  "the position and both neighbours vary without bound",
  DS+"Series.insert")
p("Removing items preserves the order and the other items",
  "pop, remove and clear remove exactly the addressed item(s), keep all the others in their original order, keep strict time order (points) or succession (slots), and leave a series to which a valid next item can be appended.",
  "every series, every index or item, and every following append",
  "interaction between removal and the bookkeeping used by later appends, over all histories",
  DS+"Series.pop", DS+"Series.remove", DS+"Series.clear")
p("No public mutation can break the order of a point series",
  "After any sequence of append, insert, pop, remove, clear, extend, sort, reverse and count calls, whatever their outcome, the timestamps of a point series are strictly increasing.",
  "every finite sequence of mutating calls with any arguments",
  "state-machine invariant over all interleavings of all the mutators",
  DS+"Series", DS+"TimeSeries")
p("Positional access behaves like a Python list",
  "series[i] returns the item in position i, counting from the end for negative i, and raises IndexError for any position outside of the series.",
  "every non-empty series and every integer i",
  "all integers, also far out of range on the negative side",
  DS+"TimeSeries.__getitem__", OP+"Get")
p("Access by time finds the item with that timestamp",
  "get(at_t=t) (series[t] with a float) returns the item whose timestamp is t if there is one, which is unique, and raises otherwise.",
  "every series in order and every timestamp",
  "for all series and timestamps, uniqueness included",
  DS+"TimeSeries._item_by_t", OP+"Get")
p("Slicing by position equals Python list slicing",
  "slice(from_i, to_i), and series[a:b] with integers, contain exactly the items of the Python list slice [a:b] of the series contents, in the same order, for any combination of missing, negative and out of range bounds.",
  "every non-empty series and every pair of optional integer bounds",
  "all integer bounds and all lengths",
  OP+"Slice", DS+"TimeSeries.__getitem__")
p("Slicing by time selects the half-open interval",
  "slice(from_t, to_t) contains exactly the points with from_t <= t < to_t, and exactly the slots entirely contained in [from_t, to_t], in the original order, with missing bounds meaning no bound, and never raises on a well-formed series.",
  "every series in order, every optional pair of time bounds",
  "all positions of the bounds with respect to all the items, including bounds equal to timestamps and outside of the series",
  OP+"Slice", UT+"_set_from_t_and_to_t", UT+"_item_is_in_range")
p("Time slices at a cut point partition the series",
  "For every time t the slice up to t and the slice from t of a point series, concatenated, are the original items: nothing lost, nothing duplicated.",
  "every point series and every cut time",
  "all cut points and all series",
  OP+"Slice")
p("Slicing preserves well-formedness and resolution",
  "A slice of a well-formed point series is a well-formed point series; if the source has a constant resolution, any slice with at least two points has the same one.",
  "every well-formed series and every bounds",
  "property of all contiguous sub-sequences of arbitrary series",
  OP+"Slice", DS+"TimeSeries.append")
p("A view behaves as the materialised sub-series",
  "A view of positions [from_i, to_i) has length to_i-from_i, iterates over exactly those items in order, and positional access and slicing on the view give the same result as on the corresponding materialised sub-series.",
  "every series, every window and every access",
  "all windows and all in-range and out-of-range accesses",
  DS+"TimeSeriesView")
p("Duplicating a series gives an equal, independent, well-formed series",
  "duplicate() and materialize() give a series with equal items, in the same order, with the same resolution, satisfying the same ordering guarantees, and appending to the copy behaves as appending to the original.",
  "every series reachable through appends",
  "for all histories, as the copy is rebuilt by replaying the appends",
  DS+"Series.duplicate", DS+"TimeSeriesView.materialize", DS+"TimeSeries.append")
p("Changing timezone never moves data in time",
  "change_tz and as_tz change the timezone of the series and of all of its items and nothing else: timestamps, data and indexes stay the same, and as_tz does not touch the original.",
  "every series and every timezone",
  "over all series, including empty ones",
  DS+"TimeSeries.change_tz", DS+"TimeSeries.as_tz", DS+"TimeSeries.tz")
p("The series timezone summarises the one of its items",
  "For a point series with no timezone explicitly set, the timezone is undefined if empty, the common timezone if all the points are on the same, and UTC if they are on different ones.",
  "every sequence of points on any timezones",
  "fold over arbitrarily long sequences",
  DS+"TimeSeries.tz")
p("Dictionary conversion round trip",
  "TimeSeries.from_dict(series.to_dict()) gives a series with the same timestamps and data as the original, for points and, with the slot unit, for slots.",
  "every well-formed point series with list or dictionary data; every slot series with its unit",
  "encode/decode law on all series",
  DS+"TimeSeries.from_dict", DS+"TimeSeries.to_dict")
p("Renaming and removing labels or indexes is uniform",
  "rename_data_label, remove_data_label, remove_data_index and remove_data_loss affect all the items in the same way and touch only the named label or index: all the other values, the timestamps and the number of items are unchanged, and the items keep having the same labels.",
  "every series with dictionary data, every pair of labels",
  "for all label sets, including a new label equal to an existing one",
  DS+"Series.rename_data_label", DS+"Series.remove_data_label", DS+"Series.remove_data_index")
# ---- operations
p("Minimum and maximum are the extremes",
  "min() and max() give, for each data label, a value which occurs in the series for that label and which bounds all the others.",
  "every non-empty series with numeric data and every label",
  "for all lengths and all values, including all-negative ones",
  OP+"Min", OP+"Max")
p("Sum is the sum of the values",
  "sum() gives for each data label the sum of the values in the series, and it is additive under splitting the series in two.",
  "every non-empty numeric series",
  "for all lengths and values",
  OP+"Sum")
p("The average is the (weighted) mean and lies between the extremes",
  "avg() gives for each label the arithmetic mean of the values, or the mean weighted on the weights if all the items have one, and the result is always between the minimum and the maximum.",
  "every non-empty numeric series, every non-negative weights with positive total",
  "for all lengths, values and weights; includes a shortcut taken when the weights sum to one",
  OP+"Avg")
p("Differences and cumulative sums invert each other",
  "csum(diff(s), offset = first value) restores the values of s from the second on, at their timestamps, and diff(csum(s)) restores the values of s from the second on.",
  "every numeric series of any length and with any number of labels",
  "inductive law on arbitrary sequences",
  OP+"Diff", OP+"CSum", OP+"Derivative", OP+"Integral")
p("The cumulative sum accumulates",
  "csum gives for each item the sum of all the values up to it (plus the offset), so that its last value equals sum().",
  "every numeric series",
  "prefix sums of arbitrary sequences",
  OP+"CSum", OP+"Integral")
p("The derivative of a linear signal is its slope",
  "For a point series with constant resolution sampling a linear signal, derivative() gives exactly the slope in every point, and has the same timestamps as the source.",
  "every slope, intercept, resolution, number of points",
  "for all the lengths and all parameters, with different formulas at the edges",
  OP+"Derivative")
p("Integrating the derivative restores the signal",
  "For a series with constant resolution, integral of the derivative with the first value as integration constant (c) restores the series.",
  "every signal on a constant-resolution point series with one or more labels",
  "the central-difference derivative and the integral use different recurrences whose cancellation is an inductive argument",
  OP+"Derivative", OP+"Integral")
p("The moving average is the mean of each full window",
  "mavg(w) has len-w+1 items, each at the timestamp of the last item of its window (for slots: of the window) and with the mean of the w values of the window for each label.",
  "every numeric series and every window between 1 and its length",
  "all window sizes and lengths, boundary windows included",
  OP+"MAvg")
p("Normalising maps onto the target range preserving order",
  "normalize() maps the minimum of each label to the lower end and the maximum to the upper end of the target range, every value inside the range, preserves the order of the values and the timestamps, and applying it twice is the same as once.",
  "every numeric series with non constant labels, every target range",
  "for all values",
  OP+"Normalize")
p("Rescale and offset act point-wise and compose",
  "rescale(k) multiplies and offset(k) adds, for the given labels or for all of them, leaving the rest, the timestamps and the indexes unchanged; rescale(a) then rescale(b) is rescale(a*b), offset(a) then offset(b) is offset(a+b), and the inverse operation restores the data.",
  "every numeric series, every factor",
  "algebraic laws on all inputs",
  OP+"Rescale", OP+"Offset")
p("Filtering keeps the requested labels untouched",
  "filter(labels) gives a series with the same timestamps where every item has exactly the requested labels, with the original values, and does not alter the source.",
  "every series with dictionary data and every non-empty set of existing labels",
  "for all label sets and items",
  OP+"Filter")
p("Merging is the intersection with averaged common labels",
  "merge of several series with compatible resolution contains exactly the timestamps present in all of them, in order, with the union of labels.",
  "every number of well-formed series",
  "for all overlaps, offsets and number of series",
  OP+"Merge")
p("Selecting returns exactly the matching items",
  "select with an equality condition returns exactly the items with that value for that label, in order; conditions joined with and return the items matching all of them.",
  "every series and every conjunction of equalities",
  "for all contents, including no match",
  OP+"Select")
p("In-place operations do the same as the out-of-place ones",
  "For the operations with an inplace option, the data of the series after the in-place call is the data of the series returned by the out-of-place call.",
  "every numeric series",
  "in-place loops read values they may have already overwritten; only a relational argument on all inputs excludes it",
  OP+"Derivative", OP+"Rescale", OP+"Offset", OP+"Normalize")
p("Out-of-place operations do not change their source",
  "No out-of-place operation or transformation changes the items, data, indexes or later results of its source series, and changing the result does not change the source.",
  "every series and operation",
  "aliasing: any following mutation must be considered",
  OP+"Rescale", OP+"Offset", OP+"Filter", TR+"_compute_new")
# ---- intervals
p("Validity regions tile the time axis without overlaps",
  "With a sampling interval si, the validity region of each point contains the point, extends at most si/2 on each side, and never overlaps the region of another point; where two consecutive points are closer than si the boundary is exactly half way.",
  "every strictly increasing sequence of timestamps and every positive interval",
  "for all spacings of all sequences",
  UT+"_compute_validity_regions")
p("Coverage is the covered fraction",
  "The coverage of a slot is the fraction of its length covered by the validity regions of the points, is always between 0 and 1, 0 if no region intersects it and 1 if the regions cover it.",
  "every slot and every sequence of points with disjoint regions",
  "a measure-theoretic statement on all configurations",
  UT+"_compute_coverage")
p("Data loss is the missing fraction",
  "The data loss of a slot is between 0 and 1, is one minus the coverage if the points carry no previous data loss, and combines the previous data losses weighted on the overlap otherwise.",
  "every slot and points, with any data losses in [0,1]",
  "for all configurations of points, gaps and previous losses",
  UT+"_compute_data_loss")
p("The auto-detected sampling interval is the most frequent spacing",
  "The sampling interval detection always terminates, gives the most frequent distance between consecutive points, equal to the resolution if this is constant, with a confidence between 0 and 1 which is 1 for constant resolutions.",
  "every point series with at least two points",
  "termination and optimality on all inputs",
  UT+"detect_sampling_interval")
p("Linear interpolation is exact and bounded",
  "Interpolating at a time between two points gives the value on the straight line through them for each label: exact on the points, always between the two values, and reproducing any linear signal.",
  "every series, every time within it, every label",
  "for all reals in all intervals",
  IN+"LinearInterpolator")
p("Uniform interpolation picks the neighbour values",
  "The uniform interpolator gives for each label the mean of the previous and the next value, for any time within the series, therefore bounded by them.",
  "every series, every time within it",
  "for all positions",
  IN+"UniformInterpolator")
# ---- transformations
p("Resampling gives a regular grid",
  "resample(unit) gives points at constant distance equal to the unit, strictly increasing, all with the same labels as the source.",
  "every well-formed point series with at least two points, every positive unit",
  "for all spacings, gaps and units",
  TR+"Transformation.process", TR+"Resampler", TR+"_compute_new")
p("Aggregating gives contiguous slots",
  "aggregate(unit) gives slots of the given unit, each starting where the previous one ends, starting from the first unit boundary not before the series start.",
  "every well-formed point series, every positive unit",
  "for all spacings, gaps and units",
  TR+"Transformation.process", TR+"Aggregator")
p("Data losses of transformed series are fractions and detect gaps",
  "Each item produced by resampling or aggregating a series with no previous data losses has a data loss in [0,1], which is 0 in slots fully covered by points and 1 in slots within a gap.",
  "every well-formed point series, every positive unit and interval",
  "for all configurations of gaps and units",
  TR+"_compute_new", UT+"_compute_data_loss")
p("Aggregates and resampled values stay within the source bounds",
  "Average-based resampling and aggregation give values between the minimum and the maximum of the source for each label, and a constant signal stays constant.",
  "every well-formed point series and every positive unit",
  "for all weights, gaps and interpolated values",
  TR+"_compute_new", TR+"_TimeSeriesDenseView", OP+"Avg")
p("Transformation start and end limits are honoured",
  "With start and end arguments a transformation gives no item before the start or after the end, for any start and end values.",
  "every series, every start and end",
  "all positions of the limits, also zero and inside gaps",
  TR+"Transformation.process")
p("The transformation of a dense constant-resolution series loses nothing",
  "Aggregating a point series whose resolution divides the unit gives in each slot the plain mean of the points in it weighted on their validity, and the weights of each slot sum to one.",
  "every constant-resolution series and every multiple unit",
  "for all multiples and alignments",
  TR+"_compute_new")
# ---- models
p("Model life cycle: fit before use, and only on compatible series",
  "A model that must be fitted never predicts, applies or evaluates before a successful fit; after it, it accepts only series with the same labels and resolution as the fit ones; a failed call does not change the model.",
  "every finite sequence of fit, predict, apply and evaluate calls on any series",
  "state machine over all call histories",
  MB+"Model.fit_function", MB+"Model.predict_function", MB+"Model.apply_function", MB+"Model.evaluate_function")
p("Saved models are loaded back equal and are never overwritten",
  "Saving an unfitted model or on an existing path raises and changes nothing on disk; loading a saved model gives a fitted model with the same parameters, accepting the same series.",
  "every fitted model and every file system state",
  "for all contents of the store",
  MB+"Model.save", MB+"Model.load")
p("Cross validation never validates on training data",
  "In each round of cross_validate the items used for fitting and those used for evaluating are disjoint, together they are the series (except the remainder of the division), and the validation parts of different rounds are disjoint.",
  "every series length and number of rounds",
  "for all lengths and rounds, remainders included",
  MB+"Model.cross_validate")
p("Windows precede their targets",
  "In the matrix form used for fitting, the window of each target is made of exactly the preceding items, in order, each target has its own values, and no item from the target on leaks in its window.",
  "every series and window size",
  "for all lengths and windows",
  MB+"_KerasModel._to_matrix_representation", MB+"_KerasModel._compute_window_features")
p("Reconstruction only changes missing data",
  "Applying a reconstructor keeps the number of items and their timestamps, changes the data only of the items with data loss at or above the threshold, and flags exactly the changed ones.",
  "every series with data losses and every threshold",
  "for all patterns of consecutive losses",
  MR+"Reconstructor.apply", MR+"Reconstructor._reconstruct")
p("The linear reconstructor interpolates between the gap neighbours",
  "Each reconstructed item lies on the straight line between the last item before the gap and the first after it, for each label.",
  "every gap position and length, every label",
  "for all gap sizes",
  MR+"LinearInterpolationReconstructor.predict")
p("Forecasts extend the series contiguously",
  "apply(series, steps) gives the original items followed by exactly steps forecast items, contiguous and in order, with the forecast index set to 1 exactly on them.",
  "every series, every number of steps and every predictor",
  "for all steps and whatever the predictor returns",
  MF+"Forecaster.apply", MF+"Forecaster.forecast")
p("The periodic average forecaster repeats a periodic signal",
  "On a perfectly periodic signal, the periodic average forecaster fitted on it forecasts the same signal.",
  "every periodic signal, any periodicity and number of periods",
  "for all periods and phases",
  MF+"PeriodicAverageForecaster")
p("LSTM normalisation is invertible",
  "The normalisation applied before training or predicting and the de-normalisation applied to the results are inverse of each other for each label, on the range seen at fit time.",
  "every value and every fit range",
  "for all values",
  MF+"LSTMForecaster")
p("Anomaly indexes are in [0,1] and monotone in the error",
  "The anomaly index given to each item is between 0 and 1, is 0 below the start of the range and 1 above its end, and does not decrease as the error grows.",
  "every error value and every index range",
  "for all values",
  MA+"ModelBasedAnomalyDetector.apply")
p("Marked events have the requested persistence",
  "mark_events marks exactly the maximal runs of anomalous items at least as long as the minimum persistence, everywhere in the series, and terminates without errors.",
  "every sequence of anomaly flags and every persistence",
  "for all run positions, also at the ends of the series",
  MA+"AnomalyDetector.mark_events")
p("Periodicity indexes are periodic and in range",
  "The periodicity index of an item is in [0, periodicity), increases by one (modulo the periodicity) at each step, and is the same for items at a distance multiple of the period.",
  "every timestamp, also negative, every resolution and periodicity",
  "for all timestamps",
  UT+"_get_periodicity_index")
p("The periodic average reconstructor keeps the profile",
  "On a gap in a perfectly periodic signal, the periodic average reconstructor restores the missing values.",
  "every periodic signal and gap",
  "for all periods, gap positions and lengths",
  MR+"PeriodicAverageReconstructor")
# ---- storages
p("CSV round trip",
  "A series stored to a CSV file and loaded back is equal to the original: timestamps, labels, data and indexes.",
  "every well-formed series",
  "encode/decode law on all series, labels and index sets",
  ST+"CSVFileStorage.put", ST+"CSVFileStorage.get", DS+"TimeSeries.save", DS+"TimeSeries.load")
p("Existing files are never overwritten silently",
  "put without overwrite on an existing file raises and leaves the file as it was; with overwrite the final content is the same as writing to a fresh file.",
  "every file system state and every series",
  "for all states",
  ST+"CSVFileStorage.put")
p("Gaps in slot files are filled linearly and contiguously",
  "When loading slots, missing ones are filled so that the loaded series is contiguous, the existing slots keep their data, and the filled ones are on the straight line between the neighbours and have full data loss.",
  "every set of rows on the slot grid",
  "for all gap sizes and positions",
  ST+"CSVFileStorage.get")
# ---- utilities
p("Error metrics are zero exactly on equal sequences",
  "The mean absolute, squared, absolute percentage and absolute log errors are the averages of the respective errors, non-negative, zero if and only if the sequences are equal; MAE and MSE are symmetric; the maximum versions are the greatest of the errors and bound the means; sequences of different lengths are rejected.",
  "every pair of numeric sequences",
  "for all lengths and values",
  UT+"mean_absolute_error", UT+"mean_squared_error", UT+"max_absolute_error", UT+"mean_absolute_percentage_error", UT+"max_absolute_percentage_error", UT+"mean_absolute_log_error", UT+"max_absolute_log_error")
p("Time unit strings denote the interval they come from",
  "The time unit built for a distance in seconds has exactly that length.",
  "every distance, also fractional",
  "string manipulation over all decimal representations",
  UT+"_to_time_unit_string")
p("Unit arithmetic is consistent",
  "Adding a unit to a point or number and subtracting it gives back the start, unit addition and division by a number agree with the numeric ones, and equality is an equivalence.",
  "every unit and value",
  "algebraic laws",
  UN+"Unit", UN+"TimeUnit")
p("Range rescaling is monotone and hits the end points",
  "rescale maps the source range onto the target range: end points to end points, preserving order, inverse to the opposite rescaling.",
  "every value and every pair of non-empty ranges",
  "for all values and ranges",
  UT+"rescale")
p("Transformations leave the source series as it was",
  "resample and aggregate return a new series and leave the items of the source series with the same times, data and indexes as before the call.",
  "every point series, unit, start and end",
  "mutation through shared items in the slot computation, for every alignment of points and slots",
  "timeseria/transformations.py:Resampler", "timeseria/transformations.py:Aggregator", "timeseria/transformations.py:_compute_new")
AD="timeseria/models/anomaly_detectors.py:"
p("The anomaly index of an item does not depend on what follows",
  "For an anomaly detector based on a forecaster which only reads the items it is given, the item of the result at a position depends only on the items of the series up to that position: applying the detector to the first items of a series gives the first items of the result, and succeeds if it succeeds on all.",
  "every pair of series with the same first items, every detector with a forecaster and every apply argument",
  "it compares the application on a series with that on all of its possible continuations",
  AD+"ModelBasedAnomalyDetector.apply", AD+"ModelBasedAnomalyDetector._get_predicted_value")
p("Pre-processing a series does not change the anomalies detected",
  "After preprocess, apply on that series has the same outcome as without it: the same items, indexes and details, or the same error.",
  "every series, detector and apply argument",
  "equality of two executions for every series and argument, including those which fail",
  AD+"ModelBasedAnomalyDetector.preprocess", AD+"ModelBasedAnomalyDetector.apply")
p("The details describe the anomaly index",
  "If asked for, the prediction, the error and the adherence of every label are added to the items of the result as label_pred, label_err and label_adh, and all the other data are left as they are.",
  "every series, label, detector and selection of details",
  "over all labels, including those with names similar to those of the details, and selections",
  AD+"ModelBasedAnomalyDetector.apply")
ST="timeseria/storages.py:"
p("Reading a file again gives the same series",
  "Reading a CSV file with a storage which has already read it with the same options has the same outcome, series or error, as the first time, although the storage remembers what it has detected; and leaves the storage as the first time.",
  "every file content, storage settings and reading options",
  "equality of two executions over all texts and settings, with a state which the first one changes",
  ST+"CSVFileStorage.get")
p("A limit gives the beginning of what would be read",
  "If a series of points is asked for, without sorting and without skipping errors, and the whole file can be read, reading it with a limit of n gives the first n items of what is read without.",
  "every file content, columns, formats and limit",
  "relates two executions over all texts",
  ST+"CSVFileStorage.get")
p("What is not data is ignored",
  "Adding or removing anywhere in a CSV file empty lines, comments and lines without the separator, or the newline at its end, does not change the outcome of reading it.",
  "every file content, position, storage settings and reading options",
  "relates two executions over all texts",
  ST+"CSVFileStorage.get")
p("Each row of a table is read as a point with its values",
  "Reading as points a CSV table with a header gives one point for each well formed row, in the order of the file or, if asked, of time: at the time in its timestamp column or columns, with the numbers under the labels of the header, all or those asked for, and with the indexes apart. A row which is not well formed is left out if errors are to be skipped and otherwise makes reading fail.",
  "every table with a label for each column, separator, quoting, time columns and format, choice of labels, and any number of well formed and bad rows",
  "parsing of all texts",
  ST+"CSVFileStorage.get", ST+"CSVFileStorage.__init__", UT+"_sanitize_string", UT+"_to_float")
FC="timeseria/models/forecasters.py:"
p("Evaluating a forecaster measures its one-step predictions",
  "The result has, for each label evaluated and each metric asked for, the entry label_metric, and no others: the metric computed on the actual values of the items after the window and on what the model predicts for each of them given only the items before it (and its own data as context). No score is negative, and a score is zero exactly if all of these predictions are exact. The results series, if asked for, has these items with their predictions and errors added. Unknown metrics, more than one step and empty series are refused, and otherwise the evaluation succeeds if the predictions do and no error has to be divided by zero or have a logarithm taken of a number which is not positive.",
  "every fitted forecaster, series, label, selection of metrics and results",
  "over all series, models and selections of metrics, with a loop on the items, and a comparison with all continuations of the series",
  FC+"Forecaster.evaluate", FC+"Forecaster._get_actual_value", FC+"Forecaster._get_predicted_value")
RC="timeseria/models/reconstructors.py:"
p("Evaluating a reconstructor measures how it rebuilds items which are known",
  "For each number of steps k the score is the metric between the items predicted and the actual ones, over all the runs of k items which, with the windows before and after, are inside the series (excluding its last item) and have no data loss at or above the threshold, in order and up to the limit; the percentage error is relative to the prediction. The overall score is the average over the numbers of steps, and is the same with and without the details. No score is negative, and it is zero exactly if all of these items are predicted exactly: as for a periodic average reconstructor on the periodic signal it is fitted on, also if moved by a constant. The evaluation succeeds if there is a run for each number of steps and the predictions succeed.",
  "every fitted reconstructor, series with a label, steps, limit, threshold and metrics",
  "over all series, positions of the data losses and models, with nested loops",
  RC+"Reconstructor.evaluate", RC+"PeriodicAverageReconstructor.predict")
p("The models based on Prophet give and take the right values at the right times",
  "Fitting gives Prophet the local time and the value of each item of the series. Applying the forecaster appends one item for each step, one resolution after the other, with what Prophet answers for the local time of each. Applying the reconstructor replaces each missing item, also at the ends, with what Prophet answers for its time in UTC, and no other. So if Prophet learns a signal the forecasts continue it, and on a series in UTC the missing items get it and the evaluation of the reconstructor gives zero.",
  "every series, timezone, resolution, signal, number of steps and data losses, whatever Prophet answers",
  "over all series and all behaviours of a library which cannot be run in all cases",
  FC+"ProphetForecaster.fit", FC+"ProphetForecaster.predict", RC+"ProphetReconstructor.fit", RC+"ProphetReconstructor.predict", "timeseria/models/base.py:_ProphetModel")
p("The models based on ARIMA only forecast what follows the series they were fitted on",
  "Fitting gives the library the values of the series in order. Applying to the series of the fit, or to one which ends at the same time, appends one item for each step, one resolution after the other, with the forecasts of the library in order. Applying to any series which ends at another time, as the result itself, is refused and adds no items.",
  "every pair of series, number of steps and behaviour of the library",
  "over all series and all behaviours of a library which cannot be run in all cases",
  FC+"ARIMAForecaster.fit", FC+"ARIMAForecaster.predict", FC+"AARIMAForecaster.fit", FC+"AARIMAForecaster.predict")
PL="timeseria/plots.py:"
p("A plot shows the items of the series and nothing else",
  "Without aggregation the plot has one row for each item, in order, with its time, its value for each of the labels chosen and its indexes, if any. Aggregated by n it has one row for each n items, in order, at the middle of their time, with the least value, the mean and the greatest value of each label and the mean of each index (a missing one counts as zero); the items after the last whole group are not shown. There is one column for each label and index, under its name, if no name has a comma. The range of the plot, if not given, contains all the values, unless they are all the same negative number. Above the threshold for aggregation the rows are less than the threshold and not less than a tenth of it, up to it there is one for each item. Empty series, unknown labels or indexes and empty choices of labels are refused, and everything else can be plotted.",
  "every series of points or slots, with data by position or by label, choice of labels and indexes, aggregation and threshold",
  "over all series lengths and group sizes, with running sums and extremes",
  PL+"_to_dg_data", PL+"dygraphs_plot")
DS="timeseria/datastructures.py:"
p("The resolution guessed for a series is that of its points",
  "For a point series of variable resolution the guess is the unit of a distance between neighbours which is the most frequent, with a confidence between zero and one; the same distance is the default validity of the points in resampling and aggregating. Guessing, asking for the interval or writing the series as text change nothing of the series, and so do not change any later result. Slot series, series with less than two points and series with a constant resolution are refused.",
  "every history of additions, removals, duplications and questions, in any order",
  "over all histories: what matters is the order of questions and changes",
  DS+"TimeSeries.guess_resolution", DS+"TimeSeries._autodetected_sampling_interval", DS+"TimeSeries.append")
p("A series which is saved is the one which is loaded",
  "Saving a series of points, or of two slots or more, to a file and loading the file gives a series with the same type of items, times, units, values and indexes, on the timezone of the series saved: also where reading the file without its comments would find another type, unit or timezone. Files without the parameters of a series are refused, and an existing file is overwritten only if asked. Loading on a class derived from the one of time series returns nothing.",
  "every series of points or slots with data, of any length, times, labels, indexes and timezone, and every file system with a place for the file",
  "over all series and texts; the round trip goes through the text of a file",
  DS+"TimeSeries.save", DS+"TimeSeries.load", ST+"CSVFileStorage.put", ST+"CSVFileStorage.get")
UT2="timeseria/utilities.py:"
p("The periodicity detected is that of the strongest oscillation",
  "For a series with one label at regular intervals the periodicity detected is the number of items, rounded, of one period of the strongest local maximum of its spectrum, where maxima with less than ten periods are skipped if the next one is almost as strong and more than ten times shorter; there is an error only if there are no maxima at all. It is at least two and at most the number of items. If a pattern of p values is repeated it is p, or p divided by a whole number, and it is exactly p if the slowest oscillation of the pattern is the strongest, so that a periodic average reconstructor which detects it is as one which is given it. Constants and alternating values have none. Multiplying all the values by a number, or adding a number to all of them, does not change what is detected.",
  "every series of any length and values",
  "over all signals: the spectrum is computed on real numbers, the result depends on an order of them",
  UT2+"detect_periodicity", RC+"PeriodicAverageReconstructor.fit")
p("What a dictionary or a JSON document says is what the series holds",
  "A series made from a dictionary has one item for each entry, in the same order: at the instant of its key (a datetime with its timezone, a number of seconds or a text which is a number or a date, in UTC) and with the data of its value (a number alone is labelled \"value\"); slots if a unit is given, otherwise points. All the dictionaries which describe points in order or slots in succession are accepted, other keys are refused. A series written as JSON and read back has the same times, values, timezones and slots.",
  "every dictionary and every series of points or slots with data",
  "over all dictionaries, series and texts",
  DS+"TimeSeries.from_dict", DS+"TimeSeries.from_json", DS+"TimeSeries.to_json")
p("A series converted to a data frame and back is the same",
  "The frame of a series has one row for each item, at its time, with its values under the names of the labels and its data loss, if any. A series made from a frame has one item for each row, in the same order, at the time of the row (in UTC if this has no timezone), with the values of its cells: slots of the unit of the frequency if this is of days, months or years, points otherwise; the type can be asked for. The index must be of dates. Converting a series to a frame and back gives the same items.",
  "every frame with any frequency, number of rows and columns, and every series",
  "over all series, frames and multiples of the frequencies",
  DS+"TimeSeries.from_df", DS+"TimeSeries.to_df")
p("A series can be used as a list without losing its order",
  "Assigning, deleting, adding or repeating items with the operators of a list changes exactly the items asked for. The items stay in order or in succession if and only if what is put there fits what is before and after, and so do they after any history of calls of which each one fits; nothing else is checked. An item is in the series if and only if an equal one is. The position of an item and a copy of the series can be asked for.",
  "every series of points or slots, and every history of method calls and list operators",
  "over all series and histories: the invariant is on the whole list after any number of calls",
  DS+"Series", DS+"Series.index", DS+"Series.copy", DS+"Series.append")
p("Points and slots are what they were made of, and compare by time and data",
  "A time point is made exactly when its arguments say a time, and has that time and that timezone; a time slot exactly when they say a start and an end or a unit, and goes from one to the other. Data must be there, and indexes, the data loss included, are those given. Two items are equal if and only if they are at the same time and have the same data, if both have data; points are strictly ordered by their time. The timezone and the indexes do not matter to comparisons.",
  "every combination of arguments, and every two or three items",
  "over all combinations of arguments and all pairs and triples of items",
  DS+"TimePoint", DS+"TimeSlot", DS+"DataPoint", DS+"DataSlot", DS+"Point.__eq__", DS+"Slot.__eq__", DS+"TimePoint.__gt__")
p("Generic points, slots and series, in any number of dimensions",
  "A series of numbers, points or slots is made exactly when these are of the same type and shape and one after the other: numbers and points with increasing values, slots each starting where the previous one ends in all the dimensions. It stays so after any history of additions, insertions at the two ends and removals. The length of a slot is the mean of the differences of its coordinates, and the lengths of slots in succession add up. A slice of it with increasing positions holds the items at those positions.",
  "every number of dimensions, list of items and history of calls",
  "over all dimensions, lists and histories",
  DS+"Point", DS+"Slot", DS+"Series", DS+"Series.append", DS+"Series.insert", DS+"Slot.length")
p("The resolution of points whose times are floats",
  "Rounding does not change which points are accepted or refused. The resolution is a single one if and only if the rounded distances between the stored times are all the same. For times of the same age these distances are exact, and a series of points every d seconds has resolution d when its times are multiples of 1/128 of a second, whole seconds in particular, however far from 1970. For other times the seconds the resolution is made from are within a ten-millionth of a second, and four roundings, from the distance.",
  "every list of points with double precision times",
  "over all the doubles and all the lists: rounding errors show up only for some times",
  DS+"TimeSeries.append", DS+"TimeSeries.resolution")
p("Sums and averages of floats",
  "The sum of n floats differs from the exact sum by at most (1 + 2^-53)^(n-1) - 1 of the sum of the absolute values, and the average (of items without weights) from the exact mean by at most (1 + 2^-53)^n - 1 of the mean of the absolute values. With weights which are not negative the average differs from the weighted mean by at most (1 + 2^-53)^(4n+2) - 1 of the weighted mean of the absolute values (but for products too small for a float). When the values are multiples of a power of two (integers, for instance) and the absolute values sum up to less than 2^53 units the sum is exact, the average is the float nearest to the mean and lies between the minimum and the maximum.",
  "every series of double precision values, with any labels",
  "over all the doubles and all the lengths: the errors accumulate, and show up only for some values",
  OP+"Sum", OP+"Avg")
p("Normalisation of floats",
  "Normalising a series of floats to [0, 1] raises only if a label is constant. Otherwise the minimum becomes exactly 0, the maximum exactly 1, all the values are in between, and normalising again changes nothing. On any target range larger values do not become smaller and each value is within a few roundings of its exact normalisation.",
  "every series of double precision values, with any labels, and every target range",
  "over all the doubles: values of very different sizes or very near to each other",
  OP+"Normalize")
p("Interpolating floats",
  "The linear interpolation between two points with float times and values differs from the exact line only by a few roundings, gives exactly the value of a point at its time and, unless the instant is at the very end of the gap or the values have hardly any digits, stays between the two neighbouring values. The uniform interpolation always stays between them.",
  "every series of points with double precision times and values, and every double precision instant in a gap",
  "over all the doubles: the value passes the neighbours only for a few times and values",
  IN+"LinearInterpolator", IN+"UniformInterpolator")
p("Coverage and data loss with float times",
  "With float times the coverage of an interval is the covered fraction and the data loss the missing one, but for a few roundings for each measured point, and the coverage is not negative. Data losses the points already had are added in proportion to their share of the interval, again but for a few roundings for each point. If the times are multiples of a power of two (whole seconds, for instance) the coverage is the float nearest to the covered fraction: both are between 0 and 1, the data loss is 0 only if all is covered and 1 only if nothing is.",
  "every list of disjoint validity regions with double precision bounds, and every interval",
  "over all the doubles: the data loss becomes negative only for some times",
  UT+"_compute_coverage", UT+"_compute_data_loss")
p("Cumulative sums, differences and moving averages of floats",
  "With float values each value of csum is the sum of the values so far but for one rounding for each of them (relatively to their absolute values), the last one is to the last digit the value of sum, and csum does not decrease where the values are not negative; each value of diff is the float nearest to the difference of the neighbours; each value of mavg is the mean of its window but for one rounding for each value of it. If the values are multiples of a power of two (whole numbers, for instance) and not too many, csum is exact, mavg is the float nearest to the mean and lies between the smallest and the largest value of the window, and diff after csum gives the values back.",
  "every series with double precision values, every window, and every item of the result",
  "over all the doubles: the values which diff does not restore after csum, or whose mean is out of their range, are found only by trying all",
  OP+"Diff", OP+"CSum", OP+"Derivative", OP+"Integral", OP+"MAvg")
p("Offsets and rescaling of floats",
  "With float values each value of offset is the float nearest to the value plus the offset, and each of rescale the float nearest to the value times the factor, for the labels which are given (the others stay as they are): the error is at most 2^-53 of the result (plus 2^-1075 for rescale), results which are floats are exact, and the order of the values is kept (for rescale: reversed if the factor is negative). Rescaling by a power of two above one and back restores the values; so does an offset and back if all are multiples of a power of two.",
  "every series with double precision values, every offset and factor, as a number or for each label",
  "over all the doubles: the values which an offset and its inverse do not restore are found only by trying all",
  OP+"Rescale", OP+"Offset")
p("CSV tables read as lists",
  "A CSV table without a header (each cell of the first row has a number or a date), or one of which some columns are asked for by position, or read as lists on request, gives one point for each good row, at its time, with the list of the numbers of the columns: in the order of the file, without the time columns, or as they were asked for. Without labels the time is in the first column, or in those given by position. Bad rows are left out if errors are skipped; otherwise the first one makes the reading fail, even if it is the first of all. Asking for labels (or dictionaries) where there is no header fails.",
  "every table, separator, set of time and data columns, text of the numbers, and order of the rows",
  "over all the files and all the settings of the storage",
  ST+"CSVFileStorage.get", ST+"CSVFileStorage.__init__", UT+"_sanitize_string", UT+"_to_float", UT+"_is_list_of_integers")
p("The summary of a series",
  "The summary (and what inspect prints) has the description of the series and then, between brackets, the texts of its items in their order, one per line (or with spaces in place of the line breaks): all of them, each once, if there is no limit or if they are not more than it; otherwise as many as the limit, the first ones and then the last ones, half and half (one more of the first if the limit is odd), with the dots in place of those left out.",
  "every healthy series of points or slots, every limit, every text of the items",
  "over all the lengths and limits: an item shown twice or lost at the boundary between the two halves shows only for some of them",
  DS+"Series._summary", DS+"Series.summary", DS+"Series.inspect", DS+"Series.head", DS+"Series.tail")
p("What the mark of a plot highlights",
  "The items of a plot are drawn where the clock of their timezone is, and the mark from where the clock of the timezone of its start is to where that of its end is, so that it highlights exactly the items from its start to its end; the mark changes neither the rows nor their range. (It does so only if its datetimes and the items are as much ahead of UTC: with other timezones it highlights other items, and a timezone behind UTC is refused.)",
  "every plot, every start and end of the mark, every time and timezone of the items, offsets of all signs",
  "over all the dates and offsets: tests use UTC or one timezone ahead of it, where cutting the text at the plus works, while it cuts at the first dash of the date for those behind UTC",
  PL+"_utc_fake_s_from_dt", PL+"_to_dg_time", PL+"_to_dg_data", PL+"dygraphs_plot")
p("The inspection of a fitted anomaly detector",
  "After a fit which stored the errors, the inspection gives for every label, in order, the mean, the least and the greatest of the absolute values of its errors on the series of the fit; the plots of the distributions go from the given limits or from the least to the greatest of the errors; the series has, for every item which had a prediction, its values, the predictions and the errors. Without the errors it is refused. (The automatic limits are those of the first label, for all of them.)",
  "every fitted detector (forecasters with and without context, reconstructors), metric, series and set of labels, every choice of the limits",
  "over all the sets of labels: the limits found for the first label stay for the next ones, which shows only with labels of different scales",
  AD+"ModelBasedAnomalyDetector.inspect", AD+"ModelBasedAnomalyDetector.fit")
p("The indexes of resampled and aggregated items",
  "Every item of a resampled or aggregated series has, besides its data loss, exactly the indexes which some item of the source has. The value of each is the mean of the values of the points which have one, each counted for the part of its validity region in the interval of the new item; it is between the least and the greatest of those, and it is None exactly if no point with a value has some part of the interval. The interpolated points do not count.",
  "every series of points, every name of an index, values None or missing on any of the items, every unit, start, end and sampling interval",
  "over all the series and indexes: each mean depends on where the regions fall in the interval and on which points have a value, and tests look at one or two intervals where all of them do",
  TR+"_compute_new", TR+"Resampler", TR+"Aggregator")
p("Derivatives and integrals with any sampling",
  "The derivative of a series, with a constant or a variable resolution, has the same times, time zone and indexes, with every label renamed, and at each inner item the value is the mean of the slopes before and after it, so a straight line has its slope as derivative whatever the sampling; at the first and at the last item the only change is divided by the sampling interval. The integral starts from the constant and its slopes, taken over the real time between the items, have as mean at each inner item the value there, and the first one is the first value.",
  "every series of points or slots with numeric data and at least two items, every constant or variable resolution and detected sampling interval, every constant of integration",
  "over all the samplings: the spacing between the items enters in each term, and tests use evenly spaced series or a single uneven one",
  OP+"Derivative", OP+"Integral")
p("The derivative of floats",
  "With Python floats for times and values, the derivative at an inner item lies between two floats, each a few roundings away from the slope before or after the item and on the same side of zero; at the ends it is a few roundings away from the only change over the sampling interval. So a label which never decreases has no negative derivative, the derivative of a constant label is exactly 0, and where values and times need less than 53 bits the derivative of a straight line is exactly its slope.",
  "every series with times and values which are doubles, at least two items and any constant or variable resolution; all labels and positions",
  "over all the doubles: how much the roundings of subtractions, sums and divisions add up to, and that they never change a sign, cannot be settled by sampling",
  OP+"Derivative")
p("The integral of floats",
  "With Python floats for times and values, the integral of a series of one label is exactly the real one, label by label and item by item, whenever the values of the series and of its integral, the changes of the integral, the times between the items and the slopes are floats. If half of each change over two steps is a float too, the float derivative of that integral gives the values back, but for the first and the last item. Without that, it can be further from the real integral than the float closest to it, even for a constant label.",
  "every sampled series of one label with at least two items and values which are doubles, every integration constant",
  "over all the doubles and any number of accumulated roundings: where the float and the real integral agree cannot be settled by sampling",
  OP+"Integral")
with open('/verif/properties.jsonl','w') as f:
    for q in P: f.write(json.dumps(q)+'\n')
print(len(P))
