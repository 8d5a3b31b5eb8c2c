# Formal model of Timeseria in Rocq (Coq 8.16.1)

This file says what is modelled and how, what each theorem rests on, and, property by property, what is proved and how.
Sections 5 and 6 are generated by `tools/design.py` from `properties.jsonl`, `MANIFEST.json`, `tools/notes.json` and the
citations in the model files; the rest is written by hand in `tools/design_head.md`.

## 1. Modelling conventions

* **Numbers.** Epochs, data values, indexes, weights are exact canonical rationals (`Qc`). Python floats are modelled only in
  `Float*.v` (from C89 on), where every operation rounds as IEEE 754 double precision does; elsewhere there is no rounding, and nowhere inf; a `nan` produced by numpy is the error `NotANumber`. Where the code copes deliberately with rounding
  (`_is_close`, the tolerance in `__succedes__`, rounding of the sampling interval) that arithmetic is modelled.
* **Exceptions.** A Python call is a value of `result A := Ok a | Err exc`. Calls which change an object return the *new state* also
  when they raise, because several of them change it before raising; so "refused calls have no effect" is a statement which can fail
  (and does: C04, C48, C79).
* **Dictionaries** are insertion-ordered association lists with string keys.
* **Items** are records: class, start, end, unit, timezone, data (list or dictionary of numbers), indexes, weight. Series are
  records with the items, the previous time, the resolution (kept by the code incrementally), the timezone and the reference for the
  checks on the data.
* **Aliasing.** Python objects shared between a series and the result of an operation are modelled where they matter, in `Alias.v`
  (a heap with addresses), used for C35. Elsewhere values are copied.
* **External code** (propertime, the calendar, datetime formatting, numpy, scipy, sklearn, keras, prophet, statsmodels/pmdarima, the
  json module, the disk) is not modelled: where the code calls it, the model has a parameter, universally quantified in the theorems,
  and what is assumed of it, if anything, is a hypothesis in the statement of the theorem. Section 4 lists them all.
* **Loops** are structural recursion; the one `while` loop whose termination is not clear has fuel, and the theorems say when the fuel
  suffices, or that no fuel does (C39).
* **Calendar units** (days, weeks, months, years) are a function from an epoch to an epoch (`cal`), so daylight saving time changes
  and months of any length are included.

## 2. Files (rocq/theories)

Model files hold definitions, each with the file and lines it models. `Spec*.v` hold the specification vocabulary: short definitions,
independent of the model's helpers, which say in terms of items, times, labels and values what the theorems are about. `*Proofs*.v` hold
the lemmas. `Prop*.v` hold the theorems (named `Cnn_...`), each with `Print Assumptions`, and the examples which show that their
hypotheses are met by concrete cases.

| model | specification | theorems | models |
|---|---|---|---|
| Base.v | - | - | results, rationals, dictionaries, Python list access |
| Items.v, Series.v | SpecSeries.v | PropSeries.v (C01-C08, C16) | datastructures.py: points, slots, series and their mutation |
| Access.v | SpecAccess.v | PropAccess.v (C09-C15, C17-C20) | datastructures.py, operations.py: access, slices, views, timezones, dictionaries, labels |
| Ops.v, Alias.v | SpecOps.v, SpecCalculus.v | PropOps.v, PropOps2.v (C21-C35), PropCalculus.v (C101) | operations.py |
| Intervals.v | SpecIntervals.v | PropIntervals.v (C36-C41) | utilities.py, interpolators.py: validity regions, coverage, data loss, sampling interval, interpolation |
| Transform.v | SpecTransform.v | PropIndexes.v (C100), PropTransform.v (C42-C47, C68) | transformations.py |
| Models.v | SpecModels.v | PropModels.v (C48, C50) | models/base.py: life cycle, checks, cross validation |
| Save.v | SpecSave.v | PropSave.v (C49) | models/base.py and others: save and load |
| Lstm.v | SpecLstm.v | PropLstm.v (C51, C56) | utilities.py, models/forecasters.py: window matrix and LSTM forecaster |
| Recon.v | SpecRecon.v | PropRecon.v (C52, C53, C59, C60) | models/reconstructors.py |
| Forecast.v | SpecForecast.v | PropForecast.v (C54, C55) | models/forecasters.py: apply, periodic average |
| Anomaly.v | SpecAnomaly.v | PropAnomaly.v (C57, C69-C71) | models/anomaly_detectors.py: fit and apply |
| Events.v | SpecEvents.v | PropEvents.v (C58) | models/anomaly_detectors.py: events |
| Summary.v | SpecSummary.v | PropSummary.v (C97) | datastructures.py (summary) |
| Marks.v | SpecMarks.v | PropMarks.v (C98) | plots.py (dates, mark) |
| Inspect.v | SpecInspect.v | PropInspect.v (C99) | anomaly_detectors.py (inspect) |
| Csv.v | SpecCsv.v | PropCsv.v, PropCsv2.v, PropCsv3.v (C61-C63, C72-C75, C96) | storages.py |
| Utils.v | SpecUtils.v | PropUtils.v (C64-C67) | utilities.py, units.py: metrics, rescale, unit strings, unit arithmetic |
| Evaluate.v | SpecEvaluate.v | PropEvaluate.v (C76, C77) | models/forecasters.py, models/reconstructors.py: evaluate |
| Wrappers.v | SpecWrappers.v | PropWrappers.v (C78, C79) | models which delegate to Prophet and ARIMA |
| Plots.v | SpecPlots.v | PropPlots.v (C80) | what the plots show: rows, groups, columns, range |
| Cache.v | SpecCache.v | PropCache.v (C81) | the sampling interval and the guessed resolution kept by a series |
| Load.v | SpecLoad.v | PropLoad.v (C82) | saving and loading a series |
| Periodicity.v | SpecPeriodicity.v | PropPeriodicity.v (C83) | the detection of the periodicity, on the exact Fourier transform |
| Convert.v | SpecConvert.v | PropConvert.v (C84, C85) | series from dictionaries, to and from JSON and data frames |
| Lists.v | SpecLists.v | PropLists.v (C86) | a series used as a list: operators inherited from list, index, copy |
| Make.v | SpecMake.v | PropMake.v (C87) | constructors and comparisons of points and slots |
| Generic.v | SpecGeneric.v | PropGeneric.v (C88) | generic points, slots and series in any number of dimensions |
| Float.v | SpecFloat.v | PropFloat.v (C89) | double precision rounding; points with float times |
| FloatOps.v | SpecFloat.v | PropFloat2.v (C90, C91), PropFloat8.v (C90), PropFloat3.v (C92, C93), PropFloat7.v (C93), PropFloat4.v (C94, C95) | sums, averages, normalisation, interpolation, coverage, cumulative sums, differences, moving averages, offsets and rescaling with double precision rounding |
| FloatCalc.v | SpecFloatCalc.v | PropFloat5.v (C102) | the derivative with double precision rounding |
| FloatInt.v | SpecCalculus.v, SpecFloat.v | PropFloat6.v (C103) | the integral with double precision rounding |
@@FILES@@

## 3. How the properties are proved, and what the names of the theorems mean

* A theorem without a suffix proves (a part of) the claim as it is worded in `properties.jsonl`.
* `_partial`: proved under a condition which the claim does not have; the note says which one.
* `_refuted`: the code does *not* do what the claim says; the theorem exhibits the case, in the model. These are findings: they have been
  checked against the text of the code. A claim with a `_partial` or `_refuted` theorem has the status "partial" in the manifest.
* Other names ending in `_differs`, `_overshoots`, `_why_...`: facts about the code which the claim does not exclude, and which show why
  its conditions are needed.

Methods: invariants by induction on the list of calls (C01-C08, C48); equality with a specification on lists for access and slices; loop
invariants for the transformations, the reconstructors and the detectors; equality of two executions for C34, C70, C72-C74; algebra on
rationals (`field`, `lra`, `nra` through `qlra`/`qnra`) for values; round trips through the text for C61.

`seeded/LOG.jsonl` records the wrong programs tried (`tools/seed.py` edits the model in a copy, rebuilds, and lists the theorems which
fail).

## 4. Trusted base

* **Coq's kernel** (8.16.1) and `coqc`; `vm_compute` is used in examples and refutations (part of the kernel). No `native_compute`.
* **Axioms: none, but for C83, C89-C95, C102 and C103.** Each theorem in `Prop*.v` is followed by `Print Assumptions`, which prints `Closed under the global
  context` for all of them except those of C83 (the Fourier transform needs real numbers) and those on floats (the Flocq library, whose
  rounding is compared with the one of the model, works with real numbers): for these it lists exactly, or some of, the axioms of the
  real numbers of Coq's standard library, `ClassicalDedekindReals.sig_forall_dec`, `ClassicalDedekindReals.sig_not_dec` and
  `FunctionalExtensionality.functional_extensionality_dep`, and for those on floats also `Classical_Prop.classic` of the standard library, which
  Flocq uses. (The `library_axioms` which vcheck counts are the fields of the module type `Under_rel` of the `ssrunder` library which comes
  with Coq: they are loaded with it, not used by any theorem.) No axioms of our own, no `Admitted`, no functors or module types, no
  kernel check switched off, no plugins.
* **The reading of the code**: each definition of the model cites the lines it models, and the comment says what is left out. Nothing
  checks this correspondence mechanically: the code cannot be run here.
* **The specifications** in `Spec*.v` say what the English claims say.

What is external to the code, and enters as a parameter of the theorems (arbitrary if nothing else is said):

| external | parameter | assumed |
|---|---|---|
| propertime: `TimeUnit('...s')` of a resolution, comparison of units | `env` | where stated: `parses_units`, it reads the seconds it is given (C05, C26, C42...); otherwise arbitrary |
| propertime: calendar arithmetic, `unit.shift`, `unit.round` | `cal`, `rounds`, `rounds_up` | where stated: the unit moves forward (`lasting`), rounding gives a boundary not before |
| number + calendar unit | `nadd` | arbitrary |
| text of units (`str(TimeUnit)`, parsing) | `unit_text` | for C49: it is read back as the same unit |
| datetimes keep microseconds | `us` in Access.v | defined (rounding to 1e-6) |
| local (naive) time of an epoch in a timezone | `clock` | arbitrary (C78) |
| propertime: `dt_from_str`, `dt_from_s`, `s_from_dt`; `datetime.isoformat`; JavaScript's `Date.UTC` | `clocks`; the last three defined in Marks.v, SpecMarks.v | where stated (C98): what isoformat writes in UTC is read back (`read_back`), a text with neither a T nor a space is refused (`needs_a_time`) |
| DST offset of an item | `dst` | arbitrary |
| text of numbers and dates in CSV files: `str`, `float`, `strptime`, ISO | `num_text` | for C61: `float(str(x)) = x` (`exact_text`); otherwise arbitrary |
| JSON in the comments of a saved series; text of dates and of the series | `jl`, `now`, `more` in Load.v | for C82: an object of three plain texts is read as it is (`reads_json`); texts without newlines |
| dates in Convert.v: text of a date and back, `float` of a text, instant kept by a datetime, end of the slot which starts at an instant | `dates` | for the round trips: a date is read back as it was written (`readable_date`) |
| the frequency Pandas infers for an index | `infer`, `fr_freq` | arbitrary; where stated, a multiple of a known name |
| threshold for the aggregation of plots | `T` in Plots.v | greater than zero, where needed |
| charset detection and decoding (chardet) | - | not modelled: the text of the file is given |
| json | `dumps`, `loads` | reads what it writes for the values json represents; keys become strings (modelled) |
| file system | a tree without links, `disk` | every write can fail at any point, leaving a beginning of the content |
| the logarithm and the square root | `lg`, `sq` | where stated: zero exactly in one, sign laws |
| sklearn `mean_absolute_error`, `mean_squared_error` | - | modelled by their definition |
| periodicity detection | `detect` in Forecast.v, `auto` in Recon.v | arbitrary there; modelled in Periodicity.v |
| numpy `fft`, scipy `find_peaks` | - | modelled by their definition, on real numbers (exact) |
| distribution fitting and densities (scipy, fitter), `find_x` | `distribution` | arbitrary; where stated, the density decreases along the range |
| training and the networks (keras) | `train`, `network` | arbitrary functions |
| Prophet, ARIMA engines | `train`, `pr_ask`, `ar_forecasts` | arbitrary; where stated, the engine learns the signal |
| the logic of a generic model | `logic` | arbitrary functions on its parameters, which can fail |

Not modelled at all: logging, deprecation warnings, representation strings (`__repr__`, `__str__`, summaries), HTML and images of the
plots (only the data and the range given to the plot are), reading of the environment, notebooks and shell helpers,
multi-threading (the library has none), generic `Series` of non-time items beyond what time series share, and performance. The table in
section 6 lists each function of the library.

