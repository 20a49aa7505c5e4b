# Formal model of openscm: design and trusted base

Subject: `/repo` (openclimatedata/openscm, pinned), read as text only, never run.
Prover: Coq 8.16.1. Layout: `rocq/theories`, logical root `Verif`.

Reading order for a reviewer: `properties.jsonl` (English), the `Prop_*.v` file of the
property (theorems only), the `Spec_*.v` file it names (vocabulary of the statements),
then the model files. Everything else is proof.

Naming: `Cnn_*` belongs to property Cnn. `*_refuted` says that the faithful model violates
the property as first written and gives the counterexample. `*_partial` is what remains
true, for all inputs, under a stated restriction. `*_case` shows beside a theorem that a
concrete, non-trivial case meets its hypotheses.

## 1. What the model is

* Python functions become total Gallina functions. A call that can raise returns `Ok x` or
  `Err e`. A call that mutates objects has type `state -> state * res A`; the state part is
  returned also when the call raises, because Python keeps the mutations made before the
  `raise`.
* Python objects live in heaps: regions, parameters, views (and, in `Memory.v`, arrays) are
  list cells addressed by index. Nothing is removed from these heaps; the code never deletes
  such objects.
* "Every history" means every list of interface calls with any arguments, including calls
  that raise, starting from a new `ParameterSet` (or the state named in the theorem).
* Numbers: floats are real numbers (`R`); rounding, overflow and infinities are not
  modelled. Exceptions: float years and `create_time_points` use binary64 rounding (Flocq);
  the tick arithmetic of DICE truncates and rounds as numpy does; missing values (NaN) are
  `None` in data frames and in DICE arrays; metadata numbers are rationals.
* Time points: `datetime64` arrays are a resolution and integer ticks; in data frames, seconds.
* Third-party code is modelled by its documented meaning (section 4).
* `EInvalid` is the error of the model for arguments the model does not describe (for
  example a reference period without data). No theorem claims that the Python code raises in
  these cases; theorems about successful calls are unaffected by it.

## 2. Files

Model (definitions only; each cites file and lines of `/repo` and says what is simplified):

| file | models |
|---|---|
| `Base.v` | results, errors, Python string and list operations |
| `Units.v` | `core/units.py` `UnitConverter`, without context, over an arbitrary registry |
| `Gases.v` | `core/units.py` `ScmUnitRegistry`: gas table, joint and prefixed forms, contexts, metric conversions, `UnitConverter` with context; the tables are transcribed |
| `TimeModel.v`, `Calendar.v`, `Civil.v`, `TimeInput.v` | `core/time.py` |
| `Core.v` | `core/parameters.py`, `regions.py`, `parameterset.py`, `views.py` |
| `Handles.v` | `_Timeseries` of `core/views.py` with slices, lists and masks as indices |
| `Memory.v`, `MemoryStore.v` | the same timeseries code with the numpy arrays in a heap: which objects share memory; with names, regions and units added |
| `Adapters.v`, `Dice.v` | `adapters/__init__.py`, `core/__init__.py`, `adapters/dice.py` |
| `Regex.v`, `Filters.v`, `ParameterType.v` | Python's `re` as far as used, `scmdataframe/filters.py`, `parameter_type.py` |
| `Offsets.v` | `scmdataframe/offsets.py` |
| `Frame.v`, `FrameAppend.v`, `FrameInterp.v`, `FrameWide.v`, `FrameFormat.v`, `FrameItems.v` | `scmdataframe/base.py` |
| `FrameStore.v` | `to_parameterset` and `convert_openscm_to_scmdataframe` |

Specifications: `Spec_*.v`. Property theorems: `Prop_*.v` (each theorem is followed by
`Print Assumptions`). Concrete cases: `Examples.v`, `DiceEx.v`, `DiceRunEx.v`,
`DiceLateEx.v`, `DiceWarmEx.v`, `DiceRestEx.v`, `MemoryEx.v`, `MemoryStoreEx.v`,
`PipelineEx.v`, `PipelineEx2.v`, `PipelineEx3.v`. Validation of the model against the
repository's own tests (inputs and expected results copied from /repo/tests): `Tests_*.v`.
All other files are proofs:

| files | about |
|---|---|
| `ListFacts`, `CoreEvo`, `CoreTree`, `CoreNames`, `CoreInv`, `CoreStep`, `CoreReq`, `CoreLeaves`, `CoreView`, `CoreErase`, `CoreAgain`, `CoreP1`–`CoreP8`, `CoreTotals` | the parameter store: evolution of cells, trees, invariants over histories |
| `MemoryProps`, `MemoryKept` | a relational logic (two runs that differ only in an array) and a ghost colouring of arrays |
| `MemoryRefine`, `MemoryStoreProps` | simulation of `Core.v` by `Memory.v`: arrays in memory behave as values |
| `TimeFacts`, `TimeLin`, `TimeConv`, `TimeConv2`, `TimeConv3`, `ConvShape`, `TimeProps`, `CalendarFacts`, `CivilFacts`, `TimeInputProps`, `TimeTotals`, `ExactProps` | time conversion and calendars |
| `GasesFacts`, `UnitsProps`, `GasTable`, `GasAny`, `MetricTable`, `MetricProps` | units |
| `AdapterProps`, `DiceInit`, `DiceSim`, `DiceBase`, `DiceMachine`, `DiceUsed`, `DiceProgress`, `DiceTime`, `DiceProps`, `DiceAgain`, `DiceRepeat` | adapters; DICE on two parameter sets is simulated by a machine on six arrays |
| `DiceUnits`, `DiceMono`, `DiceWarm`, `DiceRest` | what the equations of DICE imply for whole runs: units of users, monotonicity, causality, limits, linearity |
| `Versions`, `HandlesSlices`, `HandlesProps` | parts of `view.values`: what slices stand for, windows, assignments to several positions; the numbers of versions cannot be observed |
| `PipelineFrame`, `PipelineDice`, `Pipeline` | from a data frame through a parameter set into DICE |
| `PipelineCarbon` | the carbon of a data frame in the pools of DICE |
| `PipelineKept`, `PipelineRead`, `PipelineOut`, `PipelineBack` | from DICE through a parameter set to a data frame |
| `ShareSim`, `ShareReq`, `Share` | several users of one parameter set (C93) |
| `Apart`, `Silent` | several users of one parameter set: simulations of two histories that differ in the calls of others |
| `FiltersProps`, `FiltersTimes`, `GuessProps`, `OffsetsFacts`, `OffsetsProps` | filters, guesses, offsets |
| `FrameFilter`, `FrameSelect`, `FrameEdit`, `AppendProps`, `InterpProps`, `WideProps`, `RefProps`, `FormatProps`, `LongProps`, `AlignProps`, `ItemsProps`, `SplitProps`, `ConvertProps`, `RegridProps` | data frames |
| `NamesProps` | hierarchical names |
| `RelabelNum`, `RelabelSim`, `RelabelProps` | simulation of two histories whose quantities are given in different units |
| `StoreHolds`, `StoreCalls`, `StoreWalk`, `StoreBack`, `StorePut`, `StoreProps`, `StoreNever` | data frames stored in parameter sets and read back |

## 3. Which parts of the code are modelled

| code | modelled | not modelled |
|---|---|---|
| `core/parameters.py`, `regions.py`, `parameterset.py` | all functions and classes | `__repr__`-like output, doc strings, type annotations |
| `core/views.py` | all view classes, `values`/`value` getters and setters, the array handle with `__getitem__`, `__setitem__`, `__iadd__`-style arithmetic, lock/unlock, caches, versions | numpy ufuncs other than those written in the comments; slices of copies (in `Handles.v` they are copies again) |
| `core/time.py` | `_float_year_to_datetime`, `_parse_datetime`, `_format_datetime`, `TimePoints` and its calendar fields, `create_time_points`, `_calc_interval_averages`, `_calc_integral_preserving_linear_interpolation`, `TimeseriesConverter`, both enum parsers | texts other than numbers and `YYYY-MM-DD[ HH:MM:SS]` (in the data frame model the reading of texts is an oracle) |
| `core/units.py` | gas table, registry construction, contexts, metric CSV table, `UnitConverter` | pint's expression parser beyond products, quotients and integer powers of known names |
| `core/errors.py`, `errors.py` | as error constructors | messages |
| `core/__init__.py`, `adapters/__init__.py` | `OpenSCM`, `Adapter`, `load_adapter` | the import system is an oracle |
| `adapters/dice.py` | everything | – |
| `scmdataframe/filters.py`, `parameter_type.py`, `offsets.py` | everything reachable from `ScmDataFrame` | semi-month, week-of-month and sub-second rules and blanks or fractions in rules in `to_offset`; the `\` syntax of `re` beyond the classes used |
| `scmdataframe/base.py` | `_format_data`, `_format_long_data`, `_format_wide_data`, `_from_ts`, `__init__`, `_sort_meta_cols`, `__getitem__`, `__setitem__`, `__len__`, `time_points`, `values`, `meta`, `timeseries`, `filter`, `_apply_filters`, `_day_match`, `rename`, `set_meta`, `interpolate`, `resample`, `process_over`, `convert_unit`, `relative_to_ref_period_mean`, `append`, `df_append`, `_handle_potential_duplicates_in_append`, `to_parameterset` | `_read_file`, `_read_pandas`, `copy` (frames are values in the model), `head`, `tail`, `to_iamdataframe`, `to_csv`, plotting, `pivot_table` |
| `scmdataframe/__init__.py` | `convert_openscm_to_scmdataframe` | – |
| `scmdataframe/pyam_compat.py`, `scenarios/`, `_version.py` | – | all |

## 4. Trusted base

1. Coq's kernel (and, for the check of the compiled files, `coqchk`).
2. The axioms printed by `Print Assumptions`, listed per theorem in section 7. They all come
   from Coq's standard library: `ClassicalDedekindReals.sig_forall_dec`,
   `ClassicalDedekindReals.sig_not_dec` (construction of `R`),
   `FunctionalExtensionality.functional_extensionality_dep`, `Classical_Prop.classic`.
   No axiom, section-less variable or hypothesis is added; nothing is admitted.
3. The reading of the Python code recorded in the comments of the model files.
4. The meaning given to other libraries, each of which is a definition or a parameter of the
   model, never an axiom:
   * `scipy.interpolate.interp1d(kind="linear")`: the piecewise linear function through the
     points, extended as the extrapolation arguments say; `integrate.quad`: the exact Riemann
     integral (Coquelicot's `RInt`).
   * `pint`: an environment from unit names to dimension, scale and offset (`uenv`), arbitrary
     in the theorems about the store and data frames; `Gases.v` builds the actual one.
     Contexts: shortest path in the graph of dimensions, as pint does.
   * `numpy`: arrays are lists with a flag for integer type; assignment into integer arrays
     truncates; `datetime64` arithmetic truncates to ticks; `linspace` and float division of
     tick counts in binary64 where the comments say so; `np.vectorize` refuses empty arrays.
     A slice of an array has the memory of the array, selections by lists and masks are copies
     (`Handles.v`). In `Memory.v`: `np.asarray` of an array is the same object, arithmetic and `copy` give new
     arrays.
   * `pandas` (0.25): frames are lists of columns and rows; `groupby`, `pivot_table` and
     `drop_duplicates` leave out missing keys; `merge`, `melt`, `append`, `interpolate` as in
     the comments. `shared` (does an in-place write through `groupby` reach the metadata?) is
     an oracle: the theorems hold for both answers.
   * `dateutil.parser.parse`: what a text does not say is taken from the current date (C71).
   * Python: `re.match` with the syntax in `Regex.v`; `str.split/replace/join`; `datetime`
     arithmetic; `max` and `min` with NaN; dictionaries keep insertion order.
   * New arrays (`np.empty`) have arbitrary content, given by an oracle (C46).

## 5. Findings: where the code does not do what one would expect

Parameter store (`Prop_Core*.v`, `Prop_Memory.v`)
* Item assignment, `+=` on a handle and `unlock()` of an aggregated timeseries view bypass
  the read-only check and increment the version (C04).
* A timeseries write of the wrong length, or one whose conversion fails, marks an empty
  parameter as written (C09, C16).
* A grandchild can be added below an unviewed inner node of an aggregated parameter (C13).
* Writing through one view, then reading through another can raise `TypeError` (integer
  cache), and a rejected write stays visible in the writer's own cache (C14). Integer arrays
  truncate later item writes (C17).
* An aggregated timeseries view keeps its first successful read for ever (C15).
* A held `values` array is stale after another view's write; item assignment through it
  undoes that write (C18).
* Parts of `view.values` selected by a list or a mask are copies: they do not follow the view,
  assignments to them do not reach it, but write the cache of the view back and so undo what
  others have written (C89).
* `lock()` before the first read is an `AttributeError`, `unlock()` of a fresh view a
  `TypeError`; own writes can be lost (C19). `unlock()` always writes back, so a stale view
  destroys newer data (C20).
* Failing first requests leave a parameter that later requests cannot use (C21); the second
  `generic()` request on a parent succeeds (C22).
* The total of an aggregated parameter depends on the unit of the view when units have an
  offset: 10 degC + 20 degC is 30 degC (303 K) in one view and 576 K in another (C75).
* `np.asarray(view.values)` is the cache of the view; arrays assigned to generic parameters
  are kept by reference (C61).
* `scalar("")` and `info("")` treat the empty name differently; `info(region=())` is an
  `IndexError`; the default region fails when the root was renamed; aggregated scalar views do
  not check the type of the leaves; the guard on region aggregation is never triggered; the
  tuple `("a|b",)` and the string `"a|b"` are different names (C06, C12, C60).

Time (`Prop_Time.v`, `Prop_Offsets.v`)
* Making a converter raises `InsufficientDataError` whenever the first source time lies after
  the second target time, whatever the extrapolation type, and in the other direction also
  when the data suffice; CONSTANT extrapolation of averages extends the linearised end (C27).
* `datetime64` arrays of different resolution are compared by their raw integers (C30).
* Periods that are not whole seconds (C31); float years from 9999 (C32).
* `generate_range` does not reach the end for strides above 1, differing times of day and
  ticks that do not divide the span; non-positive strides are a `ValueError` (C58).
* Calendar fields of an empty array raise (`np.vectorize`) (C65).

Time points (`Prop_TimeInput.v`)
* In an array of texts that mixes years and dates, such as `["2010", "2011-06-01"]`, "2010" means the
  month and day on which the program runs, in 2010. The year 9999 is an error as a float and means the day
  of the run as a text (C71).

Units (`Prop_Units.v`)
* `"S": ["sulfur"]` leaves S, SO2, SOx and all their names and joint forms, 13 of 513,
  unusable; NOx is defined twice (C37).
* Empty cells of the metric table give NaN instead of an error; the CH4 and NOx contexts
  convert amounts only (C38).

Adapters (`Prop_Adapters.v`, `Prop_Dice.v`)
* `step()`/`reset()` before `reset_stepping()`/`run()` use an uninitialised model; an
  initialisation that raised is repeated (C39).
* DICE: `float * timedelta64` truncates to ticks; a step past the end raises `IndexError` after
  the clock has advanced; a failing run leaves the views locked; fewer than 3 time steps raise
  `InsufficientDataError`; a changed stop time makes the next run fail; `forc.unlock()` is called
  twice; `max(lower, NaN)` is `lower`; versions of parameters differ between `run` and stepping;
  with more than 2^53 ticks the last time point can lie after the stop time (C47); a stop time
  before the start time truncates toward zero.

Filters and guesses (`Prop_Filters.v`)
* `[ ? ^ { \` are not escaped; `.` does not match a newline and `$` ignores a final one (C55).
* `find_depth` removes every occurrence of the prefix (C56).
* Two ranges of names always raise, mixed styles are a `ValueError`, the caller's list is
  modified, `"Jan-Feb-Mar"` means January to February (C57).
* A numeric unit is an `AttributeError`; units of energy count as averages (C62).

Data frames (`Prop_Frame*.v`, `Prop_Append.v`, `Prop_Interp.v`, `Prop_Wide.v`,
`Prop_Format.v`, `Prop_Store.v`)
* Filtering an empty frame, or by a column that contains None, is a `TypeError` (C48);
  `level` and `variable` given in two calls mean something else than in one (C49).
* The metadata number -999 is taken for a missing value by `df_append`; successive appends
  depend on their order (C50).
* A failing in-place `rename` or `convert_unit` leaves partial changes; `convert_unit` skips
  series without values and ignores a time filter (C51, C52).
* `interpolate` of a frame with both "average" and "point" series always raises; a NaN
  parameter type loses all values; a guessed type may be lost (C53).
  Averages interpolated to finer times with the same ends cannot be interpolated back without extrapolation: the last
  period is taken to be as long as the one before it (C96).
* `to_parameterset`: regions deeper than one level are silently dropped on the way back, two
  units for one variable and region: the later overwrites the earlier, a variable below
  another can never be converted, fewer than 3 times neither, metadata columns named `df` or
  `index` are a `TypeError`, NaN spreads (C54).
* `relative_to_ref_period_mean` without `append_str` and with a single number is a `TypeError`
  (C59); statistics and long-format construction silently leave out missing metadata (C67, C69),
  duplicates are averaged (C69).
* `set_meta` with an index sorts the metadata but not the data (C66).
* A refused assignment to `df["time"]` changes `df["time"]` and `time_points` but not the data; metadata called
  "year" cannot be read back; a list set on a frame without timeseries gives metadata without data (C66, C70).
* A metadata column whose name can be read as a time breaks the rebuilding of a frame (C68).
* `ParameterSet.info` with an empty name returns `None` if the region is unknown but raises a `ValueError` if the region
  exists, so it notices regions that other users have created (C93).
* Averages that are never negative can be converted to negative ones, also within the data: the integral-preserving
  linear interpolation overshoots (C103_averages_refuted). Points stay within the range of the data unless they are
  extrapolated linearly.

## 6. Result per property

| id | status | title | note |
|---|---|---|---|
| C01 | proved | A parameter's type never changes | Full statement: invariant over every history, including failing calls. |
| C02 | proved | The first request fixes a parameter's own unit and time points | Full statement: origin of unit/time points located in the history, and preserved for ever. A typing request that itself raises can leave the time points unset; the theorem says so. |
| C03 | proved | Children are frozen once a parameter was viewed or written | Full statement. |
| C04 | partial | A parameter that has sub-parameters is read-only | Refuted as stated: values[i]=x, handle+=x and unlock() on an aggregated timeseries view bypass attempt_write (no ParameterReadonlyError, version incremented). Proved: the assignments raise and change nothing; histories without those three operations leave the parameter object identical. |
| C05 | proved | Names identify parameters | Full statement. |
| C06 | proved | info() is a pure query | Full statement; info() of an empty name / empty region raises, which the theorems exclude explicitly. |
| C07 | proved | Scalar last-write-wins across views and units | Full statement, all affine units. |
| C08 | proved | Generic last-write-wins | Full statement. |
| C09 | partial | Empty means: no write has succeeded | Refuted for timeseries: the values setter marks the parameter as written before it checks the length or converts. Proved: exact equivalence for scalar/generic parameters; for every type a successful write ends emptiness, and reads raise ParameterEmptyError exactly when the parameter reports empty. |
| C10 | proved | Version counts successful writes | Full statement: version equals the number of data-changing calls in the history. |
| C11 | proved | Writes are isolated | Full statement, all write and read operations including handles and locks. |
| C12 | proved | Aggregated scalar read is the sum of the leaves | Full statement for scalar leaves; the code does not check the leaf type, so the theorem assumes it. |
| C13 | partial | An aggregated view covers every current leaf | Refuted: a grandchild can be added below an inner node nobody has viewed after the ancestor's view was made. Proved when all nodes of the subtree have been viewed. |
| C14 | partial | Timeseries views are always up to date | Does not hold in general (integer-dtype cache; rejected write stays visible). Proved for every history in which views of the parameter are not locked, get no integer array and no InsufficientDataError write; corollary on equal time points in physical quantities. |
| C15 | partial | Aggregated timeseries views are always up to date | Does not hold: an aggregated view caches its first successful read for ever (C15_later_reads_repeat, all histories). Proved: first read is the sum over the leaves. |
| C16 | partial | Wrong-length timeseries writes are rejected without effect | Error is raised exactly for wrong lengths (leaf parameters). 'No effect' fails on never-written parameters (they become non-empty); proved when the parameter has been written, and that only the flag changes otherwise. |
| C17 | partial | Item assignment changes exactly one item | Fails for integer arrays (item truncated); proved for all histories without integer arrays on that view. |
| C18 | partial | A held values handle is coherent | Fails: a held array is stale after another view's write, and item assignment through it undoes that write. Proved without intervening writes, and for indexing in all states. |
| C19 | partial | Locking only batches writes | Fails when the view is locked before its first read or is stale. Proved when the view has been read before locking and nobody else acts. |
| C20 | partial | Unlocking or locking does not destroy other views' data | Fails: unlock always writes back, so a stale view destroys newer data. Proved: a locked view is quiet; lock/unlock after a read keeps data (writer, or same time points without NaN). |
| C21 | partial | Failing requests have no effect | Fails for first requests (unknown unit, generic of a parent, average with no time points). Proved no effect for known parameters, invalid enums and Read/Written/Type errors; data and views are kept in every case. |
| C22 | partial | Generic parameters cannot be aggregated | Fails: the second generic() request on a parent succeeds (C22_repeated_request_succeeds, all states). Proved: the first raises, and the view obtained is useless. |
| C23 | proved | Converting averages to the same periods is the identity | All strictly increasing time points, n>=3, every extrapolation type, both directions of the converter. |
| C24 | proved | Converting points to the same points is the identity | As C23, for points. |
| C25 | proved | Average conversion conserves the integral | Both directions of the converter; also shows the converter exists and the result has the right length. |
| C26 | proved | Point conversion is the piecewise-linear interpolant | The line formula, existence of neighbours, boundedness and exactness at the points and for linear data. |
| C27 | partial | Extrapolation types do what they say | Refuted twice: TimeseriesConverter.__init__ raises InsufficientDataError whenever source[0] > target[1], also for CONSTANT/LINEAR, and in the convert_to direction also when data is sufficient. Everything else is proved for converters that can be made, NONE including construction for convert_from. |
| C28 | proved | Refining and coming back is lossless | Points and averages, every extrapolation type, through convert_from and convert_to of one converter. |
| C29 | proved | Converted timeseries have the target's length | Conversion level here; reading through views: C29_read_length. |
| C30 | partial | Only the instants matter, not the datetime resolution | Refuted: the converter takes the raw integers of the datetime64 arrays, so resolutions s and D are confused. Proved: invariance when source and target have the same resolution. |
| C31 | partial | create_time_points is equidistant | Refuted for periods that are not whole seconds (result dtype is s). Proved for whole seconds within 2^52 s of 1970, with numpy's linspace modelled in binary64 (Flocq). |
| C32 | partial | Fractional years map into their year, monotonically | Refuted for 9999 <= y < 10000 (datetime(10000,1,1) raises ValueError although integer year 9999 works). Proved for all binary64 1 <= y < 9999. |
| C33 | proved | Time conversion is linear and commutes with unit conversion | Linearity, constants and hence commuting with affine unit conversion in both directions. |
| C34 | proved | UnitConverter realises the physical conversion | All affine unit relations (scale non-zero); the standard registry of units.py meets the condition. |
| C35 | proved | convert_to inverts convert_from | Inverse both ways, reverse converter agrees with convert_to, and chains compose. |
| C36 | proved | Incompatible units are rejected, compatible ones accepted | Exact characterisation of the two errors for converters, for views of parameters without children, and success of aggregated scalar views. |
| C37 | partial | Every advertised emission unit is convertible to its base gas | Refuted for sulfur: the entry "S": ["sulfur"] refers to an undefined unit, so S, SO2, SOx and all their aliases and joint forms are unusable (C37_defined_refuted, C37_sulfur_unusable). Proved for all other gases of the table with all names, joint forms and prefixes; C37_any_table is the statement for an arbitrary gas table. |
| C38 | proved | Metric contexts convert with the tabulated GWP | All metrics and species of the CSV table, all unit strings built from a mass or mass-per-time form around the species. Empty cells of the table give NaN instead of an error (C38_empty_cell_is_nan). |
| C39 | partial | The model is initialised at most once and before use | step() or reset() before reset_stepping()/run() uses the model uninitialised, and an initialisation that raised is repeated (both refuted on the DICE adapter). Proved for every model and every call sequence: a returning initialisation is the last one and precedes input and run-parameter initialisation; and precedes every use provided bare reset/run/step calls follow some other call that returned. |
| C40 | proved | Loading an adapter is stable | load_adapter over all sequences of loads and import outcomes. |
| C41 | proved | Adapter defaults never override the user | All user-written subsets and values, any user units; defaults of both tables. |
| C42 | proved | DICE state stays within its bounds | Bounds as read by the user after the steps / the run. at_least: a NaN bound or value counts as in Python's max(lower, x); the tocean upper bound needs ordered bounds (the lower bound is applied last). |
| C43 | proved | DICE conserves carbon | Hypothesis: the pools after each step are above their lower bounds (then the bounds did nothing). |
| C44 | proved | DICE equilibrium is stationary | For all parameters and step counts. |
| C45 | proved | run() equals stepping | Both directions and the exceptions: run() returns iff reset and all steps return, with the same results; if run() raises, reset or a step raises the same exception. |
| C46 | proved | Runs are reproducible | Runs on the same adapter, any number of times; after a stepped run left at any point; and independence of the content of new arrays and of left-over attributes (same two parameter sets and views). Versions of parameters may differ; a stop time changed between runs is outside the hypotheses (the re-request of the series then fails, DESIGN.md). |
| C47 | partial | current_time follows the steps | The current time is proved in general; the clause about the last time point for times less than 2^53 ticks apart. Beyond that numpy divides tick counts in floating point and the last step can be after the stop time (C47_last_point_refuted: nanoseconds). |
| C48 | partial | filter keep=True and keep=False partition the data | Proved for every frame whose data and metadata fit together whenever filtering succeeds: keep=True and keep=False split the points by one test of metadata and time; C48_selection says which points pass, for plain patterns and calendar fields. Refuted in general: filtering a frame without data or by a column containing None is a TypeError. |
| C49 | partial | Filters compose | Proved: filters compose (no level separated from its variable, first result not empty), are idempotent, and the order of keywords is irrelevant. Refuted: after an empty result the second filter raises; level and variable given separately mean something else. |
| C50 | partial | append keeps all data | df_append/append: metadata columns and times are the unions, and every combination of metadata and time carries the mean of all points given for it (one point: itself); acceptance, duplicate_msg and independence of the order of the frames. Refuted: the number -999 as a metadata value is taken for a missing one (data mislabelled and mixed); successive appends of three frames depend on their order (mean of means). Row order of the result and frames without data are not modelled. |
| C51 | partial | rename changes only the named metadata and never merges timeseries | Proved: exactly the listed values of the listed columns change; accepted exactly if all columns exist and the new metadata are unique, otherwise ValueError. Refuted: with inplace=True a failing rename leaves a changed frame with duplicate timeseries. |
| C52 | partial | convert_unit converts exactly the selected timeseries | Proved for all filters, units and converters: exactly the selected timeseries (those with a value that passes) are converted and relabelled; the quantity is unchanged without context. Refuted: a selected timeseries without values keeps its unit; a failing in-place conversion leaves earlier units converted. |
| C53 | partial | interpolate works for frames mixing point and average timeseries | Frames whose timeseries all have one type (given or guessed) are converted as C23-C33 say, each by its own type; other metadata are kept. Refuted: frames with both types always raise since the extended target times leak into the second group; timeseries with a NaN type lose all values. The oracle `shared` says whether pandas lets the in-place guess reach the metadata; C53_given: it is irrelevant for frames whose types are given, so C53, C96, C98 and C99 hold for both values there. |
| C54 | partial | Data frame -> ParameterSet -> data frame is lossless | Proved for frames whose regions are "World" or directly below it (C54_lossless_partial): converting to an empty parameter set and back gives the same timeseries, values, given types and other metadata.  C54_kept_partial: for deeper regions exactly the near ones come back; C54_depth_refuted shows the silent loss.  C54_nested_refuted and C54_short_refuted: a variable below another in the same region, or fewer than three times, always raise.  Numbers are real; values that are NaN are outside `storable`. |
| C55 | partial | Filter patterns are literal except for * | Exact description of what plain patterns match (C55_plain_patterns); the literal property holds for one-line values and patterns without [ ? ^ { \; refuted otherwise (unescaped characters, newline, trailing newline). |
| C56 | partial | Level filters count separators after the pattern | Proved for patterns 'text*' when the text does not occur again in the value; refuted when it does (str.replace removes all occurrences). |
| C57 | partial | Time filters accept any list of ranges | Number lists proved; names with at most one range proved to be the exact union; two or more ranges always raise (refuted), mixed styles raise, the caller's list is modified. |
| C58 | partial | generate_range covers the requested period | False in general: strides greater than 1, differing times of day and ticks not dividing the span stop before the end (C58_strides/clock/ticks_refuted). C58_range says exactly which instants are generated; C58_cover_partial gives the property for stride 1 and equal time of day. Semi-month, week-of-month and sub-second rules are not modelled (combined rules: C101). |
| C59 | partial | Reference-period normalisation centres the data | Proved for all frames for which a result is returned, with sufficient conditions for one. Missing metadata and an empty reference period are not modelled (EInvalid). Refuted: without append_str a reference period given by a single number raises TypeError (v[0]). |
| C60 | proved | Hierarchical strings and tuples are interchangeable | Splitting and joining at \| are inverse; each sequence has one string and each string one sequence of \|-free components; calls (and whole histories of calls) differing only in writing names as strings or sequences of non-empty \|-free components behave identically in every state; different sequences denote different parameters. Examples show why components with \| and empty components are excluded. |
| C61 | partial | Caller-owned arrays are never aliased | Proved for every history of calls and direct array writes over timeseries views (arrays passed as time points or values, arrays computed from view.values), with a heap model. Full statement is false for np.asarray(view.values), which is the cache of the view itself (C61_asarray_refuted, C61_asarray_written_refuted), and for arrays assigned to generic parameters (C61_generic_refuted); even then no timeseries parameter changes at once (C61_parameters). Not modelled: slices of view.values. |
| C62 | partial | Parameter type guessing is total and stable | Exact characterisation by name and by unit; refuted totality: a numeric unit raises AttributeError. |
| C63 | proved | DICE runs to the end | Progress of the DICE model: under the listed conditions reset, every step up to the last time point and run() return normally. Exact real arithmetic (Coq's R); floating-point overflow is not modelled. |
| C64 | proved | DICE computes the equations of DICE-2013R | The exogenous forcing follows the code: float * timedelta64 is truncated to whole ticks (other_forcing). |
| C65 | proved | Calendar fields of time points are those of the Gregorian calendar | Fields computed as in CPython; years outside 1..9999 not represented by datetime objects are not modelled. |
| C66 | partial | Data and metadata of a frame stay aligned | Proved for every sequence of construction, filtering, renaming, set_meta without index, setting times, unit conversion, appending, interpolation and resampling (also when an in-place operation fails). set_meta with an index sorts the metadata rows by the key: every timeseries keeps its own metadata by label (C66_index_partial) but the order no longer matches the data, and timeseries() then gives values with the metadata of another series (C66_index_refuted). A list set on a frame without timeseries gives metadata without data (C66_empty_refuted). |
| C67 | partial | process_over gives the statistic of each group | Exact characterisation. Refuted: timeseries with missing metadata in a remaining column are silently left out (pandas groupby). |
| C68 | partial | Frames can be rebuilt from their timeseries | Proved for frames whose other metadata names are not understood as times; a metadata column with such a name (for example "1" or "may") makes rebuilding fail (C68_names_refuted). |
| C69 | partial | Frames built from long tables contain the points of the table | Proved for rows with complete metadata; rows with a missing metadata value are silently left out by pivot_table (C69_missing_refuted). |
| C70 | partial | Item access reads back what was assigned | Proved for every sequence of assignments on frames with timeseries. Refuted twice: refused times are read back by df['time'] and time_points although the data keep theirs (C70_time_refuted); metadata called 'year' is accepted but df['year'] still gives calendar years (C70_year_refuted). On frames without timeseries an assigned list creates metadata without data (C66_empty_refuted). |
| C71 | partial | Time points mean the same however they are written | Arrays of one kind are proved. False for arrays of texts that mix years and dates: a year then means the day of the run in that year (C71_mixed is exact; C71_texts_refuted). Year 9999 as float is an error, as text the day of the run (C71_last_year_refuted). |
| C72 | proved | Arrays behave as values | Refinement: MemoryStore.v (arrays in memory) against Core.v (arrays as values, Spec_MemoryStore.v). np.asarray(view.values), which C61 shows to be shared, and generic parameters are not calls of these programs. |
| C73 | proved | Averages keep their mean from view to view | Proved for the histories of C14_up_to_date_partial (no locked views, integer arrays or refused writes on the parameter). Stronger than C25 on time conversion: any pair of common time points, no equal ends needed. |
| C74 | proved | All views of points show the same curve | Proved for the same histories. |
| C75 | proved | Units are only labels | Simulation relation between the two stores, preserved by every call. Integer arrays (which truncate) and time points that do not increase are excluded. C75_offset_matters shows that the exclusion of units with offset is needed. |
| C76 | proved | DICE does not depend on the units of its users | Proved by a simulation of the whole adapter: both adapters see their own units, in which the values are equal; the stores are related as in C75. Junk returned by np.empty is taken to be the same for both. |
| C77 | proved | Higher emissions never mean less carbon or lower temperatures | Real arithmetic. The conditions of the physical range are hypotheses (record physical); the default parameters meet them (C77_instance). |
| C78 | proved | DICE is causal | No condition on the parameters. |
| C79 | proved | DICE warms by its climate sensitivity | Real arithmetic. The rate is given by the parameters only, the same for all runs; the default parameters meet the hypotheses. |
| C80 | proved | DICE forgets its initial temperatures | Real arithmetic; emissions and all other parameters arbitrary. |
| C81 | proved | Users of unrelated parameters do not notice each other | Proved for calls through views requested before; the requests themselves are not part of the schedules. |
| C82 | proved | Looking is not noticed | Model: Core.v. The observer must hold views already (requesting a view marks the parameter as read, which freezes its children, and is therefore noticed; see C03) and nobody else may use the same view objects (the caches belong to the view). Others may do anything else, also request views. |
| C83 | proved | Without emissions DICE spreads carbon as in equilibrium | Model: Dice.v over Core.v, numbers are reals. The state at the end of emissions is any state whose pools are between lo and hi times their equilibrium, where the lower bounds of the pools are at most lo times the equilibrium. |
| C84 | proved | Eventual warming in DICE depends on all carbon emitted, not on its history | Model: Dice.v over Core.v, numbers are reals (log2 is the real logarithm). The bounds of the temperatures must admit the limit; other forcing must be constant after the end of emissions (it is after forcoth_saturation_time). |
| C85 | proved | Carbon in DICE responds linearly to emissions | Model: Dice.v over Core.v, numbers are reals. The bounds must not be reached in any of the three runs (a bound that is reached adds carbon, which is not linear). |
| C86 | proved | What slices, lists and masks select | CPython's rules for slices and numpy's for lists and masks, specified independently by membership and order. |
| C87 | proved | Slices of view.values are windows | For every handle obtained by slices, after every history of calls on the set and on handles. Items with an index outside raise IndexError. |
| C88 | proved | Assigning to several positions is assigning to one after the other | Equivalence under all later sequences of calls; uses that the numbers of versions cannot be observed (Versions.v). Empty selections are excluded: they write the cache once, one by one nothing is written. Arrays with NaN assigned to integer arrays are not modelled. |
| C89 | partial | Parts of view.values stay connected to the view | Refuted for lists and masks: the part is a copy that does not follow the view; assigning to it does not reach the view but writes the view's cache back, undoing newer writes of others. For slices the statement is C87. |
| C90 | proved | DICE works with the emissions of the data frame | Times are whole seconds below 2^52 in absolute value. The parameter set is empty before the frame is stored; between storing and the reset the user may do anything but write to Emissions\|CO2 of World (making views, locking and reading are allowed). |
| C91 | proved | The results of DICE can be read as a data frame | The outputs must be empty before the reset (a second reset requests the same series again; with another time grid the views would convert). Values that are NaN are excluded; C91_frame_to_frame derives that all values are numbers from numbers as inputs. Times are whole seconds held exactly by floating point numbers. Arithmetic on reals. |
| C92 | proved | The carbon of a data frame of emissions is in the pools of DICE | Two theorems: for the views of the adapter, and from data frame to data frame. The carbon of one period is the value of carbon_emitted (Spec_Dice.v), which for original_rounding uses the factor 3.666 of the code. |
| C93 | proved | Users of different parameters can share a parameter set, including their requests | Proved for histories from the creation of the parameter set. What a user sees of views are their numbers in the order in which the user obtained them, not the cells of the model. Users may share parents of parameters and regions but not a parameter or its ancestors; info without a name is excluded, because it tells whether somebody has created the region (example C93_prying). Example C93_crossing shows that the condition on names is needed. |
| C94 | proved | Splitting a data frame with a filter and appending the parts gives the frame back | C94_rejoined: the parts can be appended whatever duplicate_msg is, with the columns and values of the frame; C94_whole: if one part is empty the other one has all points. |
| C95 | proved | Unit conversions of data frames never change quantities and can be undone | C95_sequences: any calls, including failing ones; C95_no_unit; C95_back: there and back. Contexts (metric conversions) are not part of it (C38 says what they do). |
| C96 | partial | Interpolating a data frame to its own times, or to more times and back, loses nothing | C96_own_times, C96_more_times. C96_last_period_refuted: for averages it does not suffice that the target times have the same first and last time, because the last period gets as long as the one before it. As in C53, assuming that pandas lets guessed types reach the metadata; not needed if all types are given (C53_given). |
| C97 | proved | Conversion of time series computes the exact values | An evaluator on rational numbers (Spec_Exact.v: trapezoids, no integrals, no real numbers, no definition shared with the model) gives exactly the values of every successful conversion; it also makes the model executable, and Tests_Time.v uses it to check the model against the tables of the repository tests. |
| C98 | proved | Resampling a data frame with a rule its times fit keeps all its data | The types are taken to be guessed into the metadata (shared = true), as in C53 and C96; not needed if all types are given (C53_given_resample). |
| C99 | proved | Work flows on data frames do not depend on the unit of measure of the values | Numbers are reals; timeseries with missing values cannot be interpolated in the model (an error). C99_order_needed shows why medians and quantiles need a positive scale. |
| C100 | proved | Statistics over metadata respect the order of values | Numbers are reals. Rows with missing metadata are left out by process_over (C67_missing_refuted), so the values of such keys are not considered in C100_extremes. |
| C101 | proved | Rules that combine units of time mean the sum of their parts | C101_sum characterises in both directions which rules are ticks and how long they are; C101_order and C101_range follow. Rules with parts of seconds, fractions, blanks and signs within are not modelled. |
| C102 | proved | The origin of time does not matter | Equalities of results without hypotheses (the integral of quad is shifted without assuming integrability). C102_calendar: the clause on calendar rules is sharp. Numbers are reals: numpy converts the times to float64 when interpolating, so very large shifts lose precision in the code. |
| C103 | partial | Conversion of timeseries respects the order of values | Proved for points (C103_order, C103_within, and C103_frame for the timeseries of data frames) whenever the extrapolation is not linear or the target times are inside the source times. Refuted: linear extrapolation leaves the range, and averages overshoot even inside the data, so that emissions that are never negative can become negative. |
| C104 | proved | Rules of the calendar mean what their names say | C104_rules characterises in both directions which texts are rules of the calendar and what they mean; C104_all joins it with C101 to all rules that are understood. The names are those of the modelled syntax; business days and other offsets of pandas are not modelled. |
| C105 | proved | Resampling again with the same rule changes nothing | C105_range holds for all rules and strides; C105_frame uses it with C96, assuming as in C53 that pandas lets guessed types reach the metadata. C105_given needs no such assumption if the types are given. |
| C106 | proved | Regular expressions in filters match by their meaning | C106_match and C106_ends relate the search to a declarative semantics of the syntax trees, C106_filter carries this to pattern_match with regexp=True. Python's re is an external library: that it gives these meanings to expressions is part of the trusted base, and the parser re_compile is tested by examples and proved only for plain patterns (C55). |

## 7. Assumptions per theorem

As printed by `Print Assumptions` in the build. F = `ClassicalDedekindReals.sig_forall_dec`,
N = `ClassicalDedekindReals.sig_not_dec`, E = `FunctionalExtensionality.functional_extensionality_dep`,
C = `Classical_Prop.classic`. All four belong to Coq's standard library.

* **closed under the global context** (78): `C101_order`, `C101_range`, `C101_sum`, `C104_all`, `C104_rules`, `C105_range`, `C106_ends`, `C106_filter`, `C106_match`, `C26_neighbours`, `C27_extrapolation_refuted`, `C27_none_refuted`, `C29_declared_length`, `C32_integer_years`, `C37_any_table`, `C39_before_use_partial`, `C39_once_partial`, `C40_failed`, `C40_stable`, `C40_unknown`, `C48_empty_refuted`, `C48_partition`, `C48_selection`, `C49_compose`, `C49_idempotent`, `C49_order`, `C51_accepts`, `C51_renames`, `C52_accepts`, `C52_converts`, `C55_literal_partial`, `C55_literal_refuted`, `C55_plain_patterns`, `C56_levels_partial`, `C56_repeated_text_refuted`, `C57_list_kept_partial`, `C57_months_partial`, `C57_numbers`, `C57_other_refuted`, `C57_two_ranges_refuted`, `C57_weekdays_partial`, `C58_clock_refuted`, `C58_cover_partial`, `C58_not_increasing`, `C58_range`, `C58_refuted`, `C58_strides_refuted`, `C58_ticks`, `C58_ticks_refuted`, `C60_join_undoes_split`, `C60_one_sequence`, `C60_one_string`, `C60_split_undoes_join`, `C62_by_name`, `C62_by_unit`, `C62_total_refuted`, `C65_arrays`, `C65_calendar_fields`, `C65_empty_refused`, `C66_arrays`, `C66_arrays_accepts`, `C66_index_partial`, `C66_set_meta`, `C70_accepted_partial`, `C70_column`, `C70_data_kept`, `C70_data_times`, `C70_others_kept`, `C70_read_back_partial`, `C70_table`, `C70_time`, `C70_time_kept`, `C70_unknown`, `C70_years`, `C86_refused`, `C86_selected`, `C94_whole`, `C99_filter`
* **F** (4): `C48_none_refuted`, `C49_empty_refuted`, `C49_level_refuted`, `C51_inplace_refuted`
* **E F** (49): `C100_extremes`, `C100_quantiles`, `C100_raised`, `C100_within`, `C26_between`, `C34_converter_is_physical`, `C34_standard_registry`, `C35_chain`, `C35_inverse`, `C35_reverse`, `C36_converter`, `C37_conversion_partial`, `C37_defined_refuted`, `C37_names_partial`, `C37_sulfur_unusable`, `C38_CO2_to_species`, `C38_between_species`, `C38_empty_cell_is_nan`, `C38_rejected_without_context`, `C38_same_form`, `C38_species_to_CO2`, `C38_unlisted_gas_rejected`, `C50_accepts`, `C50_append`, `C50_duplicates`, `C50_fill_refuted`, `C50_order`, `C50_single`, `C50_successive_refuted`, `C52_inplace_refuted`, `C52_missing_refuted`, `C52_physical`, `C59_accepts`, `C59_centres`, `C59_default_refuted`, `C67_accepts`, `C67_determined`, `C67_half`, `C67_missing_refuted`, `C67_statistics`, `C68_names_refuted`, `C68_rebuild`, `C69_accepts`, `C69_missing_refuted`, `C69_points`, `C94_rejoined`, `C95_back`, `C95_no_unit`, `C95_sequences`
* **E F N** (109): `C01_request_gives_type`, `C01_type_never_changes`, `C02_first_request_fixes_unit_and_time`, `C02_unit_and_time_kept`, `C03_children_frozen`, `C04_assignment_raises_partial`, `C04_readonly_refuted`, `C04_unchanged_partial`, `C05_same_parameter_iff_same_names`, `C05_view_reports_requested_names`, `C06_found_describes`, `C06_found_was_requested`, `C06_info_answers`, `C06_info_pure`, `C06_requested_is_found`, `C07_scalar_last_write_wins`, `C08_generic_last_write_wins`, `C09_empty_iff_no_write_partial`, `C09_empty_refuted`, `C09_reads_raise_iff_empty`, `C09_write_ends_empty`, `C102_calendar`, `C102_conversion`, `C102_interpolate`, `C102_resample`, `C103_frame`, `C103_order`, `C103_within`, `C10_version_counts_writes`, `C11_writes_are_isolated`, `C12_aggregated_scalar_is_sum_of_leaves`, `C12_leaf_holds_what_its_views_read`, `C13_covers_current_leaves_refuted`, `C13_leaves_fixed_partial`, `C14_integer_cache_refuted`, `C14_rejected_write_refuted`, `C14_up_to_date_partial`, `C15_always_fresh_refuted`, `C15_first_read_partial`, `C15_later_reads_repeat`, `C16_no_effect_partial`, `C16_no_effect_refuted`, `C16_only_flag_partial`, `C16_raised_for_wrong_length`, `C17_integer_item_refuted`, `C17_item_is_whole_write_partial`, `C18_coherent_without_writes_partial`, `C18_indexing_partial`, `C18_undoes_write_refuted`, `C19_lock_first_refuted`, `C19_locking_batches_partial`, `C19_own_write_lost_refuted`, `C19_unlock_fresh_refuted`, `C20_lock_unlock_refuted`, `C20_locked_is_quiet_partial`, `C21_data_kept_partial`, `C21_generic_of_parent_refuted`, `C21_no_effect_partial`, `C21_no_periods_refuted`, `C21_unknown_unit_refuted`, `C22_always_raises_refuted`, `C22_raises_partial`, `C22_repeated_request_succeeds`, `C22_view_is_useless_partial`, `C27_linear_points_left`, `C27_linear_points_right`, `C29_converted_length`, `C29_read_length`, `C33_constant`, `C36_aggregate`, `C36_view`, `C41_generic_default`, `C41_no_default`, `C41_numeric_default`, `C41_user`, `C53_accepts_partial`, `C53_converts_partial`, `C53_given`, `C53_given_converts`, `C53_given_resample`, `C53_missing_refuted`, `C53_mixed_refuted`, `C53_resample_partial`, `C54_nested_refuted`, `C54_short_refuted`, `C60_different_parameters`, `C60_interchangeable`, `C61_arrays`, `C61_generic_refuted`, `C61_parameters`, `C66_aligned`, `C66_empty_refuted`, `C66_index_refuted`, `C70_time_refuted`, `C70_year_refuted`, `C72_values`, `C75_offset_matters`, `C81_answers`, `C82_unnoticed`, `C87_iadd`, `C87_item`, `C87_list`, `C87_no_item`, `C87_no_set`, `C87_set`, `C88_one_by_one`, `C88_refused`, `C89_lost_refuted`, `C99_order_needed`
* **C E F N** (100): `C103_averages_refuted`, `C103_extrapolation_refuted`, `C105_frame`, `C105_given`, `C14_same_time_points_partial`, `C18_stale_array_refuted`, `C20_lock_unlock_partial`, `C23_average_identity`, `C24_point_identity`, `C25_integral_conserved`, `C26_interpolant`, `C26_linear_data`, `C27_constant_averages`, `C27_constant_points`, `C27_inside_averages`, `C27_inside_points`, `C27_linear_averages_left`, `C27_linear_averages_right`, `C27_none_from`, `C27_none_partial`, `C27_others_succeed_partial`, `C28_refine_lossless`, `C30_common_resolution_partial`, `C30_resolution_refuted`, `C31_equidistant_partial`, `C31_equidistant_refuted`, `C32_in_year_partial`, `C32_last_year_refuted`, `C32_monotone_partial`, `C33_linear`, `C33_units_commute`, `C39_before_use_refuted`, `C39_once_refuted`, `C42_bounds`, `C42_bounds_of_run`, `C43_carbon_conserved`, `C44_equilibrium`, `C45_exceptions`, `C45_run_gives_stepping`, `C45_stepping_gives_run`, `C46_run_after_steps`, `C46_run_again`, `C46_run_many_times`, `C46_uninitialised`, `C47_current_time_partial`, `C47_last_point_refuted`, `C53_succeeds_partial`, `C54_depth_refuted`, `C54_kept_partial`, `C54_lossless_partial`, `C61_asarray_refuted`, `C61_asarray_written_refuted`, `C63_progress`, `C64_equations`, `C64_initial_values`, `C71_again`, `C71_fractions`, `C71_instants`, `C71_last_year_refuted`, `C71_mixed`, `C71_texts_refuted`, `C71_years_partial`, `C73_conversion`, `C73_mean_kept`, `C73_readable`, `C74_same_curve`, `C75_units_are_labels`, `C76_dice_in_other_units`, `C77_more_emissions`, `C78_causal`, `C79_doubling`, `C79_sensitivity`, `C80_forgets`, `C81_state`, `C83_spreads`, `C84_commitment`, `C85_linear`, `C89_stale_refuted`, `C90_emissions`, `C90_readable`, `C90_same_periods`, `C91_again`, `C91_frame_to_frame`, `C91_results`, `C91_run`, `C92_carbon`, `C92_frames`, `C93_alone`, `C93_orders`, `C96_last_period_refuted`, `C96_more_times`, `C96_own_times`, `C97_averages`, `C97_points`, `C98_averages`, `C98_conversion`, `C98_kept`, `C98_points`, `C99_fails`, `C99_rescaled`

## 8. Wrong programs

`seeded/LOG.jsonl` lists the edits of the model made to test the theorems (one JSON object per
line): the definition, the edit, the claim it breaks, the theorems that no longer prove, and
what was tightened where a theorem had survived.
