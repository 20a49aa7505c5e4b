{"id": "C01", "title": "A parameter's type never changes", "statement": "Once a parameter has been given a type (scalar, average timeseries, point timeseries, generic) by a request, its reported parameter_type is that type for ever, and every request for a view of another type raises ParameterTypeError.", "quantifier": "every finite history of ParameterSet calls and view operations (requests for scalar/timeseries/generic views and info, reads, whole writes, item writes, lock/unlock, including calls that raise)", "why_tests_cant": "The claim is about every later state of every history, including states reached through calls that raised; tests look at a handful of call sequences.", "anchors": ["openscm/core/parameters.py:_Parameter.attempt_read", "openscm/core/parameterset.py:ParameterSet.scalar/timeseries/generic", "openscm/core/parameters.py:ParameterInfo.parameter_type"]}
{"id": "C02", "title": "The first request fixes a parameter's own unit and time points", "statement": "The unit reported by info() and the time points the parameter stores its data on are those of the first request that typed it; no later request, read or write changes them, whatever units or time points later views use.", "quantifier": "every finite history of ParameterSet calls and view operations (requests for scalar/timeseries/generic views and info, reads, whole writes, item writes, lock/unlock, including calls that raise)", "why_tests_cant": "Quantifies over all later operations of all views in all units.", "anchors": ["openscm/core/parameters.py:_Parameter.attempt_read", "openscm/core/parameters.py:ParameterInfo.unit"]}
{"id": "C03", "title": "Children are frozen once a parameter was viewed or written", "statement": "After a view of a parameter has been obtained (or the parameter written), every request that names a not yet existing direct sub-parameter raises ParameterReadError or ParameterWrittenError and its set of direct children never changes again.", "quantifier": "every finite history of ParameterSet calls and view operations (requests for scalar/timeseries/generic views and info, reads, whole writes, item writes, lock/unlock, including calls that raise)", "why_tests_cant": "Needs an invariant over all histories; a test only tries one insertion at one moment.", "anchors": ["openscm/core/parameters.py:_Parameter.get_or_create_child_parameter", "openscm/core/parameterset.py:ParameterSet._get_or_create_parameter", "docs/usage.rst"]}
{"id": "C04", "title": "A parameter that has sub-parameters is read-only", "statement": "No operation on a view of a parameter with sub-parameters changes that parameter: assigning value/values raises ParameterReadonlyError and so must item assignment values[i] = x; its version stays constant.", "quantifier": "every finite history of ParameterSet calls and view operations (requests for scalar/timeseries/generic views and info, reads, whole writes, item writes, lock/unlock, including calls that raise), every view of the parameter", "why_tests_cant": "There are several write paths (value, values, values[i], unlock) and all interleavings matter.", "anchors": ["openscm/core/parameters.py:_Parameter.attempt_write", "openscm/core/views.py:_Timeseries.__setitem__", "openscm/core/views.py:TimeseriesView.unlock"]}
{"id": "C05", "title": "Names identify parameters", "statement": "Two requests denote the same parameter exactly when region name and parameter name are component-wise equal, where a string is read as its '|'-separated components; view.name and view.region report exactly the components requested.", "quantifier": "every finite history of ParameterSet calls and view operations (requests for scalar/timeseries/generic views and info, reads, whole writes, item writes, lock/unlock, including calls that raise), all region and parameter names given as strings or sequences", "why_tests_cant": "Ranges over all names and all intermediate tree shapes.", "anchors": ["openscm/core/parameterset.py:ParameterSet._get_or_create_region", "openscm/core/parameterset.py:ParameterSet._get_or_create_parameter", "openscm/core/parameters.py:_Parameter.full_name", "openscm/core/regions.py:_Region.full_name"]}
{"id": "C06", "title": "info() is a pure query", "statement": "info() never changes anything observable; it returns a result exactly when the named parameter exists (was created by an earlier request naming it or one of its descendants), and the result describes that parameter.", "quantifier": "every finite history of ParameterSet calls and view operations (requests for scalar/timeseries/generic views and info, reads, whole writes, item writes, lock/unlock, including calls that raise), all names", "why_tests_cant": "Existence has to be related to the whole preceding history.", "anchors": ["openscm/core/parameterset.py:ParameterSet.info", "openscm/core/regions.py:_Region.get_parameter", "openscm/core/regions.py:_Region.get_subregion", "openscm/core/parameters.py:_Parameter.get_subparameter"]}
{"id": "C07", "title": "Scalar last-write-wins across views and units", "statement": "After x has been written through a scalar view in unit u, until the next write to that parameter every scalar view of it in any convertible unit w reads the quantity x u expressed in w; the writing view reads exactly x.", "quantifier": "every finite history of ParameterSet calls and view operations (requests for scalar/timeseries/generic views and info, reads, whole writes, item writes, lock/unlock, including calls that raise), all units with an affine relation, all reals x", "why_tests_cant": "Infinitely many unit pairs, views, and interleavings.", "anchors": ["openscm/core/views.py:ScalarView.value", "openscm/core/units.py:UnitConverter"]}
{"id": "C08", "title": "Generic last-write-wins", "statement": "After v has been written through a generic view, every generic view of that parameter reads v until the next write to that parameter.", "quantifier": "every finite history of ParameterSet calls and view operations (requests for scalar/timeseries/generic views and info, reads, whole writes, item writes, lock/unlock, including calls that raise)", "why_tests_cant": "All histories.", "anchors": ["openscm/core/views.py:GenericView.value"]}
{"id": "C09", "title": "Empty means: no write has succeeded", "statement": "A parameter without sub-parameters reports empty, and reads of it raise ParameterEmptyError, exactly as long as no write to it has succeeded.", "quantifier": "every finite history of ParameterSet calls and view operations (requests for scalar/timeseries/generic views and info, reads, whole writes, item writes, lock/unlock, including calls that raise)", "why_tests_cant": "Depends on every failed and successful call before.", "anchors": ["openscm/core/parameters.py:ParameterInfo.empty", "openscm/core/parameters.py:_Parameter.attempt_write", "openscm/core/views.py:TimeseriesView.values"]}
{"id": "C10", "title": "Version counts successful writes", "statement": "A parameter's version equals the number of data-changing operations performed on it so far; it never decreases and no read, request, or operation on another parameter changes it.", "quantifier": "every finite history of ParameterSet calls and view operations (requests for scalar/timeseries/generic views and info, reads, whole writes, item writes, lock/unlock, including calls that raise)", "why_tests_cant": "Requires counting over all histories.", "anchors": ["openscm/core/parameters.py:_Parameter.version", "openscm/core/views.py:ScalarView.value", "openscm/core/views.py:TimeseriesView._write"]}
{"id": "C11", "title": "Writes are isolated", "statement": "A write through a view of parameter p in region r never changes the value read from any view of a parameter that is neither p nor an ancestor of p in the same region; in particular other regions are unaffected.", "quantifier": "every finite history of ParameterSet calls and view operations (requests for scalar/timeseries/generic views and info, reads, whole writes, item writes, lock/unlock, including calls that raise), all pairs of parameters", "why_tests_cant": "All pairs of views and all tree shapes.", "anchors": ["openscm/core/views.py:ScalarView.value", "openscm/core/views.py:TimeseriesView.values", "openscm/core/regions.py:_Region"]}
{"id": "C12", "title": "Aggregated scalar read is the sum of the leaves", "statement": "Reading a scalar view of a parameter with sub-parameters returns the sum, in the view's unit, of the current values of the leaf parameters it had when the view was obtained, and raises ParameterEmptyError if one of them has not been written.", "quantifier": "every finite history of ParameterSet calls and view operations (requests for scalar/timeseries/generic views and info, reads, whole writes, item writes, lock/unlock, including calls that raise), all trees", "why_tests_cant": "All tree shapes and write orders.", "anchors": ["openscm/core/views.py:ScalarView.__init__", "openscm/core/views.py:ScalarView.value"]}
{"id": "C13", "title": "An aggregated view covers every current leaf", "statement": "The leaves summed by an aggregated view are all leaves the parameter has at the time of the read (no sub-parameter can appear that an existing aggregated view ignores).", "quantifier": "every finite history of ParameterSet calls and view operations (requests for scalar/timeseries/generic views and info, reads, whole writes, item writes, lock/unlock, including calls that raise)", "why_tests_cant": "The code comment/test only checks direct children; the claim is about all depths and histories.", "anchors": ["openscm/core/views.py:ScalarView.__init__", "openscm/core/views.py:TimeseriesView.__init__", "openscm/core/parameters.py:_Parameter.get_or_create_child_parameter", "tests/unit/test_core.py"]}
{"id": "C14", "title": "Timeseries views are always up to date", "statement": "Reading values of a view of a parameter without sub-parameters returns the unit- and time-converted data of the last write made through any view, for every view, however often it has been read before.", "quantifier": "every finite history of ParameterSet calls and view operations (requests for scalar/timeseries/generic views and info, reads, whole writes, item writes, lock/unlock, including calls that raise) without locked views", "why_tests_cant": "All interleavings of several views with caches.", "anchors": ["openscm/core/views.py:TimeseriesView._read", "openscm/core/views.py:TimeseriesView._write", "openscm/core/views.py:TimeseriesView._get_values", "docs/usage.rst"]}
{"id": "C15", "title": "Aggregated timeseries views are always up to date", "statement": "Reading values of a view of a parameter with sub-parameters returns the sum of the leaves' current values, however often the view has been read before.", "quantifier": "every finite history of ParameterSet calls and view operations (requests for scalar/timeseries/generic views and info, reads, whole writes, item writes, lock/unlock, including calls that raise)", "why_tests_cant": "Cache validity is a property of all interleavings.", "anchors": ["openscm/core/views.py:TimeseriesView._read", "openscm/core/views.py:TimeseriesView._get_values"]}
{"id": "C16", "title": "Wrong-length timeseries writes are rejected without effect", "statement": "Assigning values of a length other than the view's length raises TimeseriesPointsValuesMismatchError and changes no observable state.", "quantifier": "every finite history of ParameterSet calls and view operations (requests for scalar/timeseries/generic views and info, reads, whole writes, item writes, lock/unlock, including calls that raise), all arrays", "why_tests_cant": "All lengths, all states.", "anchors": ["openscm/core/views.py:TimeseriesView.values"]}
{"id": "C17", "title": "Item assignment changes exactly one item", "statement": "view.values[i] = x on an unlocked view makes a later read of the view return the previous values with item i replaced by x, and has the same effect on the parameter as assigning that whole array.", "quantifier": "every finite history of ParameterSet calls and view operations (requests for scalar/timeseries/generic views and info, reads, whole writes, item writes, lock/unlock, including calls that raise), all i, x", "why_tests_cant": "All states and indices.", "anchors": ["openscm/core/views.py:_Timeseries.__setitem__", "openscm/core/views.py:_Timeseries.__getitem__"]}
{"id": "C18", "title": "A held values handle is coherent", "statement": "An array obtained once from view.values stays a live window: arithmetic, comparisons and conversion to an array see the same data as indexing and iteration, and item assignment through it never undoes another view's later write.", "quantifier": "every finite history of ParameterSet calls and view operations (requests for scalar/timeseries/generic views and info, reads, whole writes, item writes, lock/unlock, including calls that raise)", "why_tests_cant": "Interleavings of several views and kept handles.", "anchors": ["openscm/core/views.py:_Timeseries", "openscm/core/views.py:TimeseriesView._read"]}
{"id": "C19", "title": "Locking only batches writes", "statement": "lock(), any sequence of whole and item writes and reads through that view, then unlock() leaves the parameter and the view as the same operations without locking would, if nobody else writes in between; reads through the locked view see its own writes.", "quantifier": "every sequence of writes and reads performed while locked, every initial state", "why_tests_cant": "All sequences.", "anchors": ["openscm/core/views.py:TimeseriesView.lock", "openscm/core/views.py:TimeseriesView.unlock", "openscm/core/views.py:TimeseriesView._write"]}
{"id": "C20", "title": "Unlocking or locking does not destroy other views' data", "statement": "A lock()/unlock() pair without a write in between never changes the parameter's data, and a write made through another view while this one is locked is not silently lost.", "quantifier": "every finite history of ParameterSet calls and view operations (requests for scalar/timeseries/generic views and info, reads, whole writes, item writes, lock/unlock, including calls that raise)", "why_tests_cant": "Interleavings.", "anchors": ["openscm/core/views.py:TimeseriesView.unlock"]}
{"id": "C21", "title": "Failing requests have no effect", "statement": "A scalar/timeseries/generic request that raises leaves the parameter set as it was: every later call behaves as if the failing call had not been made.", "quantifier": "every finite history of ParameterSet calls and view operations (requests for scalar/timeseries/generic views and info, reads, whole writes, item writes, lock/unlock, including calls that raise), every failing request", "why_tests_cant": "All failure points in all states.", "anchors": ["openscm/core/parameterset.py:ParameterSet.scalar", "openscm/core/parameterset.py:ParameterSet.timeseries", "openscm/core/parameterset.py:ParameterSet.generic", "openscm/core/parameters.py:_Parameter.attempt_read"]}
{"id": "C22", "title": "Generic parameters cannot be aggregated", "statement": "Every request for a generic view of a parameter that has sub-parameters raises ParameterAggregationError (or ParameterTypeError).", "quantifier": "every finite history of ParameterSet calls and view operations (requests for scalar/timeseries/generic views and info, reads, whole writes, item writes, lock/unlock, including calls that raise)", "why_tests_cant": "All histories, including repeated requests.", "anchors": ["openscm/core/parameters.py:_Parameter.attempt_read", "openscm/core/parameterset.py:ParameterSet.generic"]}
{"id": "C23", "title": "Converting averages to the same periods is the identity", "statement": "Converting an average timeseries of n >= 3 values on strictly increasing time points to the same time points returns the same values, for every extrapolation type.", "quantifier": "all n >= 3, all strictly increasing time points (also unequal periods), all real values", "why_tests_cant": "Continuous, unbounded domain.", "anchors": ["openscm/core/time.py:TimeseriesConverter.convert_from", "openscm/core/time.py:_calc_integral_preserving_linear_interpolation", "openscm/core/time.py:_calc_interval_averages"]}
{"id": "C24", "title": "Converting points to the same points is the identity", "statement": "Converting a point timeseries of n >= 3 values to the same strictly increasing time points returns the same values.", "quantifier": "all n >= 3, all strictly increasing time points, all real values", "why_tests_cant": "Unbounded domain.", "anchors": ["openscm/core/time.py:TimeseriesConverter.convert_from"]}
{"id": "C25", "title": "Average conversion conserves the integral", "statement": "Converting an average timeseries to any strictly increasing target time points that start and end at the source's first and last time point preserves the total integral (sum of value times period length).", "quantifier": "all source and target grids, all values", "why_tests_cant": "Unbounded domain; tests check fixed data with tolerance.", "anchors": ["openscm/core/time.py:_calc_interval_averages", "openscm/core/time.py:_calc_integral_preserving_linear_interpolation"]}
{"id": "C26", "title": "Point conversion is the piecewise-linear interpolant", "statement": "Inside the source range a converted point value equals the value on the straight line between the two neighbouring source points: exact at source points, between the neighbouring values elsewhere, exact for linear data.", "quantifier": "all grids, all values, all target times", "why_tests_cant": "Unbounded domain.", "anchors": ["openscm/core/time.py:TimeseriesConverter._calc_continuous_representation"]}
{"id": "C27", "title": "Extrapolation types do what they say", "statement": "With NONE, conversion raises InsufficientDataError exactly when a target point lies outside the source range; CONSTANT returns the first/last value outside, LINEAR continues the first/last segment; none of them affects target points inside.", "quantifier": "all grids, values and target times, all extrapolation types", "why_tests_cant": "Unbounded domain.", "anchors": ["openscm/core/time.py:TimeseriesConverter._get_scipy_extrapolation_args", "openscm/core/time.py:TimeseriesConverter._convert"]}
{"id": "C28", "title": "Refining and coming back is lossless", "statement": "If the target time points contain all source time points (same range), converting to the target and back returns the original values, for point and for average timeseries.", "quantifier": "all grids with source contained in target, all values", "why_tests_cant": "Unbounded domain.", "anchors": ["openscm/core/time.py:TimeseriesConverter.convert_from", "openscm/core/time.py:TimeseriesConverter.convert_to"]}
{"id": "C29", "title": "Converted timeseries have the target's length", "statement": "A successful conversion returns exactly as many values as the target time points define (one less than the number of time points for averages), so a successful read has the view's length.", "quantifier": "all grids, values, types", "why_tests_cant": "All inputs.", "anchors": ["openscm/core/time.py:TimeseriesConverter.target_length", "openscm/core/views.py:TimeseriesView.length"]}
{"id": "C30", "title": "Only the instants matter, not the datetime resolution", "statement": "Two arrays of time points denoting the same instants behave identically in views and conversions, whatever numpy datetime64 resolution (s, D, ...) they are given in.", "quantifier": "all time points, all resolutions", "why_tests_cant": "All inputs; resolutions combine with all states.", "anchors": ["openscm/core/time.py:TimeseriesConverter.__init__", "openscm/core/parameterset.py:ParameterSet.timeseries"]}
{"id": "C31", "title": "create_time_points is equidistant", "statement": "create_time_points(start, period, n, type) returns n points (n+1 for averages), the i-th being exactly start + i*period.", "quantifier": "all starts, periods and n", "why_tests_cant": "Unbounded; floating-point linspace inside.", "anchors": ["openscm/core/time.py:create_time_points"]}
{"id": "C32", "title": "Fractional years map into their year, monotonically", "statement": "A float year y is mapped to an instant in calendar year int(y), integral floats to 1 January 00:00 exactly as integer years are, and larger floats never map to earlier instants.", "quantifier": "all non-negative year numbers representable as datetime", "why_tests_cant": "Unbounded, leap-year rules.", "anchors": ["openscm/core/time.py:_float_year_to_datetime", "openscm/core/time.py:_format_datetime"]}
{"id": "C33", "title": "Time conversion is linear and commutes with unit conversion", "statement": "Converting a*x+b*y equals a*convert(x)+b*convert(y), constants are mapped to constants, and hence converting unit then time equals converting time then unit (so the sum of converted leaves is the conversion of the sum).", "quantifier": "all grids, values, factors, affine units", "why_tests_cant": "Unbounded domain.", "anchors": ["openscm/core/time.py:TimeseriesConverter", "openscm/core/views.py:TimeseriesView._get_values"]}
{"id": "C34", "title": "UnitConverter realises the physical conversion", "statement": "For every pair of units related by an affine map (including offset units such as degC/degF) convert_from returns the physically converted value for every input.", "quantifier": "all affine unit relations, all values", "why_tests_cant": "The converter is fitted from two sample points; correctness for all inputs is not a sample.", "anchors": ["openscm/core/units.py:UnitConverter"]}
{"id": "C35", "title": "convert_to inverts convert_from", "statement": "convert_to(convert_from(x)) = x = convert_from(convert_to(x)) and converting a->b->c equals a->c.", "quantifier": "all convertible units, all values", "why_tests_cant": "Unbounded domain.", "anchors": ["openscm/core/units.py:UnitConverter.convert_from", "openscm/core/units.py:UnitConverter.convert_to"]}
{"id": "C36", "title": "Incompatible units are rejected, compatible ones accepted", "statement": "Creating a converter or view fails with a dimensionality error exactly when the dimensions differ and with an undefined-unit error exactly when a unit is unknown.", "quantifier": "all units", "why_tests_cant": "All pairs.", "anchors": ["openscm/core/units.py:UnitConverter.__init__"]}
{"id": "C37", "title": "Every advertised emission unit is convertible to its base gas", "statement": "Each gas symbol in the standard gas table (and mass-joined, tonne-joined variants) is a defined unit; units derived from the same base element convert with the tabulated mass ratios.", "quantifier": "all entries of the gas table, all prefixes/joint forms built from them", "why_tests_cant": "Tests check selected gases; the claim is about the whole table.", "anchors": ["openscm/core/units.py:_standard_gases", "openscm/core/units.py:ScmUnitRegistry._add_gases"]}
{"id": "C38", "title": "Metric contexts convert with the tabulated GWP", "statement": "In a metric context, converting 1 unit mass of a species to CO2 gives exactly the tabulated value, back gives the reciprocal, and between two species the ratio; outside a context such conversions are rejected.", "quantifier": "all contexts and species of the metric table, all masses", "why_tests_cant": "Whole table times all amounts.", "anchors": ["openscm/core/units.py:ScmUnitRegistry._load_metric_conversions", "openscm/data/metric_conversions.csv"]}
{"id": "C39", "title": "The model is initialised at most once and before use", "statement": "In every sequence of adapter calls, _initialize_model runs at most once and before any run-parameter initialisation, reset, run or step.", "quantifier": "all sequences of adapter/OpenSCM calls", "why_tests_cant": "All sequences.", "anchors": ["openscm/adapters/__init__.py:Adapter", "openscm/core/__init__.py:OpenSCM"]}
{"id": "C40", "title": "Loading an adapter is stable", "statement": "load_adapter returns the same class for the same name on every call, raises KeyError for unknown names, and a failing load is not remembered (a later call can succeed).", "quantifier": "all sequences of loads and module availabilities", "why_tests_cant": "All sequences.", "anchors": ["openscm/adapters/__init__.py:load_adapter"]}
{"id": "C41", "title": "Adapter defaults never override the user", "statement": "After model initialisation every parameter the user has written holds the user's value, every other parameter with a default holds the default.", "quantifier": "all user-written subsets and values", "why_tests_cant": "All subsets.", "anchors": ["openscm/adapters/dice.py:DICE._initialize_model"]}
{"id": "C42", "title": "DICE state stays within its bounds", "statement": "After every step mat, ml, mu are at least their lower bounds, tocean lies between its bounds and tatm is at most its upper bound, whatever the emissions and parameters.", "quantifier": "all parameter values (tocean bounds ordered), emissions and step counts", "why_tests_cant": "Unbounded.", "anchors": ["openscm/adapters/dice.py:DICE._calc_step"]}
{"id": "C43", "title": "DICE conserves carbon", "statement": "As long as no lower bound is active, the total carbon in atmosphere, upper and lower ocean after k steps equals the initial total plus the emitted carbon.", "quantifier": "all parameters, emissions, k", "why_tests_cant": "Unbounded.", "anchors": ["openscm/adapters/dice.py:DICE._calc_step", "openscm/adapters/dice.py:DICE._reset"]}
{"id": "C44", "title": "DICE equilibrium is stationary", "statement": "Started at the equilibrium pools with zero emissions the carbon pools stay at equilibrium for ever.", "quantifier": "all parameters, all k", "why_tests_cant": "Unbounded.", "anchors": ["openscm/adapters/dice.py:DICE._calc_step", "openscm/adapters/dice.py:DICE._reset"]}
{"id": "C45", "title": "run() equals stepping", "statement": "A full run leaves the same outputs and current time as a reset followed by stepping to the end.", "quantifier": "all parameters, emissions and lengths", "why_tests_cant": "Unbounded.", "anchors": ["openscm/adapters/dice.py:DICE._run", "openscm/adapters/dice.py:DICE._step", "openscm/core/__init__.py:OpenSCM.run", "openscm/core/__init__.py:OpenSCM.step"]}
{"id": "C46", "title": "Runs are reproducible", "statement": "Running twice without changing inputs gives the same outputs; results do not depend on the content of freshly allocated (uninitialised) arrays or on previous runs.", "quantifier": "all parameters, emissions, all contents of uninitialised memory", "why_tests_cant": "Unbounded.", "anchors": ["openscm/adapters/dice.py:DICE._reset", "openscm/adapters/dice.py:DICE._run"]}
{"id": "C47", "title": "current_time follows the steps", "statement": "After reset and k successful steps the reported current time is start + k*period; the last step is the one reaching the last time point not after the stop time.", "quantifier": "all start/stop/period, all k", "why_tests_cant": "Unbounded.", "anchors": ["openscm/adapters/__init__.py:Adapter.step", "openscm/adapters/dice.py:DICE._calc_step", "openscm/adapters/dice.py:DICE._initialize_run_parameters"]}
{"id": "C48", "title": "filter keep=True and keep=False partition the data", "statement": "Every non-missing data point of a data frame is in exactly one of filter(..., keep=True) and filter(..., keep=False), with unchanged value, time and metadata.", "quantifier": "all data frames and filters", "why_tests_cant": "Unbounded.", "anchors": ["openscm/scmdataframe/base.py:ScmDataFrameBase.filter", "openscm/scmdataframe/base.py:ScmDataFrameBase._apply_filters"]}
{"id": "C49", "title": "Filters compose", "statement": "Filtering by a then by b gives the same data points as filtering by a and b together, in either order; filtering is idempotent.", "quantifier": "all data frames and filters that look at one time point / one timeseries' metadata", "why_tests_cant": "Unbounded.", "anchors": ["openscm/scmdataframe/base.py:ScmDataFrameBase.filter"]}
{"id": "C50", "title": "append keeps all data", "statement": "After append, every data point of both frames is present; where both define a point of the same timeseries the result is their mean; the order of the operands does not matter for the data points.", "quantifier": "all pairs of frames", "why_tests_cant": "Unbounded.", "anchors": ["openscm/scmdataframe/base.py:df_append", "openscm/scmdataframe/base.py:ScmDataFrameBase.append"]}
{"id": "C51", "title": "rename changes only the named metadata and never merges timeseries", "statement": "rename replaces exactly the listed values in the listed columns and raises ValueError rather than producing two timeseries with equal metadata; a failing rename leaves the frame unchanged.", "quantifier": "all frames and mappings", "why_tests_cant": "Unbounded.", "anchors": ["openscm/scmdataframe/base.py:ScmDataFrameBase.rename"]}
{"id": "C52", "title": "convert_unit converts exactly the selected timeseries", "statement": "convert_unit multiplies exactly the selected timeseries by their unit factor, relabels exactly them, and leaves all others untouched; the physical quantity is unchanged.", "quantifier": "all frames, filters, units", "why_tests_cant": "Unbounded.", "anchors": ["openscm/scmdataframe/base.py:ScmDataFrameBase.convert_unit"]}
{"id": "C53", "title": "interpolate works for frames mixing point and average timeseries", "statement": "interpolate(target_times) returns, for every timeseries, its values converted according to its own type to the target times.", "quantifier": "all frames with any mix of types, all target times", "why_tests_cant": "The mixed-type test functions in the suite are not collected; all mixes matter.", "anchors": ["openscm/scmdataframe/base.py:ScmDataFrameBase.interpolate"]}
{"id": "C54", "title": "Data frame -> ParameterSet -> data frame is lossless", "statement": "Converting a frame to a parameter set and back at the same time points returns every timeseries with its region, variable, unit and values.", "quantifier": "all frames (unique timeseries, uniform remaining metadata), all region depths", "why_tests_cant": "Unbounded.", "anchors": ["openscm/scmdataframe/base.py:ScmDataFrameBase.to_parameterset", "openscm/scmdataframe/__init__.py:convert_openscm_to_scmdataframe"]}
{"id": "C55", "title": "Filter patterns are literal except for *", "statement": "A filter string matches a value exactly when the value is obtained by replacing each * by some text; every other character stands for itself.", "quantifier": "all patterns and values", "why_tests_cant": "Unbounded; interactions of escaping rules.", "anchors": ["openscm/scmdataframe/filters.py:pattern_match"]}
{"id": "C56", "title": "Level filters count separators after the pattern", "statement": "The level criterion keeps exactly the values whose number of hierarchy separators after removing the pattern prefix equals (at most, at least) the requested level.", "quantifier": "all patterns, values, levels", "why_tests_cant": "Unbounded.", "anchors": ["openscm/scmdataframe/filters.py:find_depth"]}
{"id": "C57", "title": "Time filters accept any list of ranges", "statement": "Filtering months, days or hours by a list of names, numbers and ranges keeps exactly the time points in the union of the listed items, and does not modify the caller's list.", "quantifier": "all lists of single items and ranges", "why_tests_cant": "Index-shifting depends on list length and positions.", "anchors": ["openscm/scmdataframe/filters.py:time_match", "openscm/scmdataframe/filters.py:month_match", "openscm/scmdataframe/filters.py:day_match"]}
{"id": "C58", "title": "generate_range covers the requested period", "statement": "generate_range(start, end, offset) yields strictly increasing instants on the offset, starting at or before start and ending at or after end.", "quantifier": "all starts, ends and supported offsets", "why_tests_cant": "Unbounded calendar arithmetic.", "anchors": ["openscm/scmdataframe/offsets.py:generate_range", "openscm/scmdataframe/base.py:ScmDataFrameBase.resample"]}
{"id": "C59", "title": "Reference-period normalisation centres the data", "statement": "After relative_to_ref_period_mean the mean of every timeseries over the reference period is zero and differences between any two time points of a timeseries are unchanged.", "quantifier": "all frames and reference periods containing data", "why_tests_cant": "Unbounded.", "anchors": ["openscm/scmdataframe/base.py:ScmDataFrameBase.relative_to_ref_period_mean"]}
{"id": "C60", "title": "Hierarchical strings and tuples are interchangeable", "statement": "For non-empty components without '|', joining with '|' and splitting are inverse, so requests by string and by tuple denote the same parameter, and different tuples have different strings.", "quantifier": "all sequences of components", "why_tests_cant": "Unbounded strings.", "anchors": ["openscm/core/parameterset.py:ParameterSet._get_or_create_parameter", "openscm/core/parameters.py:HIERARCHY_SEPARATOR"]}
{"id": "C61", "title": "Caller-owned arrays are never aliased", "statement": "Modifying an array after passing it as time points or as values never changes what any view reads, and modifying an array computed from view.values never changes the parameter.", "quantifier": "all histories of calls and external array modifications", "why_tests_cant": "Aliasing shows only for particular interleavings.", "anchors": ["openscm/core/views.py:TimeseriesView.values", "openscm/core/parameters.py:_Parameter.attempt_read", "openscm/core/time.py:TimeseriesConverter.__init__"]}
{"id": "C62", "title": "Parameter type guessing is total and stable", "statement": "guess_parameter_type gives every variable/unit pair exactly one of average/point, and giving rates per time (emissions) average and listed concentration-like variables point.", "quantifier": "all variable and unit strings", "why_tests_cant": "Unbounded strings.", "anchors": ["openscm/scmdataframe/parameter_type.py:guess_parameter_type"]}
{"id": "C63", "title": "DICE runs to the end", "statement": "After a successful reset, every step up to the last time point and the whole of run() return without an exception, if all parameters can be read, mat_lower and mateq are positive, t2xco2 is not zero, the saturation time differs from the start time and emissions can be read.", "quantifier": "all parameters satisfying the stated conditions, all emissions, all numbers of time points", "why_tests_cant": "Unbounded; division and logarithm errors depend on values reached during a run.", "anchors": ["openscm/adapters/dice.py:DICE._calc_step", "openscm/adapters/dice.py:DICE._run", "openscm/adapters/dice.py:DICE._step"]}
{"id": "C64", "title": "DICE computes the equations of DICE-2013R", "statement": "The value of each of the six state variables at every time point is the one given by the equations of DICE-2013R (carbon cycle, forcing, two-layer temperature, each with its bound) from the values at the time point before, the parameters and the emissions as read by the user in DICE's units; the first values are the initial values.", "quantifier": "all parameters, emissions and time points", "why_tests_cant": "The tests compare one run against stored output; update order, units and indices matter for all inputs.", "anchors": ["openscm/adapters/dice.py:DICE._calc_step", "openscm/adapters/dice.py:DICE._reset", "openscm/adapters/dice.py:DICE._initialize_run_parameters"]}
{"id": "C65", "title": "Calendar fields of time points are those of the Gregorian calendar", "statement": "years(), months(), days(), hours() and weekdays() of a TimePoints object give, in order, the year, month, day, hour and day of the week of every time point in the Gregorian calendar; every time belongs to exactly one date.", "quantifier": "all non-empty arrays of times at resolution of seconds", "why_tests_cant": "Unboundedly many dates; leap years and centuries.", "anchors": ["openscm/core/time.py:TimePoints.years", "openscm/core/time.py:TimePoints.months", "openscm/core/time.py:TimePoints.days", "openscm/core/time.py:TimePoints.hours", "openscm/core/time.py:TimePoints.weekdays"]}
{"id": "C66", "title": "Data and metadata of a frame stay aligned", "statement": "Every frame built from arrays and columns of metadata, and every frame that filtering, renaming, setting metadata, converting units, appending and interpolating leave behind, has the same timeseries in its data and in its metadata in the same order, one value for every time, one metadata value for every column, no column twice, and all required columns.", "quantifier": "all frames, all arguments, all sequences of operations", "why_tests_cant": "Unboundedly many sequences of operations; misalignment would only show up later.", "anchors": ["openscm/scmdataframe/base.py:_from_ts", "openscm/scmdataframe/base.py:ScmDataFrameBase.filter", "openscm/scmdataframe/base.py:ScmDataFrameBase.rename", "openscm/scmdataframe/base.py:ScmDataFrameBase.set_meta", "openscm/scmdataframe/base.py:ScmDataFrameBase.convert_unit", "openscm/scmdataframe/base.py:df_append"]}
{"id": "C67", "title": "process_over gives the statistic of each group", "statement": "process_over returns, for all metadata other than the columns processed over and for each time, exactly the mean, median or quantile of the values in the frame with that metadata at that time; quantile 0.5 is the median; it succeeds exactly for distinct timeseries, remaining columns and a valid operation.", "quantifier": "all frames with distinct times, all columns and operations", "why_tests_cant": "Unboundedly many frames and groupings.", "anchors": ["openscm/scmdataframe/base.py:ScmDataFrameBase.process_over"]}
{"id": "C68", "title": "Frames can be rebuilt from their timeseries", "statement": "A frame built from the table that timeseries() returns has the same timeseries in the same order with the same metadata (None having become NaN) and the same value at every time; its times are in increasing order. Metadata columns may have any name.", "quantifier": "all aligned frames with distinct times and distinct metadata, all ways of reading texts as times", "why_tests_cant": "Whether a column is metadata or a time is decided by trying to read its name as a time; unboundedly many names and shapes.", "anchors": ["openscm/scmdataframe/base.py:_format_data", "openscm/scmdataframe/base.py:_format_wide_data", "openscm/scmdataframe/base.py:ScmDataFrameBase.timeseries"]}
{"id": "C69", "title": "Frames built from long tables contain the points of the table", "statement": "A frame built from a table with one row for each point (metadata columns, a time or year, a value) contains for each metadata and time the value that the rows give, the mean if there are several, and no other points; its times are exactly those of the rows, in increasing order. No row is lost.", "quantifier": "all long tables", "why_tests_cant": "Pivoting groups rows by metadata and time; unboundedly many combinations including missing values.", "anchors": ["openscm/scmdataframe/base.py:_format_data", "openscm/scmdataframe/base.py:_format_long_data"]}
{"id": "C70", "title": "Item access reads back what was assigned", "statement": "After any sequence of item assignments df[key] = value, df[key] gives what was last assigned to that key and accepted (one value for all timeseries, or one for each), or what the frame had before; df['time'] likewise for times, df['year'] the calendar years of the times; unknown keys are a KeyError. An assignment of the wrong length is a ValueError and has no effect. Values, order and number of the timeseries and all other columns never change.", "quantifier": "all frames with data and metadata that fit together, all sequences of assignments", "why_tests_cant": "Sequences of assignments of any length, in which some are refused, mixed over all columns and the times.", "anchors": ["openscm/scmdataframe/base.py:ScmDataFrameBase.__getitem__", "openscm/scmdataframe/base.py:ScmDataFrameBase.__setitem__", "openscm/scmdataframe/base.py:ScmDataFrameBase.set_meta", "openscm/scmdataframe/base.py:ScmDataFrameBase.__len__"]}
{"id": "C71", "title": "Time points mean the same however they are written", "statement": "Years given as integers, floats, texts or datetime64 values of unit year are the starts of these years; texts with decimal fractions mean what the nearest float means; dates given as texts, datetimes or datetime64 values of any unit are the same instants to the second (parts of seconds are cut off). What a value means depends neither on the other values of the array nor on the day on which the program runs. Converting the result again changes nothing.", "quantifier": "all arrays of years from 1 to 9998, all arrays of dates from year 1 to 9999, all units, all days of the run", "why_tests_cant": "All years and dates in all notations and units, on every day of the year; the dependence on the day of the run and on the other entries shows only for mixed arrays.", "anchors": ["openscm/core/time.py:_parse_datetime", "openscm/core/time.py:_format_datetime", "openscm/core/time.py:_float_year_to_datetime", "openscm/core/time.py:TimePoints.__init__"]}
{"id": "C72", "title": "Arrays behave as values", "statement": "A program that makes numpy arrays, overwrites them, requests timeseries, reads, assigns and modifies values in place, locks and unlocks views and computes new arrays from values gets the same answers as if arrays were values: its arrays change only when it writes to them, and writing to them after they were passed to or obtained from the store changes nothing else.", "quantifier": "all programs (sequences of calls of any length), all names, units, time points and values; np.asarray(view.values) and generic and scalar parameters excluded", "why_tests_cant": "Sharing of memory shows only for particular orders of calls; the theorem compares every program with its run on values.", "anchors": ["openscm/core/parameters.py:_Parameter.attempt_read", "openscm/core/time.py:TimeseriesConverter.__init__", "openscm/core/views.py:TimeseriesView", "openscm/core/parameterset.py:ParameterSet.timeseries"]}
{"id": "C73", "title": "Averages keep their mean from view to view", "statement": "When averages are stored through one view of a parameter and read through another, then between any two time points which both views and the parameter itself have, both arrays have the same mean as a physical quantity; if the reading view covers exactly the period of the parameter, the read succeeds.", "quantifier": "all histories of calls in which views of the parameter are not locked, get no integer array and no refused write; all units (also with offset), time points, extrapolation types and values", "why_tests_cant": "The property joins storing, caching, unit conversion and time conversion in both directions; tests use single conversions and a few grids.", "anchors": ["openscm/core/views.py:TimeseriesView", "openscm/core/time.py:TimeseriesConverter", "openscm/core/units.py:UnitConverter"]}
{"id": "C74", "title": "All views of points show the same curve", "statement": "When points are stored through a view whose time points are among those of the parameter (for example through the first view requested), then every view that can be read shows, at each of its time points within the range, the physical quantity on the straight line between the neighbouring stored points.", "quantifier": "all histories as in C73; all units, time points, extrapolation types and values", "why_tests_cant": "Depends on the whole chain from one view through the store to another, for any two grids.", "anchors": ["openscm/core/views.py:TimeseriesView", "openscm/core/time.py:TimeseriesConverter", "openscm/core/units.py:UnitConverter"]}
{"id": "C75", "title": "Units are only labels", "statement": "Two programs that differ only in the units in which they request views and give numbers (each number the same physical quantity in the unit of its view) get, call by call, the same exceptions, the same views and the same physical quantities, also for aggregated parameters, locks and in-place operations. The units must have no offset: for degC the total of an aggregated parameter depends on the unit of the view, which is shown as well.", "quantifier": "all pairs of histories of calls that correspond call by call, all registries with non-zero scales, all units without offset (also unknown ones and ones of different dimension), all time points, all arrays of floats and NaN", "why_tests_cant": "It relates two whole executions for every choice of units; tests compare single conversions.", "anchors": ["openscm/core/views.py:ScalarView", "openscm/core/views.py:TimeseriesView", "openscm/core/units.py:UnitConverter", "openscm/core/parameterset.py:ParameterSet"]}
{"id": "C76", "title": "DICE does not depend on the units of its users", "statement": "Two users of the DICE adapter who make the same calls of the parameter sets, of the adapter and of OpenSCM, but request views and give numbers in units of their own (the same physical quantities), get the same exceptions from the same calls; the adapter computes the same output numbers, reads the same parameters and emissions and is at the same current time; and whatever the users read afterwards from the input or output parameter set is the same quantity in their units.", "quantifier": "all pairs of programs that correspond call by call (any calls before and after the adapter is made, on both parameter sets, interleaved with any adapter and OpenSCM calls that return or raise), all registries with non-zero scales in which the adapter's own units have no offset, all units without offset", "why_tests_cant": "It relates two executions of the whole model for every choice of units and every program; tests run DICE once with one set of units.", "anchors": ["openscm/adapters/dice.py:DICE", "openscm/core/parameterset.py:ParameterSet", "openscm/core/views.py:TimeseriesView", "openscm/core/__init__.py:OpenSCM"]}
{"id": "C77", "title": "Higher emissions never mean less carbon or lower temperatures", "statement": "Of two runs of the DICE model with the same parameters, in the range in which the model is meant (exchange coefficients not negative, no pool gives away more than it has, positive masses, warming relaxes without overshooting), the one that emits at least as much in every period and begins with at least as much carbon and heat has at least as much carbon in all three pools, at least as high temperatures of atmosphere and ocean and at least as much forcing at every time point; the clamping to bounds does not break this.", "quantifier": "all pairs of runs of any number of steps, all parameters in the physical range, all emissions (of any sign), all periods that are not negative, both roundings", "why_tests_cant": "It relates two executions for all parameters and emissions; the bounds, the logarithm and the coupling of the pools interact over all steps.", "anchors": ["openscm/adapters/dice.py:DICE._calc_step", "openscm/adapters/dice.py:DICE._reset"]}
{"id": "C78", "title": "DICE is causal", "statement": "What a run of the DICE model computes for time point i depends on the parameters and on the emissions before i only: two runs, of any lengths, with the same parameters that emit the same up to i compute the same numbers up to i, whatever they emit later.", "quantifier": "all pairs of runs of any lengths, all parameters, all emissions, all time points", "why_tests_cant": "An off-by-one in the index of the emissions would only show up in a comparison of two runs; tests compare one run with one table of numbers.", "anchors": ["openscm/adapters/dice.py:DICE._calc_step", "openscm/adapters/dice.py:DICE._reset"]}
{"id": "C79", "title": "DICE warms by its climate sensitivity", "statement": "In a run of the DICE model without emissions in which all carbon pools begin with m times their carbon in equilibrium and other forcing is constant, the temperatures of atmosphere and ocean approach t2xco2 * (log2 m + other forcing / fco22x), whatever they are at the beginning: the distance falls geometrically, at a rate below 1 that depends on the parameters only. For twice the carbon and no other forcing this is the parameter t2xco2.", "quantifier": "all runs of any number of steps, all m > 0, all initial temperatures, all parameters with which warming relaxes without overshooting and whose bounds admit the final temperature", "why_tests_cant": "It is a statement about the limit of arbitrarily long runs for all parameters and initial temperatures.", "anchors": ["openscm/adapters/dice.py:DICE._calc_step", "openscm/adapters/dice.py:DICE._reset", "openscm/adapters/dice.py:MODEL_PARAMETER_DEFAULTS"]}
{"id": "C80", "title": "DICE forgets its initial temperatures", "statement": "Two runs of the DICE model that differ in the initial temperatures only have the same carbon and the same forcing at all time points, and their temperatures approach each other geometrically, at a rate below 1 that depends on the parameters only, also where temperatures are cut off at their bounds.", "quantifier": "all pairs of runs of any number of steps, all emissions, all initial temperatures, all parameters with which warming relaxes without overshooting", "why_tests_cant": "It relates two executions of arbitrary length for all emissions and parameters.", "anchors": ["openscm/adapters/dice.py:DICE._calc_step", "openscm/adapters/dice.py:DICE._reset"]}
{"id": "C81", "title": "Users of unrelated parameters do not notice each other", "statement": "If several users work on one ParameterSet through views they hold, and the parameters of different users are unrelated (in different regions, or neither name begins with the other), then for every order in which their calls are made each user gets from their calls, returning or raising, what they would get if nobody else made any, and the state that remains is the same for all orders.", "quantifier": "all reachable states, any number of users, all sequences of calls through existing views of all kinds (reading, writing, items, handles, +=, locking, aggregated views), all interleavings", "why_tests_cant": "The number of interleavings is exponential and the property is about all of them, including calls that raise; tests make calls in one order.", "anchors": ["openscm/core/views.py:TimeseriesView", "openscm/core/views.py:ScalarView", "openscm/core/views.py:GenericView", "openscm/core/parameters.py:_Parameter"]}
{"id": "C82", "title": "Looking is not noticed", "statement": "A user who only reads (value, values, items of a handle), through views that nobody else uses, is not noticed by the other users of a parameter set: whatever the others do, also with the same parameters, also writing them, requesting further views of them or asking for their state, each of their calls returns or raises exactly what it would if none of the reads had been made, wherever in the schedule they were made. (Reading does change the object graph: it fills the caches and version numbers of the view and of the views of the parts below it.)", "quantifier": "all reachable parameter sets, all users, all interleavings of their calls, all sets of reads", "why_tests_cant": "A test would have to repeat every history with every possible set of reads inserted at every place; caches that leak between views show only for particular orders of reading, writing and requesting.", "anchors": ["openscm/core/views.py:TimeseriesView.values", "openscm/core/views.py:ScalarView.value", "openscm/core/views.py:GenericView.value", "openscm/core/parameters.py:_Parameter"]}
{"id": "C83", "title": "Without emissions DICE spreads carbon as in equilibrium", "statement": "Once emissions have ended, all carbon there is spreads over atmosphere, upper and lower ocean in the proportions of the equilibrium pools: the distance of each pool from its share of all carbon falls geometrically, at a rate below 1 that is determined by the parameters, from whatever state the model was in when emissions ended (as long as the lower bounds of the pools admit that state).", "quantifier": "all parameters in the physical range, all runs of any length in any parameter set, all emissions before, all states at the end of emissions", "why_tests_cant": "It is a statement about all lengths of runs and a rate that holds for all of them; the slowest mode of the default parameters takes thousands of years.", "anchors": ["openscm/adapters/dice.py:DICE._reset", "openscm/adapters/dice.py:DICE._calc_step"]}
{"id": "C84", "title": "Eventual warming in DICE depends on all carbon emitted, not on its history", "statement": "Once emissions have ended and other forcing is constant, the temperatures of air and sea approach the warming that belongs to all carbon there is (climate sensitivity times the binary logarithm of all carbon relative to equilibrium, plus the warming of the other forcing), geometrically, at a rate below 1 that is determined by the parameters, whatever the way in which that carbon and these temperatures came about.", "quantifier": "all parameters in the physical range, all runs, all emissions before, all states at the end of emissions", "why_tests_cant": "A limit: it is about runs of all lengths, with an error bound that is uniform over all of them.", "anchors": ["openscm/adapters/dice.py:DICE._reset", "openscm/adapters/dice.py:DICE._calc_step"]}
{"id": "C85", "title": "Carbon in DICE responds linearly to emissions", "statement": "As long as the lower bounds of the pools are not reached, the carbon pools respond linearly: if the emissions and initial pools of one run are a mixture, with any weights that sum to one, of those of two other runs, then the pools of that run are the same mixture of the pools of the other two at all times, whatever the temperatures, the forcing and the times of the three runs. In particular the effect of additional emissions does not depend on what else is emitted.", "quantifier": "all runs of any length in any parameter sets, all emissions, all initial pools, all weights", "why_tests_cant": "Three arbitrary runs of arbitrary length and an arbitrary real weight.", "anchors": ["openscm/adapters/dice.py:DICE._reset", "openscm/adapters/dice.py:DICE._calc_step"]}
{"id": "C86", "title": "What slices, lists and masks select", "statement": "handle[a:b:c] stands for the positions from a (counted from the end if negative, by default the beginning) to before b, each c-th, in increasing order, and for negative c downwards from a to after b, in decreasing order; a list of integers stands for these positions in its order, a mask of the length of the array for the positions where it is true. A slice with step zero raises ValueError, a position outside the array and a mask of another length raise IndexError, nothing else raises.", "quantifier": "all lengths of arrays, all slices, lists and masks", "why_tests_cant": "The positions are determined for all bounds, steps and lengths, with all combinations of missing, negative and out-of-range bounds.", "anchors": ["openscm/core/views.py:_Timeseries.__getitem__", "openscm/core/views.py:_Timeseries.__setitem__"]}
{"id": "C87", "title": "Slices of view.values are windows", "statement": "A slice of view.values, or a slice of such a slice and so on, taken at any time, is a window on view.values for ever, whatever calls are made on the parameter set and on other handles in between: listing it gives what view.values has at its positions now; reading an item is reading that item of view.values, with the same result and the same effect; assigning to an item is assigning to that item of view.values; an index outside raises IndexError and changes nothing; adding a number in place is adding it to these items of the current values.", "quantifier": "all histories of calls on parameter sets and handles, all chains of slices, all indices and numbers", "why_tests_cant": "Any number of slices of slices and any interleaved calls, including writes through other views, failing calls and locking.", "anchors": ["openscm/core/views.py:_Timeseries.__getitem__", "openscm/core/views.py:_Timeseries.__setitem__", "openscm/core/views.py:_Timeseries.__iter__", "openscm/core/views.py:_Timeseries.__array_ufunc__", "openscm/core/views.py:TimeseriesView.values"]}
{"id": "C88", "title": "Assigning to several positions is assigning to one after the other", "statement": "Assigning one number or an array to a slice, a list of positions or a mask of view.values (or of a slice of it) succeeds if and only if the assignments to the single positions, one after the other, all succeed; afterwards no sequence of calls on the parameter set can tell whether the values were assigned at once or one by one. If the positions do not exist or the number of values does not fit, it raises and changes nothing.", "quantifier": "all histories, all handles obtained by slices, all non-empty selections, all numbers, all later sequences of calls", "why_tests_cant": "Compares two states under all later sequences of calls; the number of writes (and so the versions) differs, which must not matter to any view.", "anchors": ["openscm/core/views.py:_Timeseries.__setitem__", "openscm/core/views.py:TimeseriesView._write", "openscm/core/views.py:TimeseriesView._read"]}
{"id": "C89", "title": "Parts of view.values stay connected to the view", "statement": "Whatever part of view.values a user takes, by a slice, a list of positions or a mask, it follows later changes of the parameter, and assignments to it reach the parameter and change nothing else.", "quantifier": "all histories, all selections", "why_tests_cant": "Holds for all slices (C87) and fails for lists and masks, which needs two views and a particular order of calls to be noticed.", "anchors": ["openscm/core/views.py:_Timeseries.__getitem__", "openscm/core/views.py:_Timeseries.__write__"]}
{"id": "C90", "title": "DICE works with the emissions of the data frame", "statement": "If a data frame with average emissions of CO2 for World is stored with to_parameterset and the parameter set is given to a DICE adapter, then after reset and any number of steps the emissions DICE reads, where it reads any, have between common boundaries of periods the same mean as those of the data frame, converted between the two units; if the periods are the same, each value is that of the data frame; if the data frame covers the run exactly, all emissions can be read.", "quantifier": "all storable data frames, unit registries, sequences of other operations on the parameter sets and calls of the adapter, numbers of steps, start times, period lengths and numbers of periods in whole seconds", "why_tests_cant": "It relates a data frame to numbers that the adapter reads after reset, through two conversions of units and times; tests check each part on a few literals.", "anchors": ["openscm/scmdataframe/base.py:ScmDataFrame.to_parameterset", "openscm/adapters/dice.py:DICE._initialize_run_parameters", "openscm/core/parameterset.py:ParameterSet.timeseries", "openscm/core/views.py:TimeseriesView.values"]}
{"id": "C91", "title": "The results of DICE can be read as a data frame", "statement": "If a DICE adapter writes to an empty parameter set, then after reset and any number of steps, or after run (once or repeatedly), whenever its views show numbers, convert_openscm_to_scmdataframe returns at the time points of the run a data frame with exactly the six output series, for the region World, with their variables, units and parameter types, the values the views show and the requested model, scenario and climate model, and does not change the parameters. If the emissions came from a data frame with the periods of the run, the resulting data frame holds what the equations of DICE-2013R give for the emissions of that data frame.", "quantifier": "all unit registries, inputs, earlier uses of the adapter that leave the outputs empty, numbers of steps, start times, period lengths and numbers (at least three) of periods in whole seconds, names of model, scenario and climate model", "why_tests_cant": "It goes through storing, the view machinery, the model, caches of the output views and the conversion back; the tests check each part on a few literals.", "anchors": ["openscm/adapters/dice.py:DICE._initialize_run_parameters", "openscm/adapters/dice.py:DICE._calc_step", "openscm/scmdataframe/base.py:ScmDataFrame.to_parameterset", "openscm/scmdataframe/__init__.py:convert_openscm_to_scmdataframe", "openscm/core/views.py:TimeseriesView.values"]}
{"id": "C92", "title": "The carbon of a data frame of emissions is in the pools of DICE", "statement": "If a data frame of CO2 emissions is stored in an empty parameter set and a DICE adapter that got this parameter set is reset and stepped, then, as long as the three carbon pools stay above their lower bounds, after i steps their sum has grown by i times the carbon that the mean emissions of the data frame in the first i periods amount to in one period, for every i such that the data frame knows the start of the run and the end of period i as boundaries. The periods and the unit of the data frame may differ from those of DICE. The same holds for the pools in the data frame read from the outputs.", "quantifier": "all unit registries, storable data frames, later operations on the parameter sets that do not write the emissions, earlier uses of the adapter, numbers of steps, start times, period lengths and numbers of periods in whole seconds, both settings of original_rounding", "why_tests_cant": "A balance over any number of steps, periods and units goes through storing, integral-conserving interpolation, unit conversion, the model equations and reading back; tests check each part on a few literals.", "anchors": ["openscm/adapters/dice.py:DICE._calc_step", "openscm/adapters/dice.py:DICE._initialize_run_parameters", "openscm/core/time.py:TimeseriesConverter", "openscm/core/views.py:TimeseriesView.values", "openscm/scmdataframe/base.py:ScmDataFrame.to_parameterset", "openscm/scmdataframe/__init__.py:convert_openscm_to_scmdataframe"]}
{"id": "C93", "title": "Users of different parameters can share a parameter set, including their requests", "statement": "Let several users share a parameter set from its creation on, each making requests for scalar, time series and generic views, asking for information on parameters, and reading, writing and locking through the views they obtained. If no two users use (request or ask about) the same parameter or parameters of one region of which one lies below the other, then in whatever order their calls are interleaved, each user gets exactly the replies (values, exceptions, information) that the user would get from a parameter set of their own; so the order of the calls of different users does not matter. Users may create parameters with common parents and regions with common parents.", "quantifier": "all unit registries, root regions, numbers of users, interleavings of their operations and lengths of histories", "why_tests_cant": "A statement about all interleavings of arbitrary histories of several users, including the creation of regions and parameters with common ancestors; tests use one user at a time.", "anchors": ["openscm/core/parameterset.py:ParameterSet", "openscm/core/parameters.py:_Parameter.get_or_create_child_parameter", "openscm/core/regions.py:_Region.get_or_create_subregion", "openscm/core/views.py"]}
{"id": "C94", "title": "Splitting a data frame with a filter and appending the parts gives the frame back", "statement": "For every data frame in which no timeseries and no time occurs twice and no metadata value is -999, and every filter that can be applied to it: if both the filtered data (keep=True) and the rest (keep=False) have data points, they can be appended whatever duplicate_msg is, and the result has the same metadata columns and, for every combination of metadata and every time, exactly the values of the original frame. If one of the two has no points, the other one has all points of the frame.", "quantifier": "all data frames, filters (with or without regular expressions), and values of duplicate_msg", "why_tests_cant": "Tests filter and append a few fixed frames, and never combine the two; the statement is about all filters and frames.", "anchors": ["openscm/scmdataframe/base.py:ScmDataFrameBase.filter", "openscm/scmdataframe/base.py:ScmDataFrameBase.append", "openscm/scmdataframe/base.py:df_append"]}
{"id": "C95", "title": "Unit conversions of data frames never change quantities and can be undone", "statement": "After any sequence of in-place calls of convert_unit without context - with any target units and filters, successful or failing - every timeseries of the data frame still stands for the same quantities (values in its present unit), its other metadata and the times are unchanged, and if it has the unit of the beginning it has the values of the beginning. Timeseries without a unit stay as they are. A frame in one unit can be converted to every unit of the same dimension and back, and then has exactly the same data and metadata (apart from unit_context).", "quantifier": "all unit registries, data frames, filters, and sequences of conversions of any length", "why_tests_cant": "A statement about sequences of calls of any length, including calls that fail after converting a part of the frame; tests convert once.", "anchors": ["openscm/scmdataframe/base.py:ScmDataFrameBase.convert_unit", "openscm/core/units.py:UnitConverter"]}
{"id": "C96", "title": "Interpolating a data frame to its own times, or to more times and back, loses nothing", "statement": "A data frame with three or more increasing times whose timeseries have one type (point or average) and no missing values can be interpolated to its own times, with every extrapolation type, and stays the same. It can be interpolated to any increasing times that include its own, begin with its first time and end with its last (for averages: with the end of the last period), and back to its own times, and then has exactly the data and metadata of the beginning.", "quantifier": "all data frames, types, target times and extrapolation types", "why_tests_cant": "An exact statement on the composition of two interpolations over all grids and values; tests compare a single interpolation with fixed numbers.", "anchors": ["openscm/scmdataframe/base.py:ScmDataFrameBase.interpolate", "openscm/core/time.py:TimeseriesConverter"]}
{"id": "C97", "title": "Conversion of time series computes the exact values", "statement": "Whenever a conversion of rational values succeeds, its results are exactly the rational numbers of an independent evaluation with rational arithmetic and without integrals: for point time series the height of the polyline through the values (continued straight, or held constant), for averages the sum of the areas of the trapezoids under the polyline that runs through the period boundaries and midpoints, divided by the length of each target period.", "quantifier": "all rational source values, all increasing source and target times, both types and all extrapolation types", "why_tests_cant": "The repository's tests compare five pairs of grids with tables of rounded numbers (rtol 1e-7); the theorem gives the value of every conversion, exactly.", "anchors": ["openscm/core/time.py:TimeseriesConverter", "openscm/core/time.py:_calc_integral_preserving_linear_interpolation", "openscm/core/time.py:_calc_interval_averages"]}
{"id": "C98", "title": "Resampling a data frame with a rule its times fit keeps all its data", "statement": "If all times of a data frame (three or more, increasing, no missing values, one type) are times of a frequency rule - a number of seconds, minutes, hours or days, or single steps of weeks, months, quarters or years at one time of the day - then resample succeeds with every extrapolation type, and the result has exactly the times of the rule from the first to the last time, with the same metadata. For point timeseries all old data points are among the new ones, the others are on the straight lines between them, and interpolating to the old times gives the frame back. For averages the new values between two successive old times have exactly the old total (value times length); interpolating to the old times gives the frame back if no time of the rule is between the last two times.", "quantifier": "all data frames, rules and extrapolation types", "why_tests_cant": "The repository's tests resample one frame with a few rules and compare rounded numbers; the theorem covers every rule, calendar date and frame and is exact.", "anchors": ["openscm/scmdataframe/base.py:ScmDataFrameBase.resample", "openscm/scmdataframe/base.py:ScmDataFrameBase.interpolate", "openscm/scmdataframe/offsets.py:generate_range", "openscm/core/time.py:TimeseriesConverter"]}
{"id": "C99", "title": "Work flows on data frames do not depend on the unit of measure of the values", "statement": "For every sequence of data frame operations - filter, rename, set_meta, append, interpolate, resample, process_over and relative_to_ref_period_mean - on a frame with increasing times: if all values (and those of appended frames) are rescaled beforehand to a unit with another scale and zero point, then the sequence succeeds exactly if it does without, and its result is the result in the other unit; after a difference to a reference period the zero point does not matter any more. The scale has to be positive only for medians and quantiles. Filters commute with every function of the values.", "quantifier": "all sequences of operations, frames, scales, zero points and configurations of units", "why_tests_cant": "Tests run single operations on a few frames and compare numbers; the theorem covers every sequence of operations and every scale and zero point, with exact real numbers.", "anchors": ["openscm/scmdataframe/base.py:ScmDataFrameBase.filter", "openscm/scmdataframe/base.py:ScmDataFrameBase.interpolate", "openscm/scmdataframe/base.py:ScmDataFrameBase.process_over", "openscm/scmdataframe/base.py:ScmDataFrameBase.relative_to_ref_period_mean", "openscm/scmdataframe/base.py:df_append"]}
{"id": "C100", "title": "Statistics over metadata respect the order of values", "statement": "process_over returns tables with the same rows for every operation, and: quantiles with a larger q have no smaller value; means, medians and quantiles are between the quantiles 0 and 1; these are the smallest and largest value with the given metadata and time; and a frame with larger values (and the same ones missing) has larger statistics.", "quantifier": "all data frames, columns and quantiles", "why_tests_cant": "The repository's tests check process_over for one frame and a few quantiles; the order of all quantiles of all frames, with missing values and groups of any size, cannot be enumerated.", "anchors": ["openscm/scmdataframe/base.py:ScmDataFrameBase.process_over"]}
{"id": "C101", "title": "Rules that combine units of time mean the sum of their parts", "statement": "A resampling rule is a multiple of seconds exactly if it is, after an optional sign, a sequence of decimal numbers and units (S, T, min, Min, H, D; the first number may be missing and is 1 then), and its step is the sum of the parts with the sign in front of the first. The order of the parts does not matter, and the range of such a rule is every whole number of steps after the start up to the end.", "quantifier": "all rules (of the modelled syntax), starts and ends", "why_tests_cant": "Rules can have any number of parts with numbers of any length; the tests only use single offsets.", "anchors": ["openscm/scmdataframe/offsets.py:to_offset", "openscm/scmdataframe/offsets.py:generate_range"]}
{"id": "C102", "title": "The origin of time does not matter", "statement": "Converting a timeseries between times, and interpolating a data frame, give the same values (or the same error) if all source and target times are later by the same amount; so does resampling with a rule that is a multiple of seconds. Rules of the calendar do depend on the date.", "quantifier": "all times (increasing or not), values, parameter types, extrapolation types, frames, shifts and tick rules", "why_tests_cant": "Two runs of the same computation on arbitrary inputs have to be compared.", "anchors": ["openscm/core/time.py:TimeseriesConverter", "openscm/scmdataframe/base.py:ScmDataFrameBase.interpolate", "openscm/scmdataframe/base.py:ScmDataFrameBase.resample"]}
{"id": "C103", "title": "Conversion of timeseries respects the order of values", "statement": "Converting timeseries to other times, higher values never give lower ones, and the converted values stay within the range of the data. The same holds for every timeseries of points in an interpolated data frame.", "quantifier": "all increasing source times, all target times, values and extrapolation types", "why_tests_cant": "Two runs on arbitrary values have to be compared; the tests look at few fixed series.", "anchors": ["openscm/core/time.py:TimeseriesConverter", "openscm/core/time.py:_calc_integral_preserving_linear_interpolation"]}
{"id": "C104", "title": "Rules of the calendar mean what their names say", "statement": "A resampling rule is understood as weeks, months, quarters or years exactly if it is an optional sign, an optional decimal number (1 if missing) and one of the names W, M, MS, Q, QS, A, Y, AS, YS, where W may be anchored to a day of the week and quarters and years to a month. The offset is that (signed) number of those periods with that anchor; without one weeks end on Sunday, ends of quarters and years are counted from December and starts from January. With C101 this covers every rule that is understood at all.", "quantifier": "all rules (of the modelled syntax)", "why_tests_cant": "The numbers can be of any length, and that no other text is accepted concerns all strings; the tests use a handful of rules.", "anchors": ["openscm/scmdataframe/offsets.py:to_offset"]}
{"id": "C105", "title": "Resampling again with the same rule changes nothing", "statement": "The times that a rule with a positive step generates from the first to the last of the times that it has generated are those same times, also for rules that skip periods. Hence a data frame whose timeseries are all points or all averages and that has been resampled to three or more times - whether or not its times fitted the rule before - can be resampled again with the same rule, and then has the same times, values and metadata.", "quantifier": "all rules (of the modelled syntax), starts, ends, data frames of one type of timeseries and extrapolation types", "why_tests_cant": "Whether the times are generated again depends on rolling to offsets of every calendar and stride; the repository's tests resample once.", "anchors": ["openscm/scmdataframe/base.py:ScmDataFrameBase.resample", "openscm/scmdataframe/offsets.py:generate_range"]}
{"id": "C106", "title": "Regular expressions in filters match by their meaning", "statement": "An expression matches a text exactly if some beginning of the text is a match, where what a match is is defined by the parts of the expression: characters and (negated) classes, any character but a newline, start and end, sequences, alternatives and repetitions. In particular the search misses no match, also with nested repetitions of expressions that match the empty text, and terminates. With regexp=True a filter selects exactly the values of which a beginning matches one of its expressions.", "quantifier": "all expressions of the modelled syntax, texts and columns of metadata", "why_tests_cant": "Expressions and texts are unbounded; the repository's tests filter with two expressions.", "anchors": ["openscm/scmdataframe/filters.py:pattern_match"]}
