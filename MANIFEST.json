{
 "claims": [
  {
   "property": "C01",
   "status": "proved",
   "theorems": [
    "C01_type_never_changes",
    "C01_request_gives_type"
   ],
   "note": "Full statement: invariant over every history, including failing calls."
  },
  {
   "property": "C02",
   "status": "proved",
   "theorems": [
    "C02_first_request_fixes_unit_and_time",
    "C02_unit_and_time_kept"
   ],
   "note": "Full statement: origin of unit/time points located in the history, and preserved for ever. A typing request that itself raises can leave the time points unset; the theorem says so."
  },
  {
   "property": "C03",
   "status": "proved",
   "theorems": [
    "C03_children_frozen"
   ],
   "note": "Full statement."
  },
  {
   "property": "C04",
   "status": "partial",
   "theorems": [
    "C04_readonly_refuted",
    "C04_assignment_raises_partial",
    "C04_unchanged_partial"
   ],
   "note": "Refuted as stated: values[i]=x, handle+=x and unlock() on an aggregated timeseries view bypass attempt_write (no ParameterReadonlyError, version incremented). Proved: the assignments raise and change nothing; histories without those three operations leave the parameter object identical."
  },
  {
   "property": "C05",
   "status": "proved",
   "theorems": [
    "C05_view_reports_requested_names",
    "C05_same_parameter_iff_same_names"
   ],
   "note": "Full statement."
  },
  {
   "property": "C06",
   "status": "proved",
   "theorems": [
    "C06_info_pure",
    "C06_found_was_requested",
    "C06_requested_is_found",
    "C06_found_describes",
    "C06_info_answers"
   ],
   "note": "Full statement; info() of an empty name / empty region raises, which the theorems exclude explicitly."
  },
  {
   "property": "C07",
   "status": "proved",
   "theorems": [
    "C07_scalar_last_write_wins"
   ],
   "note": "Full statement, all affine units."
  },
  {
   "property": "C08",
   "status": "proved",
   "theorems": [
    "C08_generic_last_write_wins"
   ],
   "note": "Full statement."
  },
  {
   "property": "C09",
   "status": "partial",
   "theorems": [
    "C09_empty_refuted",
    "C09_empty_iff_no_write_partial",
    "C09_write_ends_empty",
    "C09_reads_raise_iff_empty"
   ],
   "note": "Refuted for timeseries: the values setter marks the parameter as written before it checks the length or converts. Proved: exact equivalence for scalar/generic parameters; for every type a successful write ends emptiness, and reads raise ParameterEmptyError exactly when the parameter reports empty."
  },
  {
   "property": "C10",
   "status": "proved",
   "theorems": [
    "C10_version_counts_writes"
   ],
   "note": "Full statement: version equals the number of data-changing calls in the history."
  },
  {
   "property": "C11",
   "status": "proved",
   "theorems": [
    "C11_writes_are_isolated"
   ],
   "note": "Full statement, all write and read operations including handles and locks."
  },
  {
   "property": "C12",
   "status": "proved",
   "theorems": [
    "C12_aggregated_scalar_is_sum_of_leaves",
    "C12_leaf_holds_what_its_views_read"
   ],
   "note": "Full statement for scalar leaves; the code does not check the leaf type, so the theorem assumes it."
  },
  {
   "property": "C13",
   "status": "partial",
   "theorems": [
    "C13_covers_current_leaves_refuted",
    "C13_leaves_fixed_partial"
   ],
   "note": "Refuted: a grandchild can be added below an inner node nobody has viewed after the ancestor's view was made. Proved when all nodes of the subtree have been viewed."
  },
  {
   "property": "C14",
   "status": "partial",
   "theorems": [
    "C14_integer_cache_refuted",
    "C14_rejected_write_refuted",
    "C14_up_to_date_partial",
    "C14_same_time_points_partial"
   ],
   "note": "Does not hold in general (integer-dtype cache; rejected write stays visible). Proved for every history in which views of the parameter are not locked, get no integer array and no InsufficientDataError write; corollary on equal time points in physical quantities."
  },
  {
   "property": "C15",
   "status": "partial",
   "theorems": [
    "C15_always_fresh_refuted",
    "C15_first_read_partial",
    "C15_later_reads_repeat"
   ],
   "note": "Does not hold: an aggregated view caches its first successful read for ever (C15_later_reads_repeat, all histories). Proved: first read is the sum over the leaves."
  },
  {
   "property": "C16",
   "status": "partial",
   "theorems": [
    "C16_no_effect_refuted",
    "C16_raised_for_wrong_length",
    "C16_no_effect_partial",
    "C16_only_flag_partial"
   ],
   "note": "Error is raised exactly for wrong lengths (leaf parameters). 'No effect' fails on never-written parameters (they become non-empty); proved when the parameter has been written, and that only the flag changes otherwise."
  },
  {
   "property": "C17",
   "status": "partial",
   "theorems": [
    "C17_integer_item_refuted",
    "C17_item_is_whole_write_partial"
   ],
   "note": "Fails for integer arrays (item truncated); proved for all histories without integer arrays on that view."
  },
  {
   "property": "C18",
   "status": "partial",
   "theorems": [
    "C18_stale_array_refuted",
    "C18_undoes_write_refuted",
    "C18_coherent_without_writes_partial",
    "C18_indexing_partial"
   ],
   "note": "Fails: a held array is stale after another view's write, and item assignment through it undoes that write. Proved without intervening writes, and for indexing in all states."
  },
  {
   "property": "C19",
   "status": "partial",
   "theorems": [
    "C19_lock_first_refuted",
    "C19_unlock_fresh_refuted",
    "C19_own_write_lost_refuted",
    "C19_locking_batches_partial"
   ],
   "note": "Fails when the view is locked before its first read or is stale. Proved when the view has been read before locking and nobody else acts."
  },
  {
   "property": "C20",
   "status": "partial",
   "theorems": [
    "C20_lock_unlock_refuted",
    "C20_locked_is_quiet_partial",
    "C20_lock_unlock_partial"
   ],
   "note": "Fails: unlock always writes back, so a stale view destroys newer data. Proved: a locked view is quiet; lock/unlock after a read keeps data (writer, or same time points without NaN)."
  },
  {
   "property": "C21",
   "status": "partial",
   "theorems": [
    "C21_unknown_unit_refuted",
    "C21_generic_of_parent_refuted",
    "C21_no_periods_refuted",
    "C21_no_effect_partial",
    "C21_data_kept_partial"
   ],
   "note": "Fails for first requests (unknown unit, generic of a parent, average with no time points). Proved no effect for known parameters, invalid enums and Read/Written/Type errors; data and views are kept in every case."
  },
  {
   "property": "C22",
   "status": "partial",
   "theorems": [
    "C22_repeated_request_succeeds",
    "C22_always_raises_refuted",
    "C22_raises_partial",
    "C22_view_is_useless_partial"
   ],
   "note": "Fails: the second generic() request on a parent succeeds (C22_repeated_request_succeeds, all states). Proved: the first raises, and the view obtained is useless."
  },
  {
   "property": "C23",
   "status": "proved",
   "theorems": [
    "C23_average_identity"
   ],
   "note": "All strictly increasing time points, n>=3, every extrapolation type, both directions of the converter."
  },
  {
   "property": "C24",
   "status": "proved",
   "theorems": [
    "C24_point_identity"
   ],
   "note": "As C23, for points."
  },
  {
   "property": "C25",
   "status": "proved",
   "theorems": [
    "C25_integral_conserved"
   ],
   "note": "Both directions of the converter; also shows the converter exists and the result has the right length."
  },
  {
   "property": "C26",
   "status": "proved",
   "theorems": [
    "C26_interpolant",
    "C26_neighbours",
    "C26_between",
    "C26_linear_data"
   ],
   "note": "The line formula, existence of neighbours, boundedness and exactness at the points and for linear data."
  },
  {
   "property": "C27",
   "status": "partial",
   "theorems": [
    "C27_extrapolation_refuted",
    "C27_none_refuted",
    "C27_none_partial",
    "C27_none_from",
    "C27_others_succeed_partial",
    "C27_constant_points",
    "C27_constant_averages",
    "C27_linear_points_left",
    "C27_linear_points_right",
    "C27_linear_averages_left",
    "C27_linear_averages_right",
    "C27_inside_points",
    "C27_inside_averages"
   ],
   "note": "Refuted twice: TimeseriesConverter.__init__ raises InsufficientDataError whenever source[0] > target[1], also for CONSTANT/LINEAR, and in the convert_to direction also when data is sufficient. Everything else is proved for converters that can be made, NONE including construction for convert_from."
  },
  {
   "property": "C28",
   "status": "proved",
   "theorems": [
    "C28_refine_lossless"
   ],
   "note": "Points and averages, every extrapolation type, through convert_from and convert_to of one converter."
  },
  {
   "property": "C29",
   "status": "proved",
   "theorems": [
    "C29_read_length",
    "C29_converted_length",
    "C29_declared_length"
   ],
   "note": "Conversion level here; reading through views: C29_read_length."
  },
  {
   "property": "C30",
   "status": "partial",
   "theorems": [
    "C30_resolution_refuted",
    "C30_common_resolution_partial"
   ],
   "note": "Refuted: the converter takes the raw integers of the datetime64 arrays, so resolutions s and D are confused. Proved: invariance when source and target have the same resolution."
  },
  {
   "property": "C31",
   "status": "partial",
   "theorems": [
    "C31_equidistant_refuted",
    "C31_equidistant_partial"
   ],
   "note": "Refuted for periods that are not whole seconds (result dtype is s). Proved for whole seconds within 2^52 s of 1970, with numpy's linspace modelled in binary64 (Flocq)."
  },
  {
   "property": "C32",
   "status": "partial",
   "theorems": [
    "C32_last_year_refuted",
    "C32_in_year_partial",
    "C32_monotone_partial",
    "C32_integer_years"
   ],
   "note": "Refuted for 9999 <= y < 10000 (datetime(10000,1,1) raises ValueError although integer year 9999 works). Proved for all binary64 1 <= y < 9999."
  },
  {
   "property": "C33",
   "status": "proved",
   "theorems": [
    "C33_linear",
    "C33_constant",
    "C33_units_commute"
   ],
   "note": "Linearity, constants and hence commuting with affine unit conversion in both directions."
  },
  {
   "property": "C34",
   "status": "proved",
   "theorems": [
    "C34_converter_is_physical",
    "C34_standard_registry"
   ],
   "note": "All affine unit relations (scale non-zero); the standard registry of units.py meets the condition."
  },
  {
   "property": "C35",
   "status": "proved",
   "theorems": [
    "C35_inverse",
    "C35_reverse",
    "C35_chain"
   ],
   "note": "Inverse both ways, reverse converter agrees with convert_to, and chains compose."
  },
  {
   "property": "C36",
   "status": "proved",
   "theorems": [
    "C36_converter",
    "C36_view",
    "C36_aggregate"
   ],
   "note": "Exact characterisation of the two errors for converters, for views of parameters without children, and success of aggregated scalar views."
  },
  {
   "property": "C37",
   "status": "partial",
   "theorems": [
    "C37_defined_refuted",
    "C37_sulfur_unusable",
    "C37_names_partial",
    "C37_conversion_partial",
    "C37_any_table"
   ],
   "note": "Refuted for sulfur: the entry \"S\": [\"sulfur\"] refers to an undefined unit, so S, SO2, SOx and all their aliases and joint forms are unusable (C37_defined_refuted, C37_sulfur_unusable). Proved for all other gases of the table with all names, joint forms and prefixes; C37_any_table is the statement for an arbitrary gas table."
  },
  {
   "property": "C38",
   "status": "proved",
   "theorems": [
    "C38_species_to_CO2",
    "C38_same_form",
    "C38_CO2_to_species",
    "C38_between_species",
    "C38_rejected_without_context",
    "C38_empty_cell_is_nan",
    "C38_unlisted_gas_rejected"
   ],
   "note": "All metrics and species of the CSV table, all unit strings built from a mass or mass-per-time form around the species. Empty cells of the table give NaN instead of an error (C38_empty_cell_is_nan)."
  },
  {
   "property": "C39",
   "status": "partial",
   "theorems": [
    "C39_before_use_refuted",
    "C39_once_refuted",
    "C39_once_partial",
    "C39_before_use_partial"
   ],
   "note": "step() or reset() before reset_stepping()/run() uses the model uninitialised, and an initialisation that raised is repeated (both refuted on the DICE adapter). Proved for every model and every call sequence: a returning initialisation is the last one and precedes input and run-parameter initialisation; and precedes every use provided bare reset/run/step calls follow some other call that returned."
  },
  {
   "property": "C40",
   "status": "proved",
   "theorems": [
    "C40_stable",
    "C40_unknown",
    "C40_failed"
   ],
   "note": "load_adapter over all sequences of loads and import outcomes."
  },
  {
   "property": "C41",
   "status": "proved",
   "theorems": [
    "C41_user",
    "C41_numeric_default",
    "C41_generic_default",
    "C41_no_default"
   ],
   "note": "All user-written subsets and values, any user units; defaults of both tables."
  },
  {
   "property": "C42",
   "status": "proved",
   "theorems": [
    "C42_bounds",
    "C42_bounds_of_run"
   ],
   "note": "Bounds as read by the user after the steps / the run. at_least: a NaN bound or value counts as in Python's max(lower, x); the tocean upper bound needs ordered bounds (the lower bound is applied last)."
  },
  {
   "property": "C43",
   "status": "proved",
   "theorems": [
    "C43_carbon_conserved"
   ],
   "note": "Hypothesis: the pools after each step are above their lower bounds (then the bounds did nothing)."
  },
  {
   "property": "C44",
   "status": "proved",
   "theorems": [
    "C44_equilibrium"
   ],
   "note": "For all parameters and step counts."
  },
  {
   "property": "C45",
   "status": "proved",
   "theorems": [
    "C45_stepping_gives_run",
    "C45_run_gives_stepping",
    "C45_exceptions"
   ],
   "note": "Both directions and the exceptions: run() returns iff reset and all steps return, with the same results; if run() raises, reset or a step raises the same exception."
  },
  {
   "property": "C46",
   "status": "proved",
   "theorems": [
    "C46_run_again",
    "C46_run_many_times",
    "C46_run_after_steps",
    "C46_uninitialised"
   ],
   "note": "Runs on the same adapter, any number of times; after a stepped run left at any point; and independence of the content of new arrays and of left-over attributes (same two parameter sets and views). Versions of parameters may differ; a stop time changed between runs is outside the hypotheses (the re-request of the series then fails, DESIGN.md)."
  },
  {
   "property": "C47",
   "status": "partial",
   "theorems": [
    "C47_current_time_partial",
    "C47_last_point_refuted"
   ],
   "note": "The current time is proved in general; the clause about the last time point for times less than 2^53 ticks apart. Beyond that numpy divides tick counts in floating point and the last step can be after the stop time (C47_last_point_refuted: nanoseconds)."
  },
  {
   "property": "C48",
   "status": "partial",
   "theorems": [
    "C48_partition",
    "C48_selection",
    "C48_empty_refuted",
    "C48_none_refuted"
   ],
   "note": "Proved for every frame whose data and metadata fit together whenever filtering succeeds: keep=True and keep=False split the points by one test of metadata and time; C48_selection says which points pass, for plain patterns and calendar fields. Refuted in general: filtering a frame without data or by a column containing None is a TypeError."
  },
  {
   "property": "C49",
   "status": "partial",
   "theorems": [
    "C49_compose",
    "C49_idempotent",
    "C49_order",
    "C49_empty_refuted",
    "C49_level_refuted"
   ],
   "note": "Proved: filters compose (no level separated from its variable, first result not empty), are idempotent, and the order of keywords is irrelevant. Refuted: after an empty result the second filter raises; level and variable given separately mean something else."
  },
  {
   "property": "C50",
   "status": "partial",
   "theorems": [
    "C50_append",
    "C50_single",
    "C50_accepts",
    "C50_duplicates",
    "C50_order",
    "C50_fill_refuted",
    "C50_successive_refuted"
   ],
   "note": "df_append/append: metadata columns and times are the unions, and every combination of metadata and time carries the mean of all points given for it (one point: itself); acceptance, duplicate_msg and independence of the order of the frames. Refuted: the number -999 as a metadata value is taken for a missing one (data mislabelled and mixed); successive appends of three frames depend on their order (mean of means). Row order of the result and frames without data are not modelled."
  },
  {
   "property": "C51",
   "status": "partial",
   "theorems": [
    "C51_renames",
    "C51_accepts",
    "C51_inplace_refuted"
   ],
   "note": "Proved: exactly the listed values of the listed columns change; accepted exactly if all columns exist and the new metadata are unique, otherwise ValueError. Refuted: with inplace=True a failing rename leaves a changed frame with duplicate timeseries."
  },
  {
   "property": "C52",
   "status": "partial",
   "theorems": [
    "C52_converts",
    "C52_physical",
    "C52_accepts",
    "C52_missing_refuted",
    "C52_inplace_refuted"
   ],
   "note": "Proved for all filters, units and converters: exactly the selected timeseries (those with a value that passes) are converted and relabelled; the quantity is unchanged without context. Refuted: a selected timeseries without values keeps its unit; a failing in-place conversion leaves earlier units converted."
  },
  {
   "property": "C53",
   "status": "partial",
   "theorems": [
    "C53_given",
    "C53_given_resample",
    "C53_given_converts",
    "C53_converts_partial",
    "C53_accepts_partial",
    "C53_succeeds_partial",
    "C53_resample_partial",
    "C53_mixed_refuted",
    "C53_missing_refuted"
   ],
   "note": "Frames whose timeseries all have one type (given or guessed) are converted as C23-C33 say, each by its own type; other metadata are kept. Refuted: frames with both types always raise since the extended target times leak into the second group; timeseries with a NaN type lose all values. The oracle `shared` says whether pandas lets the in-place guess reach the metadata; C53_given: it is irrelevant for frames whose types are given, so C53, C96, C98 and C99 hold for both values there."
  },
  {
   "property": "C54",
   "status": "partial",
   "theorems": [
    "C54_lossless_partial",
    "C54_kept_partial",
    "C54_depth_refuted",
    "C54_nested_refuted",
    "C54_short_refuted"
   ],
   "note": "Proved for frames whose regions are \"World\" or directly below it (C54_lossless_partial): converting to an empty parameter set and back gives the same timeseries, values, given types and other metadata.  C54_kept_partial: for deeper regions exactly the near ones come back; C54_depth_refuted shows the silent loss.  C54_nested_refuted and C54_short_refuted: a variable below another in the same region, or fewer than three times, always raise.  Numbers are real; values that are NaN are outside `storable`."
  },
  {
   "property": "C55",
   "status": "partial",
   "theorems": [
    "C55_plain_patterns",
    "C55_literal_partial",
    "C55_literal_refuted"
   ],
   "note": "Exact description of what plain patterns match (C55_plain_patterns); the literal property holds for one-line values and patterns without [ ? ^ { \\; refuted otherwise (unescaped characters, newline, trailing newline)."
  },
  {
   "property": "C56",
   "status": "partial",
   "theorems": [
    "C56_levels_partial",
    "C56_repeated_text_refuted"
   ],
   "note": "Proved for patterns 'text*' when the text does not occur again in the value; refuted when it does (str.replace removes all occurrences)."
  },
  {
   "property": "C57",
   "status": "partial",
   "theorems": [
    "C57_numbers",
    "C57_months_partial",
    "C57_weekdays_partial",
    "C57_list_kept_partial",
    "C57_two_ranges_refuted",
    "C57_other_refuted"
   ],
   "note": "Number lists proved; names with at most one range proved to be the exact union; two or more ranges always raise (refuted), mixed styles raise, the caller's list is modified."
  },
  {
   "property": "C58",
   "status": "partial",
   "theorems": [
    "C58_strides_refuted",
    "C58_clock_refuted",
    "C58_ticks_refuted",
    "C58_refuted",
    "C58_range",
    "C58_cover_partial",
    "C58_ticks",
    "C58_not_increasing"
   ],
   "note": "False in general: strides greater than 1, differing times of day and ticks not dividing the span stop before the end (C58_strides/clock/ticks_refuted). C58_range says exactly which instants are generated; C58_cover_partial gives the property for stride 1 and equal time of day. Semi-month, week-of-month and sub-second rules are not modelled (combined rules: C101)."
  },
  {
   "property": "C59",
   "status": "partial",
   "theorems": [
    "C59_centres",
    "C59_accepts",
    "C59_default_refuted"
   ],
   "note": "Proved for all frames for which a result is returned, with sufficient conditions for one. Missing metadata and an empty reference period are not modelled (EInvalid). Refuted: without append_str a reference period given by a single number raises TypeError (v[0])."
  },
  {
   "property": "C60",
   "status": "proved",
   "theorems": [
    "C60_split_undoes_join",
    "C60_join_undoes_split",
    "C60_one_string",
    "C60_one_sequence",
    "C60_interchangeable",
    "C60_different_parameters"
   ],
   "note": "Splitting and joining at | are inverse; each sequence has one string and each string one sequence of |-free components; calls (and whole histories of calls) differing only in writing names as strings or sequences of non-empty |-free components behave identically in every state; different sequences denote different parameters. Examples show why components with | and empty components are excluded."
  },
  {
   "property": "C61",
   "status": "partial",
   "theorems": [
    "C61_arrays",
    "C61_parameters",
    "C61_asarray_refuted",
    "C61_asarray_written_refuted",
    "C61_generic_refuted"
   ],
   "note": "Proved for every history of calls and direct array writes over timeseries views (arrays passed as time points or values, arrays computed from view.values), with a heap model. Full statement is false for np.asarray(view.values), which is the cache of the view itself (C61_asarray_refuted, C61_asarray_written_refuted), and for arrays assigned to generic parameters (C61_generic_refuted); even then no timeseries parameter changes at once (C61_parameters). Not modelled: slices of view.values."
  },
  {
   "property": "C62",
   "status": "partial",
   "theorems": [
    "C62_by_name",
    "C62_by_unit",
    "C62_total_refuted"
   ],
   "note": "Exact characterisation by name and by unit; refuted totality: a numeric unit raises AttributeError."
  },
  {
   "property": "C63",
   "status": "proved",
   "theorems": [
    "C63_progress"
   ],
   "note": "Progress of the DICE model: under the listed conditions reset, every step up to the last time point and run() return normally. Exact real arithmetic (Coq's R); floating-point overflow is not modelled."
  },
  {
   "property": "C64",
   "status": "proved",
   "theorems": [
    "C64_initial_values",
    "C64_equations"
   ],
   "note": "The exogenous forcing follows the code: float * timedelta64 is truncated to whole ticks (other_forcing)."
  },
  {
   "property": "C65",
   "status": "proved",
   "theorems": [
    "C65_calendar_fields",
    "C65_arrays",
    "C65_empty_refused"
   ],
   "note": "Fields computed as in CPython; years outside 1..9999 not represented by datetime objects are not modelled."
  },
  {
   "property": "C66",
   "status": "partial",
   "theorems": [
    "C66_aligned",
    "C66_arrays",
    "C66_arrays_accepts",
    "C66_set_meta",
    "C66_empty_refuted",
    "C66_index_partial",
    "C66_index_refuted"
   ],
   "note": "Proved for every sequence of construction, filtering, renaming, set_meta without index, setting times, unit conversion, appending, interpolation and resampling (also when an in-place operation fails). set_meta with an index sorts the metadata rows by the key: every timeseries keeps its own metadata by label (C66_index_partial) but the order no longer matches the data, and timeseries() then gives values with the metadata of another series (C66_index_refuted). A list set on a frame without timeseries gives metadata without data (C66_empty_refuted)."
  },
  {
   "property": "C67",
   "status": "partial",
   "theorems": [
    "C67_statistics",
    "C67_accepts",
    "C67_half",
    "C67_determined",
    "C67_missing_refuted"
   ],
   "note": "Exact characterisation. Refuted: timeseries with missing metadata in a remaining column are silently left out (pandas groupby)."
  },
  {
   "property": "C68",
   "status": "partial",
   "theorems": [
    "C68_rebuild",
    "C68_names_refuted"
   ],
   "note": "Proved for frames whose other metadata names are not understood as times; a metadata column with such a name (for example \"1\" or \"may\") makes rebuilding fail (C68_names_refuted)."
  },
  {
   "property": "C69",
   "status": "partial",
   "theorems": [
    "C69_points",
    "C69_accepts",
    "C69_missing_refuted"
   ],
   "note": "Proved for rows with complete metadata; rows with a missing metadata value are silently left out by pivot_table (C69_missing_refuted)."
  },
  {
   "property": "C70",
   "status": "partial",
   "theorems": [
    "C70_column",
    "C70_unknown",
    "C70_table",
    "C70_years",
    "C70_read_back_partial",
    "C70_others_kept",
    "C70_data_kept",
    "C70_accepted_partial",
    "C70_time",
    "C70_time_kept",
    "C70_data_times",
    "C70_time_refuted",
    "C70_year_refuted"
   ],
   "note": "Proved for every sequence of assignments on frames with timeseries. Refuted twice: refused times are read back by df['time'] and time_points although the data keep theirs (C70_time_refuted); metadata called 'year' is accepted but df['year'] still gives calendar years (C70_year_refuted). On frames without timeseries an assigned list creates metadata without data (C66_empty_refuted)."
  },
  {
   "property": "C71",
   "status": "partial",
   "theorems": [
    "C71_years_partial",
    "C71_fractions",
    "C71_instants",
    "C71_again",
    "C71_mixed",
    "C71_texts_refuted",
    "C71_last_year_refuted"
   ],
   "note": "Arrays of one kind are proved. False for arrays of texts that mix years and dates: a year then means the day of the run in that year (C71_mixed is exact; C71_texts_refuted). Year 9999 as float is an error, as text the day of the run (C71_last_year_refuted)."
  },
  {
   "property": "C72",
   "status": "proved",
   "theorems": [
    "C72_values"
   ],
   "note": "Refinement: MemoryStore.v (arrays in memory) against Core.v (arrays as values, Spec_MemoryStore.v). np.asarray(view.values), which C61 shows to be shared, and generic parameters are not calls of these programs."
  },
  {
   "property": "C73",
   "status": "proved",
   "theorems": [
    "C73_conversion",
    "C73_mean_kept",
    "C73_readable"
   ],
   "note": "Proved for the histories of C14_up_to_date_partial (no locked views, integer arrays or refused writes on the parameter). Stronger than C25 on time conversion: any pair of common time points, no equal ends needed."
  },
  {
   "property": "C74",
   "status": "proved",
   "theorems": [
    "C74_same_curve"
   ],
   "note": "Proved for the same histories."
  },
  {
   "property": "C75",
   "status": "proved",
   "theorems": [
    "C75_units_are_labels",
    "C75_offset_matters"
   ],
   "note": "Simulation relation between the two stores, preserved by every call. Integer arrays (which truncate) and time points that do not increase are excluded. C75_offset_matters shows that the exclusion of units with offset is needed."
  },
  {
   "property": "C76",
   "status": "proved",
   "theorems": [
    "C76_dice_in_other_units"
   ],
   "note": "Proved by a simulation of the whole adapter: both adapters see their own units, in which the values are equal; the stores are related as in C75. Junk returned by np.empty is taken to be the same for both."
  },
  {
   "property": "C77",
   "status": "proved",
   "theorems": [
    "C77_more_emissions"
   ],
   "note": "Real arithmetic. The conditions of the physical range are hypotheses (record physical); the default parameters meet them (C77_instance)."
  },
  {
   "property": "C78",
   "status": "proved",
   "theorems": [
    "C78_causal"
   ],
   "note": "No condition on the parameters."
  },
  {
   "property": "C79",
   "status": "proved",
   "theorems": [
    "C79_sensitivity",
    "C79_doubling"
   ],
   "note": "Real arithmetic. The rate is given by the parameters only, the same for all runs; the default parameters meet the hypotheses."
  },
  {
   "property": "C80",
   "status": "proved",
   "theorems": [
    "C80_forgets"
   ],
   "note": "Real arithmetic; emissions and all other parameters arbitrary."
  },
  {
   "property": "C81",
   "status": "proved",
   "theorems": [
    "C81_answers",
    "C81_state"
   ],
   "note": "Proved for calls through views requested before; the requests themselves are not part of the schedules."
  },
  {
   "property": "C82",
   "status": "proved",
   "theorems": [
    "C82_unnoticed"
   ],
   "note": "Model: Core.v. The observer must hold views already (requesting a view marks the parameter as read, which freezes its children, and is therefore noticed; see C03) and nobody else may use the same view objects (the caches belong to the view). Others may do anything else, also request views."
  },
  {
   "property": "C83",
   "status": "proved",
   "theorems": [
    "C83_spreads"
   ],
   "note": "Model: Dice.v over Core.v, numbers are reals. The state at the end of emissions is any state whose pools are between lo and hi times their equilibrium, where the lower bounds of the pools are at most lo times the equilibrium."
  },
  {
   "property": "C84",
   "status": "proved",
   "theorems": [
    "C84_commitment"
   ],
   "note": "Model: Dice.v over Core.v, numbers are reals (log2 is the real logarithm). The bounds of the temperatures must admit the limit; other forcing must be constant after the end of emissions (it is after forcoth_saturation_time)."
  },
  {
   "property": "C85",
   "status": "proved",
   "theorems": [
    "C85_linear"
   ],
   "note": "Model: Dice.v over Core.v, numbers are reals. The bounds must not be reached in any of the three runs (a bound that is reached adds carbon, which is not linear)."
  },
  {
   "property": "C86",
   "status": "proved",
   "theorems": [
    "C86_selected",
    "C86_refused"
   ],
   "note": "CPython's rules for slices and numpy's for lists and masks, specified independently by membership and order."
  },
  {
   "property": "C87",
   "status": "proved",
   "theorems": [
    "C87_list",
    "C87_item",
    "C87_no_item",
    "C87_set",
    "C87_no_set",
    "C87_iadd"
   ],
   "note": "For every handle obtained by slices, after every history of calls on the set and on handles. Items with an index outside raise IndexError."
  },
  {
   "property": "C88",
   "status": "proved",
   "theorems": [
    "C88_one_by_one",
    "C88_refused"
   ],
   "note": "Equivalence under all later sequences of calls; uses that the numbers of versions cannot be observed (Versions.v). Empty selections are excluded: they write the cache once, one by one nothing is written. Arrays with NaN assigned to integer arrays are not modelled."
  },
  {
   "property": "C89",
   "status": "partial",
   "theorems": [
    "C89_stale_refuted",
    "C89_lost_refuted"
   ],
   "note": "Refuted for lists and masks: the part is a copy that does not follow the view; assigning to it does not reach the view but writes the view's cache back, undoing newer writes of others. For slices the statement is C87."
  },
  {
   "property": "C90",
   "status": "proved",
   "theorems": [
    "C90_emissions",
    "C90_readable",
    "C90_same_periods"
   ],
   "note": "Times are whole seconds below 2^52 in absolute value. The parameter set is empty before the frame is stored; between storing and the reset the user may do anything but write to Emissions|CO2 of World (making views, locking and reading are allowed)."
  },
  {
   "property": "C91",
   "status": "proved",
   "theorems": [
    "C91_results",
    "C91_run",
    "C91_again",
    "C91_frame_to_frame"
   ],
   "note": "The outputs must be empty before the reset (a second reset requests the same series again; with another time grid the views would convert). Values that are NaN are excluded; C91_frame_to_frame derives that all values are numbers from numbers as inputs. Times are whole seconds held exactly by floating point numbers. Arithmetic on reals."
  },
  {
   "property": "C92",
   "status": "proved",
   "theorems": [
    "C92_carbon",
    "C92_frames"
   ],
   "note": "Two theorems: for the views of the adapter, and from data frame to data frame. The carbon of one period is the value of carbon_emitted (Spec_Dice.v), which for original_rounding uses the factor 3.666 of the code."
  },
  {
   "property": "C93",
   "status": "proved",
   "theorems": [
    "C93_alone",
    "C93_orders"
   ],
   "note": "Proved for histories from the creation of the parameter set. What a user sees of views are their numbers in the order in which the user obtained them, not the cells of the model. Users may share parents of parameters and regions but not a parameter or its ancestors; info without a name is excluded, because it tells whether somebody has created the region (example C93_prying). Example C93_crossing shows that the condition on names is needed."
  },
  {
   "property": "C94",
   "status": "proved",
   "theorems": [
    "C94_rejoined",
    "C94_whole"
   ],
   "note": "C94_rejoined: the parts can be appended whatever duplicate_msg is, with the columns and values of the frame; C94_whole: if one part is empty the other one has all points."
  },
  {
   "property": "C95",
   "status": "proved",
   "theorems": [
    "C95_sequences",
    "C95_no_unit",
    "C95_back"
   ],
   "note": "C95_sequences: any calls, including failing ones; C95_no_unit; C95_back: there and back. Contexts (metric conversions) are not part of it (C38 says what they do)."
  },
  {
   "property": "C96",
   "status": "partial",
   "theorems": [
    "C96_own_times",
    "C96_more_times",
    "C96_last_period_refuted"
   ],
   "note": "C96_own_times, C96_more_times. C96_last_period_refuted: for averages it does not suffice that the target times have the same first and last time, because the last period gets as long as the one before it. As in C53, assuming that pandas lets guessed types reach the metadata; not needed if all types are given (C53_given)."
  },
  {
   "property": "C97",
   "status": "proved",
   "theorems": [
    "C97_points",
    "C97_averages"
   ],
   "note": "An evaluator on rational numbers (Spec_Exact.v: trapezoids, no integrals, no real numbers, no definition shared with the model) gives exactly the values of every successful conversion; it also makes the model executable, and Tests_Time.v uses it to check the model against the tables of the repository tests."
  },
  {
   "property": "C98",
   "status": "proved",
   "theorems": [
    "C98_points",
    "C98_kept",
    "C98_averages",
    "C98_conversion"
   ],
   "note": "The types are taken to be guessed into the metadata (shared = true), as in C53 and C96; not needed if all types are given (C53_given_resample)."
  },
  {
   "property": "C99",
   "status": "proved",
   "theorems": [
    "C99_rescaled",
    "C99_fails",
    "C99_filter",
    "C99_order_needed"
   ],
   "note": "Numbers are reals; timeseries with missing values cannot be interpolated in the model (an error). C99_order_needed shows why medians and quantiles need a positive scale."
  },
  {
   "property": "C100",
   "status": "proved",
   "theorems": [
    "C100_quantiles",
    "C100_within",
    "C100_extremes",
    "C100_raised"
   ],
   "note": "Numbers are reals. Rows with missing metadata are left out by process_over (C67_missing_refuted), so the values of such keys are not considered in C100_extremes."
  },
  {
   "property": "C101",
   "status": "proved",
   "theorems": [
    "C101_sum",
    "C101_order",
    "C101_range"
   ],
   "note": "C101_sum characterises in both directions which rules are ticks and how long they are; C101_order and C101_range follow. Rules with parts of seconds, fractions, blanks and signs within are not modelled."
  },
  {
   "property": "C102",
   "status": "proved",
   "theorems": [
    "C102_conversion",
    "C102_interpolate",
    "C102_resample",
    "C102_calendar"
   ],
   "note": "Equalities of results without hypotheses (the integral of quad is shifted without assuming integrability). C102_calendar: the clause on calendar rules is sharp. Numbers are reals: numpy converts the times to float64 when interpolating, so very large shifts lose precision in the code."
  },
  {
   "property": "C103",
   "status": "partial",
   "theorems": [
    "C103_order",
    "C103_within",
    "C103_frame",
    "C103_extrapolation_refuted",
    "C103_averages_refuted"
   ],
   "note": "Proved for points (C103_order, C103_within, and C103_frame for the timeseries of data frames) whenever the extrapolation is not linear or the target times are inside the source times. Refuted: linear extrapolation leaves the range, and averages overshoot even inside the data, so that emissions that are never negative can become negative."
  },
  {
   "property": "C104",
   "status": "proved",
   "theorems": [
    "C104_rules",
    "C104_all"
   ],
   "note": "C104_rules characterises in both directions which texts are rules of the calendar and what they mean; C104_all joins it with C101 to all rules that are understood. The names are those of the modelled syntax; business days and other offsets of pandas are not modelled."
  },
  {
   "property": "C105",
   "status": "proved",
   "theorems": [
    "C105_range",
    "C105_frame",
    "C105_given"
   ],
   "note": "C105_range holds for all rules and strides; C105_frame uses it with C96, assuming as in C53 that pandas lets guessed types reach the metadata. C105_given needs no such assumption if the types are given."
  },
  {
   "property": "C106",
   "status": "proved",
   "theorems": [
    "C106_match",
    "C106_ends",
    "C106_filter"
   ],
   "note": "C106_match and C106_ends relate the search to a declarative semantics of the syntax trees, C106_filter carries this to pattern_match with regexp=True. Python's re is an external library: that it gives these meanings to expressions is part of the trusted base, and the parser re_compile is tested by examples and proved only for plain patterns (C55)."
  }
 ]
}