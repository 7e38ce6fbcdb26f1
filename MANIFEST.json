{
 "claims": [
  {
   "property": "C01",
   "status": "proved",
   "theorems": [
    "C01_valid_data_iff_documented",
    "C01_untyped_key_fields"
   ],
   "note": "The date parser (dateutil/pandas) is an arbitrary function."
  },
  {
   "property": "C02",
   "status": "proved",
   "theorems": [
    "C02_accepted_calls",
    "C02_stored_types_stable",
    "C02_min_max_ordered",
    "C02_datetime_ignores_rest",
    "C02_no_number_ignores_bounds"
   ],
   "note": ""
  },
  {
   "property": "C03",
   "status": "proved",
   "theorems": [
    "C03_report_is_exactly_the_failing_cells"
   ],
   "note": ""
  },
  {
   "property": "C04",
   "status": "proved",
   "theorems": [
    "C04_bounded_report",
    "C04_nonpositive_bound_rejected",
    "C04_positive_bound_accepted"
   ],
   "note": ""
  },
  {
   "property": "C05",
   "status": "proved",
   "theorems": [
    "C05_replace_exact",
    "C05_no_typed_data_field_fails_afterwards",
    "C05_second_call_changes_nothing"
   ],
   "note": ""
  },
  {
   "property": "C06",
   "status": "proved",
   "theorems": [
    "C06_replace_atomic",
    "C05_replace_exact"
   ],
   "note": ""
  },
  {
   "property": "C07",
   "status": "proved",
   "theorems": [
    "C07_report_is_exactly_the_orphans"
   ],
   "note": "Mappings with pairwise distinct foreign fields; for the others see C11."
  },
  {
   "property": "C08",
   "status": "proved",
   "theorems": [
    "C08_removal_keeps_largest_consistent"
   ],
   "note": ""
  },
  {
   "property": "C09",
   "status": "proved",
   "theorems": [
    "C09_removal_without_propagation"
   ],
   "note": ""
  },
  {
   "property": "C10",
   "status": "proved",
   "theorems": [
    "C10_clean_data_untouched",
    "C10_removal_idempotent"
   ],
   "note": ""
  },
  {
   "property": "C11",
   "status": "partial",
   "theorems": [
    "C11_every_mapped_pair_refuted",
    "C11_only_effective_pairs_enforced"
   ],
   "note": "REFUTED by the code: when two native fields map to one foreign field only the last pair is enforced. C11_only_effective_pairs_enforced says exactly what is enforced."
  },
  {
   "property": "C12",
   "status": "proved",
   "theorems": [
    "C12_pandat_removal_keeps_largest_consistent",
    "C12_pandat_removal_order_independent"
   ],
   "note": "For mappings where no assignment overwrites a column still to be read (see C13)."
  },
  {
   "property": "C13",
   "status": "partial",
   "theorems": [
    "C13_pandat_report_refuted",
    "C13_pandat_report_exact"
   ],
   "note": "REFUTED by the code: with a mapping a->b, b->a the parent index is built from overwritten columns. The positive theorem excludes exactly such mappings (no_overwrite)."
  },
  {
   "property": "C14",
   "status": "partial",
   "theorems": [
    "C14_implied_keys_same_verdict_refuted",
    "C14_implied_keys_same_verdict",
    "C14_implied_keys_same_removal",
    "C14_implied_keys_terminate",
    "C14_implied_keys_closed"
   ],
   "note": "REFUTED by the code: a chain through a table whose parent has no primary key adds a foreign key with empty mapping, which every native row fails. Proved when every foreign table has a primary key."
  },
  {
   "property": "C15",
   "status": "proved",
   "theorems": [
    "C15_to_one",
    "C15_one_to"
   ],
   "note": ""
  },
  {
   "property": "C16",
   "status": "proved",
   "theorems": [
    "C16_circle_warning_exact"
   ],
   "note": ""
  },
  {
   "property": "C17",
   "status": "proved",
   "theorems": [
    "C17_postgres_order"
   ],
   "note": "Stronger than asked: also on cyclic schemas every foreign key that is not part of a circle is respected."
  },
  {
   "property": "C18",
   "status": "partial",
   "theorems": [
    "C18_sqlite_order_terminates_refuted",
    "C18_sqlite_order_never_terminates_on_circles",
    "C18_sqlite_order_acyclic"
   ],
   "note": "REFUTED by the code: any circular key, e.g. a self reference, makes the traversal recurse forever. Acyclic schemas are ordered correctly."
  },
  {
   "property": "C19",
   "status": "partial",
   "theorems": [
    "C19_non_string_parameter_refuted",
    "C19_empty_implied_key_refuted",
    "C19_schema_round_trip"
   ],
   "note": "REFUTED by the code: create_from_full_schema rejects schemas with a non-string parameter name (which add_parameter accepts) and with an empty implied foreign key. For every other reachable factory the round trip is exact."
  },
  {
   "property": "C20",
   "status": "partial",
   "theorems": [
    "C20_clone_with_generic_table_refuted",
    "C20_clone_without_generator_refuted",
    "C20_clone_predicate_on_generator_refuted",
    "C20_restricted_clone",
    "C20_full_clone"
   ],
   "note": "REFUTED by the code: cloning a subset fails when the factory has a generic table, when a generator table is left out, and when a predicate sits on a table made a generator later. Proved for all other factories. convert_dat and clone_factory=PanDatFactory are not modelled."
  },
  {
   "property": "C21",
   "status": "partial",
   "theorems": [
    "C21_rename_only_column_refuted",
    "C21_rename_parameters_column_refuted",
    "C21_add_column",
    "C21_remove_column",
    "C21_rename_column"
   ],
   "note": "REFUTED by the code: renaming removes the column first, so it fails on one-column tables and on the parameters table once there are parameters. Proved for all other columns."
  },
  {
   "property": "C22",
   "status": "partial",
   "theorems": [
    "C22_remove_parameter_refuted",
    "C22_used_factory_locked"
   ],
   "note": "REFUTED by the code: remove_parameter does not check whether the factory has been used. Every other call sequence leaves a used factory locked."
  },
  {
   "property": "C23",
   "status": "proved",
   "theorems": [
    "C23_automatic_predicate_name",
    "C23_when_accepted"
   ],
   "note": ""
  },
  {
   "property": "C24",
   "status": "partial",
   "theorems": [
    "C24_rejected_call_changes_nothing_refuted",
    "C24_last_call_wins",
    "C24_types_and_tips",
    "C24_rejected_call_changes_nothing",
    "C24_rejected_set_default_values"
   ],
   "note": "REFUTED by the code: set_default_values applies the tables before the offending one and then raises. The last accepted call wins for histories without such a rejected call; types and tooltips without proviso."
  },
  {
   "property": "C25",
   "status": "proved",
   "theorems": [
    "C25_rows_stored",
    "C25_ill_shaped_rejected",
    "C25_row_fields"
   ],
   "note": "DataFrames, Series, generator and generic tables are outside the model. Dict rows inside a list are the subject of C26."
  },
  {
   "property": "C26",
   "status": "partial",
   "theorems": [
    "C26_list_of_dicts_refuted",
    "C26_zero_defaults"
   ],
   "note": "REFUTED by the code: handle_row_dict fills missing fields with 0 instead of the declared default. True when the declared defaults are 0."
  },
  {
   "property": "C27",
   "status": "proved",
   "theorems": [
    "C27_duplicates_raise",
    "C27_rows_kept"
   ],
   "note": ""
  },
  {
   "property": "C28",
   "status": "partial",
   "theorems": [
    "C28_freeze_refuted",
    "C28_frozen_data",
    "C28_can_freeze"
   ],
   "note": "REFUTED by the code: setdefault, popitem, clear and |= are inherited from dict and not guarded, nor is setdefault on rows of a table without data fields. Every sequence of the other calls leaves a frozen object unchanged."
  },
  {
   "property": "C29",
   "status": "partial",
   "theorems": [
    "C29_links_frozen_refuted",
    "C29_freeze_skips_links"
   ],
   "note": "REFUTED by the code: the object registers _all_data_dicts, _freeze looks for _allDataDicts."
  },
  {
   "property": "C30",
   "status": "proved",
   "theorems": [
    "C30_round_trip",
    "C30_copy_after_history"
   ],
   "note": ""
  },
  {
   "property": "C31",
   "status": "partial",
   "theorems": [
    "C31_symmetric_refuted",
    "C31_reflexive_refuted",
    "C31_symmetric",
    "C31_reflexive",
    "C31_transitive",
    "C31_exact"
   ],
   "note": "REFUTED by the code: tables without a primary key are compared by length and one-sided inclusion, and a NaN cell differs from itself. Symmetric for objects without equal rows in such tables, reflexive without NaN, transitive always."
  },
  {
   "property": "C32",
   "status": "partial",
   "theorems": [
    "C32_dataless_rows_refuted",
    "C32_rows_keep_shape",
    "C32_write_read",
    "C32_other_names_raise",
    "C32_list_rows"
   ],
   "note": "REFUTED by the code: rows of tables without data fields accept any name. Proved for all other rows over histories of calls that go through TicDat's own code (update, setdefault and |= of a table store plain dicts)."
  },
  {
   "property": "C33",
   "status": "proved",
   "theorems": [
    "C33_missing_key",
    "C33_rejected_key",
    "C33_key_lengths",
    "C33_reads_do_not_insert"
   ],
   "note": ""
  },
  {
   "property": "C34",
   "status": "proved",
   "theorems": [
    "C34_numeric_flag",
    "C34_beyond_flag",
    "C34_none_flag",
    "C34_none_flag_raises",
    "C34_no_flag",
    "C34_dates"
   ],
   "note": "Writer and reader may have different histories (cached biases); dateutil parsing and float() are oracles."
  },
  {
   "property": "C35",
   "status": "partial",
   "theorems": [
    "C35_parameters_flagged_refuted",
    "C35_parameters_read",
    "C35_parameters_write"
   ],
   "note": "REFUTED by the code: with a parameters table but no add_parameter call, _infinity_flag_write_cell flags the cell while reading never unflags it, so an infinite parameter comes back as the flag. Guarded: reading never touches the table; after add_parameter writing does not flag it."
  },
  {
   "property": "C36",
   "status": "proved",
   "theorems": [
    "C36_cache_invisible",
    "C36_current_type_decides"
   ],
   "note": ""
  },
  {
   "property": "C37",
   "status": "proved",
   "theorems": [
    "C37_round_trip",
    "C37_cells_no_flag",
    "C37_cells_numeric_flag",
    "C37_cells_none_flag",
    "C37_cells_dates",
    "C37_untyped_dates"
   ],
   "note": "json.dump/json.load are taken to return scalars, lists and dicts unchanged up to the order of dict entries. The pandas formats are not modelled. Datetimes outside datetime fields come back as text (C37_untyped_dates)."
  },
  {
   "property": "C38",
   "status": "partial",
   "theorems": [
    "C38_refuted",
    "C38_conversion_refuted",
    "C38_literal_names",
    "C38_agrees"
   ],
   "note": "REFUTED by the code: find_duplicates only looks at keys spelled exactly like the tables (C38_refuted) and at unconverted cells (C38_conversion_refuted). Exact for literal names (C38_literal_names), and in agreement with create_tic_dat if in addition reading changes no cell (C38_agrees)."
  },
  {
   "property": "C39",
   "status": "partial",
   "theorems": [
    "C39_refuted",
    "C39_exact",
    "C39_one_meaning"
   ],
   "note": "REFUTED by the code: the literal for ' is ill formed and the one for '' denotes ' (C39_refuted). C39_exact: a string is written correctly iff it has no two adjacent quotes and no quotes at both ends."
  },
  {
   "property": "C40",
   "status": "partial",
   "theorems": [
    "C40_refuted",
    "C40_keyed_tables",
    "C40_listed_tables"
   ],
   "note": "REFUTED by the code: tables without a primary key are written without conversion (C40_refuted). Proved for tables with a primary key (C40_keyed_tables); C40_listed_tables says when it makes no difference."
  },
  {
   "property": "C41",
   "status": "partial",
   "theorems": [
    "C41_refuted",
    "C41_exact",
    "C41_no_semicolons"
   ],
   "note": "REFUTED by the code: the file is split at every semicolon, also inside cells, and a cell can carry a statement that is then executed (C41_refuted). Exact iff no statement has a semicolon of its own (C41_exact), in particular if names and strings have none (C41_no_semicolons). Schema statements and SQL parsing are not modelled."
  },
  {
   "property": "C42",
   "status": "partial",
   "theorems": [
    "C42_refuted",
    "C42_first_read_csv",
    "C42_first_read_xls",
    "C42_current_csv",
    "C42_current_xls"
   ],
   "note": "REFUTED by the code: the readers cache data types and defaults per field at the first read and never invalidate the cache, so settings changed later (with the sizes of the settings dictionaries unchanged or not) are ignored (C42_refuted). Proved: the settings used are exactly those at the first read of the field by that reader, hence the current ones if they never changed since."
  },
  {
   "property": "C43",
   "status": "partial",
   "theorems": [
    "C43_overwrites_refuted",
    "C43_plain_names",
    "C43_no_similar_files",
    "C43_other_files_stay",
    "C43_files_stay",
    "C43_refused"
   ],
   "note": "REFUTED by the code: the check for existing files looks for table.csv only, while write_directory writes the prettified name when case_space_table_names is set; an existing file of that name is overwritten. Proved: without prettified names, and whenever no similar file exists, nothing is overwritten."
  },
  {
   "property": "C44",
   "status": "proved",
   "theorems": [
    "C44_csv_files",
    "C44_written_names_differ",
    "C44_no_other_table",
    "C44_json_keys",
    "C44_database_tables",
    "C44_lookup",
    "C44_database_lookup"
   ],
   "note": "Strings are sequences of 8-bit characters with ASCII case mapping."
  },
  {
   "property": "C45",
   "status": "proved",
   "theorems": [
    "C45_exactly_the_variants",
    "C45_each_once",
    "C45_name_first",
    "C45_fewest_spaces_first"
   ],
   "note": ""
  },
  {
   "property": "C46",
   "status": "proved",
   "theorems": [
    "C46_sheet_read_for_its_table",
    "C46_no_other_table",
    "C46_shared_refused",
    "C46_name_check_refuted",
    "C46_written"
   ],
   "note": "Uses the documented contract of xlwt/XlsxWriter that case-insensitively equal sheet names are refused. ticdat's own name check alone is case-sensitive: C46_name_check_refuted exhibits one sheet read for two tables."
  },
  {
   "property": "C47",
   "status": "partial",
   "theorems": [
    "C47_sheet_refuted",
    "C47_pandas_exact",
    "C47_sheet_from_row_one",
    "C47_sheet_ignore"
   ],
   "note": "REFUTED by the code for Excel sheets read with openpyxl whose first rows are empty: nrows counts from min_row while rows are addressed from row 1, so the last rows are dropped. Exact for pandas, and for sheets that start in row 1."
  },
  {
   "property": "C48",
   "status": "proved",
   "theorems": [
    "C48_exact_slice",
    "C48_other_calls",
    "C48_constructor"
   ],
   "note": "The gurobipy branch is not modelled. Elements are of any type with an equivalence as ==."
  },
  {
   "property": "C49",
   "status": "proved",
   "theorems": [
    "C49_counts_exact",
    "C49_reports",
    "C49_total"
   ],
   "note": "One model for the utils, csv and Excel versions, which share the counting; the rows read are a parameter."
  },
  {
   "property": "C50",
   "status": "proved",
   "theorems": [
    "C50_flagged_rows",
    "C50_one_row_per_key",
    "C50_returns"
   ],
   "note": "pandas duplicated() is modelled from its documentation as a scan with the keys seen."
  },
  {
   "property": "C51",
   "status": "proved",
   "theorems": [
    "C51_accepted",
    "C51_renamed",
    "C51_no_collision",
    "C51_no_keyword_left",
    "C51_reversible"
   ],
   "note": "Only what the function copies (fields, defaults, data types) is part of the result; foreign keys, predicates and parameters are not copied by the code."
  },
  {
   "property": "C52",
   "status": "proved",
   "theorems": [
    "C52_bijection",
    "C52_assertion"
   ],
   "note": "Set iteration order and sorted() are arbitrary functions returning permutations (sorted may raise)."
  },
  {
   "property": "C53",
   "status": "partial",
   "theorems": [
    "C53_refuted",
    "C53_found"
   ],
   "note": "REFUTED by the code: baseConverter divides with /, so from the 26th fallback name on chars[_] raises TypeError; 26 tables whose names have no usable letters suffice (C53_refuted). With at most 25 + (usable letters of each name) renamed tables a prefix is always found (C53_found)."
  },
  {
   "property": "C54",
   "status": "proved",
   "theorems": [
    "C54_failures_exact",
    "C54_no_repeats",
    "C54_only_declared",
    "C54_maker_failure",
    "C54_raises",
    "C54_handled_never_raises"
   ],
   "note": "Predicates, makers and converters are arbitrary functions that may raise (assumed not to modify the data). For factories where no maker serves both converted and unconverted predicates; see C55."
  },
  {
   "property": "C55",
   "status": "partial",
   "theorems": [
    "C55_shared_maker_refuted",
    "C55_makers_not_mixed"
   ],
   "note": "REFUTED by the code: results are memoised per maker, so a maker shared by a predicate copied with convert_dat and a later one is called on one dat only and both predicates get that result. Otherwise sharing makers changes nothing."
  },
  {
   "property": "C56",
   "status": "partial",
   "theorems": [
    "C56_full_parameters_exact",
    "C56_full_parameters_total",
    "C56_non_string_name_refuted"
   ],
   "note": "REFUTED by the code for parameters whose name is not a string (add_parameter accepts them): dict(defaults, **data) raises. For string names the overlay law is proved in full."
  },
  {
   "property": "C57",
   "status": "proved",
   "theorems": [
    "C57_fixed_point",
    "C57_characters",
    "C57_each_character",
    "C57_no_shared_names",
    "C57_tables_unchanged"
   ],
   "note": "Characters are 8-bit with ASCII isalnum."
  },
  {
   "property": "C58",
   "status": "partial",
   "theorems": [
    "C58_substitutes",
    "C58_refuted"
   ],
   "note": "REFUTED by the code: a template containing a truncated internal marker right before a placeholder passes the verify check and is garbled (C58_refuted). C58_substitutes proves the claim for every other template in which no two like single braces touch, whatever the substituted values are; str.format's field evaluation is an arbitrary partial function."
  },
  {
   "property": "C59",
   "status": "proved",
   "theorems": [
    "C59_one_result_per_row",
    "C59_raises_with_the_function",
    "C59_trip_wire",
    "C59_quiet_wire"
   ],
   "note": ""
  },
  {
   "property": "C60",
   "status": "proved",
   "theorems": [
    "C60_lines",
    "C60_texts",
    "C60_accepted",
    "C60_negative"
   ],
   "note": "C60_lines and C60_texts are about non-negative bounds; C60_negative says what the slice does with a negative one."
  },
  {
   "property": "C61",
   "status": "partial",
   "theorems": [
    "C61_refuted",
    "C61_with_defaults"
   ],
   "note": "REFUTED by the code: replacement_values.get(key, self.default_values[table][field]) evaluates the default eagerly, so a replacement for a key field without default raises KeyError (C61_refuted). With defaults for the named columns the replacement is honoured (C61_with_defaults)."
  },
  {
   "property": "C62",
   "status": "proved",
   "theorems": [
    "C62_bounded_report",
    "C62_pandat_bounded_report",
    "C62_pandat_unbounded_report",
    "C62_refused"
   ],
   "note": ""
  },
  {
   "property": "C63",
   "status": "partial",
   "theorems": [
    "C63_freeze_content",
    "C63_freeze_immutable",
    "C63_freeze_idempotent",
    "C63_copy",
    "C63_round_trip",
    "C63_refuted",
    "C63_overlay"
   ],
   "note": "REFUTED by the code for structures holding datetimes: deep_copy raises on them (C63_refuted). For all others the round trip preserves content; freezing always does. Python == on hashables is an arbitrary boolean function; DataFrames, factories and other classes are not modelled."
  },
  {
   "property": "C64",
   "status": "partial",
   "theorems": [
    "C64_only_null_excluded_refuted",
    "C64_untyped_key_cells_reported"
   ],
   "note": "REFUTED by the code: an untyped primary key cell that is a boolean or a datetime is reported, although the docstring says only null is excluded. What is reported is characterised exactly by C64_untyped_key_cells_reported."
  },
  {
   "property": "C65",
   "status": "partial",
   "theorems": [
    "C65_shared_field_refuted",
    "C65_links_exact",
    "C65_one_to_one_exact"
   ],
   "note": "REFUTED by the code: a foreign key that maps two native fields to one foreign field makes the constructor raise. Exact for every other simple foreign key."
  },
  {
   "property": "C66",
   "status": "partial",
   "theorems": [
    "C66_same_fields_refuted",
    "C66_underscore_refuted",
    "C66_link_names_distinct"
   ],
   "note": "REFUTED by the code: foreign keys with the same native fields share a name, and names are joined with underscores. Distinct when the native fields differ and names have no underscore."
  },
  {
   "property": "C67",
   "status": "proved",
   "theorems": [
    "C67_pandat_numeric_flag",
    "C67_pandat_none_flag",
    "C67_pandat_flags_every_cell",
    "C67_pandat_parameters"
   ],
   "note": "DataFrame masks are modelled cell by cell."
  },
  {
   "property": "C68",
   "status": "proved",
   "theorems": [
    "C68_parameter_read_back",
    "C68_table_read_back",
    "C68_parameter_idempotent",
    "C68_text_parameter"
   ],
   "note": ""
  },
  {
   "property": "C69",
   "status": "partial",
   "theorems": [
    "C69_added_predicate_converted_refuted",
    "C69_copied_predicates_converted",
    "C69_new_names_not_converted"
   ],
   "note": "REFUTED by the code: a predicate added after the clone under a copied predicate's name is converted. Copied predicates with makers are converted; predicates with new names are not."
  },
  {
   "property": "C70",
   "status": "proved",
   "theorems": [
    "C70_bounded_report"
   ],
   "note": ""
  },
  {
   "property": "C71",
   "status": "proved",
   "theorems": [
    "C71_parameters_checked",
    "C71_client_predicates_run",
    "C71_predicates_well_formed"
   ],
   "note": ""
  },
  {
   "property": "C72",
   "status": "proved",
   "theorems": [
    "C72_pandat_same_report"
   ],
   "note": "Rows are identified as in TicDat; the DataFrame slice returned with as_table is not modelled beyond which rows and messages it has."
  },
  {
   "property": "C73",
   "status": "partial",
   "theorems": [
    "C73_reserved_column_refuted",
    "C73_plain_fields"
   ],
   "note": "REFUTED by the code: the check lower-cases the field while the SQL uses _pg_name, so a field such as Current Date passes and becomes the column current_date. Proved for fields of letters, digits and underscores."
  },
  {
   "property": "C74",
   "status": "proved",
   "theorems": [
    "C74_exact",
    "C74_bounded",
    "C74_total"
   ],
   "note": "pandas Series.apply is taken to visit the cells from the top; isnull of a cell is None/NaN."
  },
  {
   "property": "C75",
   "status": "proved",
   "theorems": [
    "C75_exact",
    "C75_raises"
   ],
   "note": "The closing assertion is part of the model and shown never to fire. pandas column assignment is modelled cell by cell (no dtype coercion)."
  },
  {
   "property": "C76",
   "status": "partial",
   "theorems": [
    "C76_refuted",
    "C76_copy"
   ],
   "note": "REFUTED by the code: when a foreign key maps two native fields to one foreign field, obfusimplify goes through the inverted mapping (nativetoforeignmapping), renames only the last of the two native columns and keeps the original names in the other, without any error. C76_copy proves the claim when every foreign key is one to one. For tic_dat objects with complete rows; PanDat's obfusimplify converts to TicDat and back and is not modelled separately."
  },
  {
   "property": "C77",
   "status": "partial",
   "theorems": [
    "C77_refuted",
    "C77_succeeds"
   ],
   "note": "REFUTED by the code: a column with foreign keys to two entity tables is renamed for one of them only and the closing assertion fires (C77_refuted). C77_succeeds proves success whenever every reference to a renamed entity is passed on along each foreign key of its column."
  },
  {
   "property": "C78",
   "status": "partial",
   "theorems": [
    "C78_refuted",
    "C78_accepted_rows"
   ],
   "note": "REFUTED by the code: zip(all_fields, row) drops surplus cells, and a string is taken for a row of characters (C78_refuted). Short rows, unknown fields, other scalars and ambiguous keys are refused (C78_accepted_rows)."
  },
  {
   "property": "C79",
   "status": "partial",
   "theorems": [
    "C79_refuted",
    "C79_other_names"
   ],
   "note": "REFUTED by the code: names are spliced into a format string, so a percent sign raises or alters the name (C79_refuted). Proved for names without percent signs (C79_other_names)."
  },
  {
   "property": "C80",
   "status": "partial",
   "theorems": [
    "C80_refuted",
    "C80_round_trip",
    "C80_keyed_cells",
    "C80_keyed_booleans",
    "C80_dates",
    "C80_listed_cells",
    "C80_nan"
   ],
   "note": "REFUTED by the code: numeric strings in columns with numeric defaults come back as numbers, booleans in tables without a key as 0/1 (C80_refuted), NaN as None (C80_nan). C80_round_trip proves the round trip whenever each cell comes back, and the cell theorems say which do. sqlite3 binding and column affinity are modelled from their documentation."
  },
  {
   "property": "C81",
   "status": "partial",
   "theorems": [
    "C81_refuted",
    "C81_columns",
    "C81_refused",
    "C81_no_header",
    "C81_no_header_refused"
   ],
   "note": "REFUTED by the code: two identically spelled headers are accepted and the last one wins; a file without data rows is not checked at all (C81_refuted). Proved: columns are matched by name up to case in any order with any extra columns; missing columns, differently spelled duplicates and long lines are refused once there is a data row."
  },
  {
   "property": "C82",
   "status": "partial",
   "theorems": [
    "C82_refuted",
    "C82_columns",
    "C82_offset",
    "C82_refused",
    "C82_no_header",
    "C82_lines_pruned",
    "C82_lines_kept"
   ],
   "note": "REFUTED by the code: for openpyxl sheets with leading empty rows nrows is max_row-min_row+1, so a valid offset is taken to be beyond the end and the sheet refused (C82_refuted). Proved for offsets below nrows, which is right for .xls and for sheets that begin in row 1 (C82_offset)."
  },
  {
   "property": "C83",
   "status": "partial",
   "theorems": [
    "C83_refuted",
    "C83_round_trip",
    "C83_cells",
    "C83_dates",
    "C83_lost",
    "C83_empty_string",
    "C83_texts",
    "C83_blank_infinity"
   ],
   "note": "REFUTED by the code: with default settings numbers in key fields come back as strings, numeric strings in data fields as numbers, booleans as strings (C83_refuted). C83_round_trip proves the round trip whenever each cell comes back; the other theorems say which cells do and do not. The csv module is taken to return the texts written."
  },
  {
   "property": "C84",
   "status": "partial",
   "theorems": [
    "C84_refuted",
    "C84_round_trip",
    "C84_cells",
    "C84_infinity",
    "C84_dates",
    "C84_none_flag"
   ],
   "note": "REFUTED by the code: with default settings a string spelled inf in any case comes back as infinity, also in keys (C84_refuted). C84_round_trip proves the round trip whenever each cell comes back and no row is found empty. The Excel libraries are an oracle for what is found in a cell after writing."
  },
  {
   "property": "C85",
   "status": "partial",
   "theorems": [
    "C85_csv_refuted",
    "C85_csv_created",
    "C85_rows_kept",
    "C85_csv_report",
    "C85_counts",
    "C85_xls_refuted",
    "C85_xls_created",
    "C85_xls_report",
    "C85_xls_inf_refuted"
   ],
   "note": "REFUTED by the code: both readers build a dictionary first, so rows are merged before the check (C85_csv_refuted, C85_xls_refuted), and the Excel find_duplicates always reads inf as infinity (C85_xls_inf_refuted). Proved: the last row of each key stays, none is lost iff nothing is reported, and the reports are exact."
  },
  {
   "property": "C86",
   "status": "proved",
   "theorems": [
    "C86_files",
    "C86_sheets",
    "C86_keys",
    "C86_database",
    "C86_readers_refuse",
    "C86_duplicates_refuse"
   ],
   "note": "Strings are 8-bit with ASCII case mapping; SQLite table names are compared without regard to case. The readers of whole databases are not composed with the name lookup."
  },
  {
   "property": "C87",
   "status": "partial",
   "theorems": [
    "C87_refuted",
    "C87_exact",
    "C87_messages",
    "C87_raises",
    "C87_objects"
   ],
   "note": "REFUTED by the code: for a table without primary key that is no container (None, say) a TicDatError is raised instead of returning False (C87_refuted, C87_raises). Otherwise exact (C87_exact), and what is accepted is an object of the model (C87_objects). DataFrames are only refused; Series, generator and generic tables are not modelled."
  },
  {
   "property": "C88",
   "status": "partial",
   "theorems": [
    "C88_refuted",
    "C88_converts",
    "C88_accepts"
   ],
   "note": "REFUTED by the code: a list of dicts for a keyed table without data fields is judged by the sizes of the dicts only, so wrong field names pass (C88_refuted). Proved for all other inputs (C88_converts) and conversely (C88_accepts)."
  },
  {
   "property": "C89",
   "status": "partial",
   "theorems": [
    "C89_refuted",
    "C89_empty_refuted",
    "C89_frames",
    "C89_back",
    "C89_pan"
   ],
   "note": "REFUTED by the code: a generic table is replaced by its name, a string, so the copy is no good PanDat object and cannot be converted back (C89_refuted); an empty table keeps its key columns and gets no index whatever drop_pk_columns says (C89_empty_refuted). Proved for the other tables when pandas keeps the cells of the columns (oracle settle), TicDat round trip for schemas without the field name 'name' (C89_back)."
  },
  {
   "property": "C90",
   "status": "partial",
   "theorems": [
    "C90_refuted",
    "C90_copies"
   ],
   "note": "REFUTED by the code: for a schema with a data field 'name' (or 'name' in a key of several fields) every copy raises (C90_refuted). Proved for all other schemas (C90_copies), with exact conditions for the duplicate error. Column names are different from each other."
  },
  {
   "property": "C91",
   "status": "proved",
   "theorems": [
    "C91_accepts",
    "C91_cells",
    "C91_rows",
    "C91_tables"
   ],
   "note": "For DataFrames with differently named columns of which one has a string name, or with the key as index, and for lists of rows of equal length; other arguments of pandas.DataFrame and Series are not modelled. A DataFrame without columns and index, and rows shorter than the fields, are refused even if defaults exist (C91_rows)."
  },
  {
   "property": "C92",
   "status": "partial",
   "theorems": [
    "C92_empty_input_refuted",
    "C92_empty_output_refuted",
    "C92_error_file_refuted",
    "C92_run",
    "C92_ending"
   ],
   "note": "REFUTED by the code: an empty input path makes solve run without data (C92_empty_input_refuted), an empty output path is refused only after solving (C92_empty_output_refuted), and an integrity report of a TicDat engine meant for a .sql, .mdb or .accdb file ends the run with an exception (C92_error_file_refuted). Proved for all other paths without -f (C92_run; C92_ending says when the run ends normally); file system, readers, writers and solve are oracles."
  },
  {
   "property": "C93",
   "status": "proved",
   "theorems": [
    "C93_written",
    "C93_read",
    "C93_one_format"
   ],
   "note": "The endings are compared with their case. Reading also needs a file, or for CSV a directory, of that name."
  },
  {
   "property": "C94",
   "status": "partial",
   "theorems": [
    "C94_ignored_refuted",
    "C94_both_refuted",
    "C94_last_counts",
    "C94_spellings",
    "C94_grammar",
    "C94_malformed"
   ],
   "note": "REFUTED by the code: a word that is no option hides all options after it without a message (C94_ignored_refuted), and -f with -e, called incompatible, are both carried out (C94_both_refuted). Proved: last option counts, -h does nothing, spellings are equal, exactly which words stand for which options, and malformed words end the run. getopt is modelled after the standard library."
  },
  {
   "property": "C95",
   "status": "partial",
   "theorems": [
    "C95_message_refuted",
    "C95_generic_refuted",
    "C95_rows",
    "C95_count",
    "C95_messages",
    "C95_returns"
   ],
   "note": "REFUTED by the code: a cell of a column that is not in the schema is reported as error message of a row predicate (C95_message_refuted), and no report can be made for a schema with a generic table (C95_generic_refuted). Proved for the rows reported, the count deciding about solve, and messages of rows with the columns of the schema."
  },
  {
   "property": "C96",
   "status": "partial",
   "theorems": [
    "C96_refuted",
    "C96_type_failures",
    "C96_fk_failures",
    "C96_verdict"
   ],
   "note": "REFUTED by the code: for a foreign key that swaps field names the report has errors where TicDatFactory.find_foreign_key_failures has none (C96_refuted). Proved for keys whose mapping does not rename a field to another mapped field (no_overwrite)."
  },
  {
   "property": "C97",
   "status": "partial",
   "theorems": [
    "C97_missing_tables_refuted",
    "C97_refused",
    "C97_rows"
   ],
   "note": "REFUTED by the code as to csv: the documentation says missing tables throw an exception, but they are read as empty (C97_missing_tables_refuted). Proved: exact conditions for refusal, and the content of every table. pandas.read_* is outside of the model (what it returns is given); parameter values are C101."
  },
  {
   "property": "C98",
   "status": "partial",
   "theorems": [
    "C98_generic_refuted",
    "C98_none_text_refuted",
    "C98_other_key_refuted",
    "C98_round_trip",
    "C98_written"
   ],
   "note": "REFUTED by the code: no schema with a generic table can be written (C98_generic_refuted), a text spelled none comes back as None (C98_none_text_refuted), and another key without a table makes the document unreadable (C98_other_key_refuted). Proved otherwise (C98_round_trip) for cells that reading does not convert, dates in datetime fields, and columns that pandas keeps up to None and NaN."
  },
  {
   "property": "C99",
   "status": "partial",
   "theorems": [
    "C99_refuted",
    "C99_pruned",
    "C99_blank_rows"
   ],
   "note": "REFUTED by the code: if infinity_io_flag is None and a field has an infinity bias, empty rows become rows with an infinity before pruning and stay (C99_refuted). Proved for all other settings."
  },
  {
   "property": "C100",
   "status": "partial",
   "theorems": [
    "C100_csv_refuted",
    "C100_sql_refuted",
    "C100_csv",
    "C100_sql"
   ],
   "note": "REFUTED by the code: writing with another case_space_table_names leaves files of both names, which cannot be read (C100_csv_refuted), or fails for a database (C100_sql_refuted). Proved for writes with one setting."
  },
  {
   "property": "C101",
   "status": "partial",
   "theorems": [
    "C101_hidden_refuted",
    "C101_parameter"
   ],
   "note": "REFUTED by the code: a missing value of a text parameter that must not be null becomes the allowed text nan (C101_hidden_refuted). Proved: parameters read from text have their own type."
  },
  {
   "property": "C102",
   "status": "partial",
   "theorems": [
    "C102_refuted",
    "C102_schema",
    "C102_types",
    "C102_defaults"
   ],
   "note": "REFUTED by the code: of two native fields mapped to one foreign field only the last gets into the FOREIGN KEY clause. C102_schema proves all the rest, and the foreign keys when they are one to one. Postgres is modelled after its documentation. C102_defaults states the defaults of datetime fields and of fields with a forced type."
  },
  {
   "property": "C103",
   "status": "partial",
   "theorems": [
    "C103_refuted",
    "C103_possible"
   ],
   "note": "REFUTED by the code: the schema cannot be created for a foreign key to a part of a primary key, for a default value with a single quote, or for a field forced to timestamp whose default is left at 0 (C103_refuted). Proved for foreign keys to whole keys without circles and defaults that fit their columns."
  },
  {
   "property": "C104",
   "status": "partial",
   "theorems": [
    "C104_refuted",
    "C104_bare"
   ],
   "note": "REFUTED by the code: the values of the parameters table are text with and float without ancillary information (C104_refuted), so text parameters cannot be written. Proved for all other tables."
  },
  {
   "property": "C105",
   "status": "partial",
   "theorems": [
    "C105_refuted",
    "C105_round_trip",
    "C105_cells_na",
    "C105_cells_numeric",
    "C105_cells_none",
    "C105_columns"
   ],
   "note": "REFUTED by the code: a key field without a data type becomes a text column, so the key 1 is read as the text 1 (C105_refuted). Proved if every cell is kept by its column and by the infinity flag, which the other theorems decide for each flag."
  },
  {
   "property": "C106",
   "status": "partial",
   "theorems": [
    "C106_refuted",
    "C106_written",
    "C106_failed",
    "C106_refused"
   ],
   "note": "REFUTED by the code: write_data first empties the tables and commits, so after a failure the rows that were there are lost (C106_refuted). Proved: what a successful call writes, what a failed one can leave, and that bad arguments and missing columns are refused before anything is touched. The dsn way of writing is C169."
  },
  {
   "property": "C107",
   "status": "partial",
   "theorems": [
    "C107_refuted",
    "C107_possible"
   ],
   "note": "REFUTED by the code: rows are inserted one by one in the order of the object, so a table referring to itself is refused if a row comes before the one it refers to (C107_refuted). Proved for foreign keys without circles."
  },
  {
   "property": "C108",
   "status": "proved",
   "theorems": [
    "C108_read",
    "C108_written"
   ],
   "note": ""
  },
  {
   "property": "C109",
   "status": "proved",
   "theorems": [
    "C109_exact"
   ],
   "note": ""
  },
  {
   "property": "C110",
   "status": "proved",
   "theorems": [
    "C110_round_trip"
   ],
   "note": "The conditions on cells (row_stays) are those of C105; C105_refuted shows that they are needed."
  },
  {
   "property": "C111",
   "status": "proved",
   "theorems": [
    "C111_written"
   ],
   "note": "Generic tables and table_specific_context_manager are not modelled."
  },
  {
   "property": "C112",
   "status": "partial",
   "theorems": [
    "C112_refuted",
    "C112_failure"
   ],
   "note": "REFUTED by the code: the tables are emptied first, so after a failure the rows that were there are lost (C112_refuted). Proved: what a failed call can leave."
  },
  {
   "property": "C113",
   "status": "proved",
   "theorems": [
    "C113_read"
   ],
   "note": ""
  },
  {
   "property": "C114",
   "status": "partial",
   "theorems": [
    "C114_non_string_parameter_refuted",
    "C114_pan_schema_round_trip"
   ],
   "note": "REFUTED by the code: add_parameter takes any name, create_from_full_schema only strings (C114_non_string_parameter_refuted). Proved for parameters with string names; unlike C19 no condition on foreign keys is needed."
  },
  {
   "property": "C115",
   "status": "partial",
   "theorems": [
    "C115_clone_with_generic_table_refuted",
    "C115_rename_only_column_refuted",
    "C115_rename_parameters_column_refuted",
    "C115_pan_restricted_clone",
    "C115_pan_full_clone",
    "C115_pan_add_column",
    "C115_pan_remove_column",
    "C115_pan_rename_column"
   ],
   "note": "REFUTED by the code: with a generic table any restricted clone raises, even one that keeps all tables; the only column of a table and the columns of a parameters table in use cannot be renamed (the refuted theorems). Proved otherwise."
  },
  {
   "property": "C116",
   "status": "partial",
   "theorems": [
    "C116_links_refuted",
    "C116_generic_predicate_refuted",
    "C116_tic_to_pan",
    "C116_pan_to_tic"
   ],
   "note": "REFUTED by the code: a TicDatFactory with foreign key links cannot be cloned to a PanDatFactory (no such method), a PanDatFactory with a row predicate on a generic table not to a TicDatFactory (the refuted theorems). Proved otherwise. The clone has no generator tables. What convert_dat does later, to the kwargs makers, is not modelled."
  },
  {
   "property": "C117",
   "status": "partial",
   "theorems": [
    "C117_generic_table_refuted",
    "C117_first_table_refuted",
    "C117_add_table",
    "C117_pan_add_table"
   ],
   "note": "REFUTED by the code: raises if there is a generic table, and if there is no table at all (the refuted theorems). Proved otherwise."
  },
  {
   "property": "C118",
   "status": "partial",
   "theorems": [
    "C118_remove_parameter_refuted",
    "C118_rejected_call_changes_nothing_refuted",
    "C118_used_factory_locked",
    "C118_last_call_wins",
    "C118_rejected_call_changes_nothing",
    "C118_set_default_values",
    "C118_automatic_predicate_name",
    "C118_when_accepted"
   ],
   "note": "REFUTED by the code: remove_parameter works on a used factory, and a rejected set_default_values has assigned part of its argument (the refuted theorems). Proved otherwise."
  },
  {
   "property": "C119",
   "status": "partial",
   "theorems": [
    "C119_generic_refuted",
    "C119_pan_key_refuted",
    "C119_tic",
    "C119_pan",
    "C119_names"
   ],
   "note": "REFUTED by the code: a factory with a generic table cannot copy anything, even with that table excluded (primary_key_fields has no entry for it), and PanDatFactory.copy_to_ampl adds a renamed key field a second time (the refuted theorems). Proved otherwise. set_ampl_data is not modelled."
  },
  {
   "property": "C120",
   "status": "partial",
   "theorems": [
    "C120_zero_refuted",
    "C120_pan_generic_refuted",
    "C120_copied",
    "C120_zero_default",
    "C120_pan"
   ],
   "note": "REFUTED by the code: a variable that is 0 where another variable of the table is not gets the default of its field, which need not be 0, and the PanDat version raises if there is a generic table (the refuted theorems). Proved: which keys are present; cells are the value if the filter keeps it, else the default; equal to the variable for fields with default 0."
  },
  {
   "property": "C121",
   "status": "partial",
   "theorems": [
    "C121_nan_refuted",
    "C121_numbers",
    "C121_order",
    "C121_zero"
   ],
   "note": "REFUTED by the code: NaN is nearly the same as every finite number (max and min of Python ignore it), and as infinity in one order only (C121_nan_refuted). Proved exact for all other cells, in exact arithmetic."
  },
  {
   "property": "C122",
   "status": "partial",
   "theorems": [
    "C122_nan_refuted",
    "C122_exact",
    "C122_symmetric",
    "C122_tolerance"
   ],
   "note": "REFUTED by the code: with a positive tolerance an object with NaN passes for the same as one with a number in that place, even when NaNs are not declared the same (C122_nan_refuted). Proved exact without NaN cells, or with tolerance 0."
  },
  {
   "property": "C123",
   "status": "partial",
   "theorems": [
    "C123_duplicates_refuted",
    "C123_exact"
   ],
   "note": "REFUTED by the code: unless duplicates are an error, rows whose key occurs again later are not compared (C123_duplicates_refuted). Proved exact for tables with different keys."
  },
  {
   "property": "C124",
   "status": "partial",
   "theorems": [
    "C124_indicator_refuted",
    "C124_engines",
    "C124_var",
    "C124_calls"
   ],
   "note": "REFUTED by the code: add_indicator_constraint raises for CPLEX models (as its message says). Proved for all other calls, and for all calls on Gurobi and Xpress. What the engines make of the calls is trusted."
  },
  {
   "property": "C125",
   "status": "partial",
   "theorems": [
    "C125_core_variable_refuted",
    "C125_stale_refuted",
    "C125_values",
    "C125_answer"
   ],
   "note": "REFUTED by the code: on Xpress a variable added to core_model shifts the values of variables added later, and on CPLEX the values of an earlier solve are handed out after one that failed (the refuted theorems). Proved otherwise."
  },
  {
   "property": "C126",
   "status": "partial",
   "theorems": [
    "C126_refuted",
    "C126_raises",
    "C126_sets"
   ],
   "note": "REFUTED by the code: a refused call has set the parameters named before the refused one (C126_refuted). Proved: when it raises, and what it sets when it does not."
  },
  {
   "property": "C127",
   "status": "partial",
   "theorems": [
    "C127_cplex_refuted",
    "C127_bounds",
    "C127_crossed"
   ],
   "note": "REFUTED by the code: before CPLEX has found a solution its listener passes a dict instead of a number, and raises (C127_cplex_refuted). Proved otherwise, in exact arithmetic."
  },
  {
   "property": "C128",
   "status": "partial",
   "theorems": [
    "C128_refuted",
    "C128_left_behind",
    "C128_failed",
    "C128_refuses",
    "C128_written",
    "C128_returns",
    "C128_new_file"
   ],
   "note": "REFUTED by the code: a failed write to a path where nothing was leaves a file with empty tables (C128_refuted; C128_left_behind: always). Proved for files that existed, and what a call that returns has written; also when it does return."
  },
  {
   "property": "C129",
   "status": "proved",
   "theorems": [
    "C129_round_trip",
    "C129_new_file"
   ],
   "note": "What the columns store is an oracle; the hypothesis is that each cell comes back from its column."
  },
  {
   "property": "C130",
   "status": "partial",
   "theorems": [
    "C130_refuted",
    "C130_sql_exact",
    "C130_mdb_exact",
    "C130_sql_lost",
    "C130_mdb_lost"
   ],
   "note": "REFUTED by the code: duplicates are searched without data types, so two spellings of a date that are one key for create_tic_dat are not reported and a row is lost (C130_refuted). Proved: what is reported, and that it is what is lost if no setting changes how the keys are read."
  },
  {
   "property": "C131",
   "status": "partial",
   "theorems": [
    "C131_refuted",
    "C131_raw",
    "C131_never",
    "C131_same",
    "C131_finite"
   ],
   "note": "REFUTED by the code: for tables with a key the field name is looked up with brackets, so with the flag None infinities are handed over as they are (C131_refuted; C131_never: such a write never returns if columns have no infinity). Proved for other flags, tables without key, parameters and finite cells."
  },
  {
   "property": "C132",
   "status": "partial",
   "theorems": [
    "C132_refuted",
    "C132_stopped",
    "C132_written",
    "C132_refuses",
    "C132_returns"
   ],
   "note": "REFUTED by the code: every DELETE and every row of a table with a key is committed at once, so a failing call, even one refused for allow_overwrite, leaves emptied and partly written tables (C132_refuted). Proved: what exactly it leaves, what a call that returns has written, and when it returns."
  },
  {
   "property": "C133",
   "status": "proved",
   "theorems": [
    "C133_round_trip",
    "C133_new_file"
   ],
   "note": "What the columns store is an oracle; the hypothesis is that each cell comes back from its column."
  },
  {
   "property": "C134",
   "status": "proved",
   "theorems": [
    "C134_new_file",
    "C134_refuses",
    "C134_file"
   ],
   "note": ""
  },
  {
   "property": "C135",
   "status": "partial",
   "theorems": [
    "C135_csv",
    "C135_bool_parameter_refuted"
   ],
   "note": "REFUTED by the code for booleans among the parameters: the column is read as text, so False comes back as the text False (C135_bool_parameter_refuted). Proved for everything else; what pandas makes of a readable DataFrame is an oracle with the hypothesis loads (cells unchanged, dates may become text, numbers become text in columns asked for as text)."
  },
  {
   "property": "C136",
   "status": "proved",
   "theorems": [
    "C136_sql"
   ],
   "note": "pandas is an oracle with the hypothesis loads, no column is asked for as text."
  },
  {
   "property": "C137",
   "status": "proved",
   "theorems": [
    "C137_xls"
   ],
   "note": "pandas is an oracle with the hypothesis loads."
  },
  {
   "property": "C138",
   "status": "proved",
   "theorems": [
    "C138_json_pd",
    "C138_dates"
   ],
   "note": "pandas is an oracle with the hypothesis loads; for json, no text none in nullable text fields (see C98_none_text_refuted)."
  },
  {
   "property": "C139",
   "status": "proved",
   "theorems": [
    "C139_written"
   ],
   "note": ""
  },
  {
   "property": "C140",
   "status": "partial",
   "theorems": [
    "C140_written",
    "C140_round_trip",
    "C140_stale_refuted",
    "C140_pretty_refuted",
    "C140_flag_refuted"
   ],
   "note": "REFUTED by the code: create_generic_free makes a factory without the settings of the old one and without its empty generic tables, and csvtd.py 244 does not pass on case_space_table_names; so infinity is written as inf whatever the flag (C140_flag_refuted), names are not made pretty (C140_pretty_refuted), and the file of a generic table that is now empty stays and is read back (C140_stale_refuted). Proved: what exactly is written to a new directory, and that it is read back (an empty generic table without its columns)."
  },
  {
   "property": "C141",
   "status": "partial",
   "theorems": [
    "C141_new_file",
    "C141_round_trip",
    "C141_types_refuted"
   ],
   "note": "REFUTED by the code: the new factory has no default values, so every data column has the type INT and text such as 007 in a field with a text default becomes a number (C141_types_refuted; what a column stores is an oracle, the witness is the INT affinity of SQLite). Proved: the tables of a new file, and that the object comes back if every cell comes back from a column of type INT (of no type for key fields)."
  },
  {
   "property": "C142",
   "status": "partial",
   "theorems": [
    "C142_written",
    "C142_refuted"
   ],
   "note": "REFUTED by the code: a generic table without rows is left out of the new factory, so its old rows stay in the file although overwriting is allowed, and are read back (C142_refuted). Proved: what a call that returns leaves in each table."
  },
  {
   "property": "C143",
   "status": "partial",
   "theorems": [
    "C143_refuted",
    "C143_other_name"
   ],
   "note": "REFUTED by the code: the columns are asked for with PRAGMA table_info under the name of the schema without brackets (sqlitetd.py 225), so a generic table that the file has with spaces makes the call raise (C143_refuted). Proved: it raises for every such name, and for each name that needs brackets."
  },
  {
   "property": "C144",
   "status": "partial",
   "theorems": [
    "C144_no_table",
    "C144_fails",
    "C144_refuted",
    "C144_read"
   ],
   "note": "REFUTED by the code: the table of an empty generic table is never created, and reading then raises (C144_fails, C144_refuted). Proved also: generic tables with rows are read (C144_read). Not proved: that the text of the script denotes those rows (for tables with fields see C39-C41)."
  },
  {
   "property": "C145",
   "status": "partial",
   "theorems": [
    "C145_written",
    "C145_refuted"
   ],
   "note": "REFUTED by the code: the new factory has the flag N/A, so infinity is written as the text inf, which a factory with another flag reads as text (C145_refuted). Proved: what exactly the sheets are."
  },
  {
   "property": "C146",
   "status": "partial",
   "theorems": [
    "C146_round_trip",
    "C146_columns_data_refuted",
    "C146_index_refuted",
    "C148_split"
   ],
   "note": "REFUTED by the code: a document of DataFrames is not recognised if every table of the schema has just the fields columns and data (C146_columns_data_refuted) or if the index was written too (C146_index_refuted); it is then silently read as rows made of the letters of the keys columns, data, index. Proved: the default format is recognised whatever the schema and read back exactly, in any order of keys; the split format is recognised in every other case (C148_split)."
  },
  {
   "property": "C147",
   "status": "partial",
   "theorems": [
    "C147_rows",
    "C147_frames",
    "C147_frames_refuted",
    "C147_scalar_refuted"
   ],
   "note": "REFUTED by the code: a list under a further key turns a document of DataFrames into rows made of the letters of columns and data (C147_frames_refuted), and a scalar under a further key makes every document unreadable (C147_scalar_refuted). Proved: lists and objects under further keys change nothing in a document that holds some rows, nor do further DataFrames in any document."
  },
  {
   "property": "C148",
   "status": "proved",
   "theorems": [
    "C148_rows",
    "C148_split"
   ],
   "note": "pandas is an oracle (gentle; loads); the rows are such that their cells survive (row_ok, file_row_ok: within the flag, dates in fields for dates, no text none in nullable text fields) and keys have no nulls; tables are frameable as in C90."
  },
  {
   "property": "C149",
   "status": "partial",
   "theorems": [
    "C149_spares",
    "C149_all_or_nothing",
    "C149_read_back",
    "C149_refuted"
   ],
   "note": "REFUTED by the code: the file is opened for writing before json.dump begins, so an object with a cell that json cannot write destroys the file to be overwritten (C149_refuted; whether json can write a document is an oracle). Proved: what must not be overwritten is kept in every case; if the document can be written down then a call that raises changes nothing, it raises exactly in the listed cases, and otherwise the document is stored and read back."
  },
  {
   "property": "C150",
   "status": "proved",
   "theorems": [
    "C150_counts",
    "C150_agrees"
   ],
   "note": "for factories made by the public calls; what pandas reads is an oracle."
  },
  {
   "property": "C151",
   "status": "proved",
   "theorems": [
    "C151_csv",
    "C151_sqlite",
    "C151_access",
    "C151_excel",
    "C151_excel_refused",
    "C151_missing"
   ],
   "note": ""
  },
  {
   "property": "C152",
   "status": "partial",
   "theorems": [
    "C152_csv_refuted",
    "C152_csv_lost",
    "C152_csv_elsewhere",
    "C152_sqlite",
    "C152_access_refuted",
    "C152_access_lost",
    "C152_xlsx_refuted",
    "C152_xlsx_gone",
    "C152_xls"
   ],
   "note": "REFUTED by the code: written to the directory it was read from, a generator table is called after its csv file has been emptied and all its rows are silently lost (C152_csv_lost); in Access files likewise, since the deletion of the old rows is committed first (C152_access_lost); an .xlsx file is removed before the generator is called, so the call raises and the file is gone (C152_xlsx_gone). The three losses are proved in general, not only for the witnesses. Proved without reserve: SQLite files, .xls files, and csv to another directory."
  },
  {
   "property": "C153",
   "status": "partial",
   "theorems": [
    "C153_refuted",
    "C153_refused",
    "C153_made",
    "C153_list",
    "C153_dict"
   ],
   "note": "REFUTED by the code: with the default setting of duplicates_ticdat_init the check for lost rows (ticdatfactory.py 850-853) takes the length of the function that the table has become for 0, so every container with a row in it is refused (C153_refused). Proved: functions are taken, and containers if the setting is another, with the rows they have and exactly when an ordinary table would take them."
  },
  {
   "property": "C154",
   "status": "partial",
   "theorems": [
    "C154_types_refuted",
    "C154_types",
    "C154_fk_raises",
    "C154_fk",
    "C154_lengths",
    "C154_lengths_refuted",
    "C154_types_returns"
   ],
   "note": "REFUTED by the code: data type failures in generator tables are silently left out (C154_types_refuted), foreign keys from a generator table, or to one from a table with rows, make the report raise (C154_fk_raises), and so does the length of any object with one (C154_lengths_refuted). Proved: the type report is exact for the other tables, the foreign key report is exact when it does not raise, the lengths are exact without generator tables."
  },
  {
   "property": "C155",
   "status": "partial",
   "theorems": [
    "C155_refuted",
    "C155_list_refuted",
    "C155_copy"
   ],
   "note": "REFUTED by the code: the generator table of the copy calls that of the object, so it follows edits of the list (or file) behind it (C155_refuted). Proved: the copy is of the same form, its other tables are equal, and its generator tables show what those of the object show in every state of the world."
  },
  {
   "property": "C156",
   "status": "partial",
   "theorems": [
    "C156_csv_refuted",
    "C156_xlsx_refuted",
    "C156_xls",
    "C156_csv_others",
    "C156_csv_refuses"
   ],
   "note": "REFUTED by the code: csv files are replaced one after the other, so that a failure leaves some new and the rest old or empty (C156_csv_refuted); the .xlsx file to be replaced is removed first and gone if writing fails (C156_xlsx_refuted). Proved: a failed call of the .xls writer changes nothing; the csv writer never touches other paths or files under other names; without allow_overwrite it does nothing if the file of a table exists."
  },
  {
   "property": "C157",
   "status": "partial",
   "theorems": [
    "C157_lines",
    "C157_readable",
    "C157_refuted"
   ],
   "note": "REFUTED by the code: cells as long as the column is wide are not separated, so two different tables can give the same text (C157_refuted). Proved: the lines of the text (see also C60); tables of the same size with the same text have the same name and cells if the cells fit the columns, hold no line breaks and do not end in a blank."
  },
  {
   "property": "C158",
   "status": "partial",
   "theorems": [
    "C158_exact",
    "C158_raises",
    "C158_refuted"
   ],
   "note": "REFUTED by the code: the schema entry of a generic table is the text *, which has no item 1, so that the function raises for every factory with a generic table (C158_raises). Proved: exact for all others."
  },
  {
   "property": "C159",
   "status": "proved",
   "theorems": [
    "C159_all",
    "C159_returns",
    "C159_refuses",
    "C159_stops"
   ],
   "note": "what AMPL takes is an oracle."
  },
  {
   "property": "C160",
   "status": "partial",
   "theorems": [
    "C160_exact",
    "C160_total",
    "C160_agrees",
    "C160_non_string_name_refuted"
   ],
   "note": "REFUTED by the code: as in C56, dict(x, **y) raises for names that are not strings, although such parameters can be declared. Proved: exact for tables whose names are strings."
  },
  {
   "property": "C161",
   "status": "proved",
   "theorems": [
    "C161_raises",
    "C161_rows"
   ],
   "note": "The conversion of a cell is that of C34 and the adjustment of parameters that of C68; they appear as pg_read_cell and adjusted."
  },
  {
   "property": "C162",
   "status": "proved",
   "theorems": [
    "C162_sql_raises",
    "C162_sql_rows",
    "C162_mdb_raises",
    "C162_mdb_rows"
   ],
   "note": "The table found for a name is that of C44 and C86; the conversion of cells is that of C34 and C80. Generic tables: C141-C143; generator tables: C151."
  },
  {
   "property": "C163",
   "status": "partial",
   "theorems": [
    "C163_refuted",
    "C163_lost",
    "C163_setting"
   ],
   "note": "REFUTED by the code: the readers put the rows of a keyed table into a dict before the constructor, which is the one to assert, sees them; so a row is dropped silently. Proved: rows are lost exactly where two keys are equal, and all three readers return the same for every setting."
  },
  {
   "property": "C164",
   "status": "partial",
   "theorems": [
    "C164_refuted",
    "C164_bracket_refuted",
    "C164_schema"
   ],
   "note": "REFUTED by the code: of two native fields that refer to one foreign field only the last is declared (C164_refuted), and a name with a closing bracket is read as something else (C164_bracket_refuted). Proved for one-to-one foreign keys without circles (C18), tables with at least one field, and names and defaults without closing brackets. str() of a default and the order of a set are oracles; the reader of SQL (SqlRead.v) is part of the statement."
  },
  {
   "property": "C165",
   "status": "partial",
   "theorems": [
    "C165_refuted",
    "C165_exact",
    "C165_no_semicolons",
    "C165_returns"
   ],
   "note": "REFUTED by the code: the file is split at every semicolon, also at one in the default of a field, so that the CREATE statement is cut (C165_refuted; for cells see C41). Proved: the pieces are the statements exactly when none has a semicolon inside, in particular when names, defaults and cells have none; when the file is written and what it consists of."
  },
  {
   "property": "C166",
   "status": "partial",
   "theorems": [
    "C166_refuted",
    "C166_rows",
    "C166_back"
   ],
   "note": "REFUTED by the code: a one-field key may be a tuple of one (the constructor takes it), and then two keys can have the same dict, so that a row is lost (C166_refuted). Proved when one-field keys are not tuples; C166_rows without that condition. Generator and generic tables are not covered."
  },
  {
   "property": "C167",
   "status": "proved",
   "theorems": [
    "C167_low_ticdat",
    "C167_low_pandat",
    "C167_tuples",
    "C167_refused",
    "C167_table_and_flags",
    "C167_rows"
   ],
   "note": "C167_rows under the guard of C13 (no mapped native name is overwritten before it is read). The TypeError fallback of the pandas join is not modelled."
  },
  {
   "property": "C168",
   "status": "partial",
   "theorems": [
    "C168_unsorted_refuted",
    "C168_too_many_refuted",
    "C168_slice",
    "C168_no_slice"
   ],
   "note": "REFUTED by the code: every exception of .loc is taken for an empty slice when the key has a colon; a slice of an unsorted level (copy_to_pandas does not sort) gives no row although rows are asked for (C168_unsorted_refuted), and a key with too many entries is not refused (C168_too_many_refuted). Proved for keys within the levels whose other slices are on sorted levels. .loc itself is modelled from the pandas documentation (Sloc.v)."
  },
  {
   "property": "C169",
   "status": "proved",
   "theorems": [
    "C169_same",
    "C169_written",
    "C169_failed"
   ],
   "note": "psycopg2's execute_values (pages of 100 rows, one statement each), the transaction of its connection and statement-wise foreign key checks of Postgres are modelled after their documentation (PgDsn.v). As with C106, rows that were there before are lost when the call raises; C169_ex and C169_pages_ex show that self-references to later rows are accepted within a page and refused beyond it."
  }
 ]
}