{"id": "C01", "title": "A data type accepts exactly the documented values", "statement": "For a field with a data type, a cell is accepted exactly when: it is null and the type is nullable; or it is non-null, the type is a datetime type and the cell is a datetime or parses as one; or it is a number, numbers are allowed, it lies within min/max with the declared inclusivity, and it is integral when must_be_int (the single exception being +infinity equal to an inclusive infinite max); or it is a string allowed by strings_allowed. Everything else (booleans in particular) is rejected.", "quantifier": "every type built by set_data_type and every cell value (null, NaN, bool, any int/float including infinities, any string, any datetime)", "why_tests_cant": "the values and (min,max,flags) combinations are unbounded; a test samples a handful of boundary points", "anchors": ["ticdat/utils.py:TypeDictionary.valid_data", "ticdat/ticdatfactory.py:TicDatFactory.set_data_type"]}
{"id": "C02", "title": "Stored data types are canonical", "statement": "A data type read back from data_types and passed again, unpacked, to set_data_type is stored unchanged; the stored type always has min<=max, and arguments documented as ignored (bounds when numbers are not allowed, everything but nullable for datetime) have no influence on what is stored or accepted.", "quantifier": "every argument tuple of set_data_type accepted by the library", "why_tests_cant": "schema cloning relies on it for all types, not for the ones in a test schema", "anchors": ["ticdat/utils.py:TypeDictionary.safe_creator", "ticdat/ticdatfactory.py:TicDatFactory.create_from_full_schema"]}
{"id": "C03", "title": "find_data_type_failures is sound and complete", "statement": "The report lists a row under (table, field) exactly when that row's cell violates the data type of the field (or, for primary key fields with no type, the implicit key filter); the listed bad values are exactly the offending cell values; clean (table, field) pairs have no entry.", "quantifier": "every schema, every set of data types, every dataset of any size", "why_tests_cant": "false negatives hide in unbounded data/type combinations", "anchors": ["ticdat/ticdatfactory.py:TicDatFactory.find_data_type_failures", "ticdat/ticdatfactory.py:TicDatFactory._get_full_row"]}
{"id": "C04", "title": "max_failures truncates without inventing or losing failures (data types)", "statement": "With max_failures=m (any positive number) the truncated data type report is a subset of the full one, lists exactly min(ceil(m), number of failing cells) cells, and is empty only if the full one is.", "quantifier": "every dataset and every positive bound, including non-integral and infinite ones", "why_tests_cant": "needs all positions of the short circuit in all iteration orders", "anchors": ["ticdat/ticdatfactory.py:TicDatFactory.find_data_type_failures"]}
{"id": "C05", "title": "replace_data_type_failures repairs exactly the failing data cells", "statement": "If the call succeeds, no typed data field has a failure afterwards, every cell that was valid and every primary key is unchanged, every failing data cell now holds the requested replacement (or the field's default), row count and order are unchanged and a second call changes nothing.", "quantifier": "every schema, dataset and replacement dictionary", "why_tests_cant": "frame condition over all cells of unbounded data", "anchors": ["ticdat/ticdatfactory.py:TicDatFactory.replace_data_type_failures"]}
{"id": "C06", "title": "replace_data_type_failures is all-or-nothing", "statement": "If a needed replacement value is itself invalid for its field the call raises and the data object is left exactly as it was.", "quantifier": "every schema, dataset and replacement dictionary", "why_tests_cant": "partial modification would only show for particular dictionary orders", "anchors": ["ticdat/ticdatfactory.py:TicDatFactory.replace_data_type_failures"]}
{"id": "C07", "title": "find_foreign_key_failures is sound and complete", "statement": "For a foreign key whose foreign fields are pairwise distinct, a native row is reported exactly when no row of the foreign table matches it on all mapped fields; the reported native values are exactly the mapped values of the reported rows.", "quantifier": "every schema (tables with and without primary keys, simple, compound, X-to-many and self-referencing foreign keys) and every dataset", "why_tests_cant": "the look-up uses four different code paths depending on field order and key shape", "anchors": ["ticdat/ticdatfactory.py:TicDatFactory.find_foreign_key_failures", "ticdat/utils.py:ForeignKey.foreigntonativemapping"]}
{"id": "C08", "title": "remove_foreign_key_failures keeps the largest consistent sub-dataset", "statement": "The call terminates; the resulting dataset has no foreign key failure; it is obtained from the original by deleting rows only (order kept); and any foreign-key-consistent dataset made only of original rows is contained in it, so no row is deleted needlessly.", "quantifier": "every schema, including cyclic and self-referencing foreign keys, and every dataset", "why_tests_cant": "maximality quantifies over all sub-datasets; cascades have unbounded depth", "anchors": ["ticdat/ticdatfactory.py:TicDatFactory.remove_foreign_key_failures"]}
{"id": "C09", "title": "remove_foreign_key_failures(propagate=False) removes exactly the reported rows", "statement": "With propagate=False precisely the rows reported by find_foreign_key_failures on the original data are removed, also for tables without primary key where rows are removed by position.", "quantifier": "every schema and dataset", "why_tests_cant": "index shifting bugs depend on the set of positions removed", "anchors": ["ticdat/ticdatfactory.py:TicDatFactory.remove_foreign_key_failures"]}
{"id": "C10", "title": "Removal is idempotent and neutral on clean data", "statement": "On a dataset with no foreign key failures remove_foreign_key_failures changes nothing; applying it twice equals applying it once.", "quantifier": "every schema and dataset", "why_tests_cant": "universally quantified law", "anchors": ["ticdat/ticdatfactory.py:TicDatFactory.remove_foreign_key_failures"]}
{"id": "C11", "title": "Every mapped pair of a foreign key is enforced", "statement": "If a foreign key maps two native fields to the same foreign field, a native row whose cells for one of them match no parent is reported.", "quantifier": "every foreign key accepted by add_foreign_key and every dataset", "why_tests_cant": "only schemas with shared foreign fields exhibit it", "anchors": ["ticdat/utils.py:ForeignKey.foreigntonativemapping", "ticdat/ticdatfactory.py:TicDatFactory.find_foreign_key_failures", "ticdat/ticdatfactory.py:TicDatFactory.add_foreign_key"]}
{"id": "C12", "title": "PanDat removal computes the same largest consistent sub-dataset", "statement": "PanDatFactory.remove_foreign_key_failures, which clears one foreign key per iteration, terminates with the largest foreign-key-consistent sub-dataset, independently of the order in which foreign keys are listed.", "quantifier": "every schema, dataset and foreign key order", "why_tests_cant": "order independence ranges over all interleavings of clearing steps", "anchors": ["ticdat/pandatfactory.py:PanDatFactory.remove_foreign_key_failures", "ticdat/pandatfactory.py:PanDatFactory._find_foreign_key_failure_rows"]}
{"id": "C13", "title": "PanDat foreign key matching uses the parent's original columns", "statement": "PanDatFactory.find_foreign_key_failures reports a child row exactly when no parent row matches on all mapped fields, whatever the field names in the two tables are.", "quantifier": "every compound mapping and every pair of tables", "why_tests_cant": "only particular overlaps between child and parent field names matter", "anchors": ["ticdat/pandatfactory.py:PanDatFactory._find_foreign_key_failure_rows"]}
{"id": "C14", "title": "Implied foreign keys never change the verdict", "statement": "Calling add_implied_foreign_keys does not change whether find_foreign_key_failures reports anything.", "quantifier": "every schema and dataset", "why_tests_cant": "quantifies over chains of foreign keys of any length and all data", "anchors": ["ticdat/ticdatfactory.py:TicDatFactory.add_implied_foreign_keys", "ticdat/ticdatfactory.py:TicDatFactory._simple_fk"]}
{"id": "C15", "title": "Cardinality labels mean what they say", "statement": "A foreign key labelled X-to-one has at most one matching parent row for every child row; a foreign key labelled one-to-X has at most one child row for each combination of mapped values.", "quantifier": "every schema, mapping and dataset", "why_tests_cant": "semantic claim about all data derived from a schema-only label", "anchors": ["ticdat/ticdatfactory.py:TicDatFactory.foreign_keys", "ticdat/pandatfactory.py:PanDatFactory.foreign_keys"]}
{"id": "C16", "title": "The circular foreign key warning is exact", "statement": "Adding a foreign key from N to F is flagged as circular exactly when N is reachable from F along existing foreign keys (or N = F).", "quantifier": "every foreign key graph", "why_tests_cant": "reachability over arbitrary graphs; also termination on graphs that are already cyclic", "anchors": ["ticdat/utils.py:does_new_fk_complete_circle"]}
{"id": "C17", "title": "Postgres load order puts parents first", "statement": "The table order used to create, load and (reversed) delete postgres tables contains every table exactly once, and when the foreign keys are acyclic every foreign table precedes its native tables; it is produced for cyclic schemas as well.", "quantifier": "every foreign key graph and every table enumeration order", "why_tests_cant": "depends on set iteration order and graph shape", "anchors": ["ticdat/pgtd.py:_PostgresFactory._ordered_tables", "ticdat/pgtd.py:_PostgresFactory._handle_prexisting_rows"]}
{"id": "C18", "title": "SQLite schema generation always terminates", "statement": "write_db_schema / write_db_data / write_sql_file can order the tables of every schema that add_foreign_key accepts.", "quantifier": "every foreign key graph", "why_tests_cant": "only cyclic or self-referencing graphs exhibit it", "anchors": ["ticdat/sqlitetd.py:SQLiteTicFactory._ordered_tables"]}
{"id": "C19", "title": "schema / create_from_full_schema round trip", "statement": "create_from_full_schema(schema(include_ancillary_info=True)) yields a factory with the same tables, fields (in order), foreign keys, data types, default values, parameters, infinity flag and tooltips.", "quantifier": "every history of schema-building calls accepted by the library", "why_tests_cant": "all reachable factory states, not a sample schema", "anchors": ["ticdat/ticdatfactory.py:TicDatFactory.schema", "ticdat/ticdatfactory.py:TicDatFactory.create_from_full_schema", "ticdat/utils.py:make_tooltips_dict_json_friendly"]}
{"id": "C20", "title": "clone(table_restrictions) keeps exactly the requested tables and everything about them", "statement": "Cloning with a subset of the tables succeeds and keeps, for those tables only, fields, data types, defaults, tooltips and precisely the foreign keys with both ends kept.", "quantifier": "every factory and every non-empty subset of its tables", "why_tests_cant": "all schema/subset combinations (generic and generator tables included)", "anchors": ["ticdat/ticdatfactory.py:TicDatFactory.clone", "ticdat/utils.py:clone_a_anchillary_info_schema"]}
{"id": "C21", "title": "Column edits preserve everything else", "statement": "clone_add_a_column inserts the field at the requested position and changes nothing else; clone_remove_a_column removes the field with its type, default, tooltip and foreign keys and nothing else; clone_rename_a_column succeeds for every column and renames it consistently in fields, types, defaults, foreign keys and tooltips, keeping its position.", "quantifier": "every factory, table, field and position", "why_tests_cant": "position and frame conditions over all schemas", "anchors": ["ticdat/utils.py:clone_add_a_column", "ticdat/utils.py:clone_remove_a_column", "ticdat/utils.py:clone_rename_a_column"]}
{"id": "C22", "title": "A factory that has produced data is locked", "statement": "Once a TicDat object has been created, no sequence of calls can change the factory's tables, data types, default values, foreign keys, row predicates, generator tables or parameters.", "quantifier": "every sequence of API calls after first use", "why_tests_cant": "history property over unbounded call sequences", "anchors": ["ticdat/ticdatfactory.py:TicDatFactory._trigger_has_been_used", "ticdat/ticdatfactory.py:TicDatFactory.remove_parameter", "ticdat/ticdatfactory.py:TicDatFactory.add_parameter"]}
{"id": "C23", "title": "Automatic predicate names never clobber a predicate", "statement": "add_data_row_predicate without a name uses the smallest non-negative number not already naming a predicate of the table, so existing predicates are untouched.", "quantifier": "every history of predicate additions and removals", "why_tests_cant": "depends on gaps created by removals in any order", "anchors": ["ticdat/ticdatfactory.py:TicDatFactory.add_data_row_predicate"]}
{"id": "C24", "title": "Default values, data types and tooltips follow the last call", "statement": "After any sequence of set/clear calls, the default value, data type and tooltip visible for a (table, field) is the one from the last accepted call for that pair; calls for other pairs never interfere; rejected calls change nothing.", "quantifier": "every sequence of calls", "why_tests_cant": "history property", "anchors": ["ticdat/ticdatfactory.py:TicDatFactory.set_default_value", "ticdat/ticdatfactory.py:TicDatFactory.set_data_type", "ticdat/utils.py:set_tooltip"]}
{"id": "C25", "title": "TicDat construction stores the rows that were passed in", "statement": "For rows given as dicts, sequences or scalars, keyed or not, each stored row has exactly the schema's data fields, each given cell is stored under its field, each missing cell of a dict row gets the field's default value (0 if none), and ill-shaped rows are rejected.", "quantifier": "every schema, default set and input table", "why_tests_cant": "shape/field/default combinations are unbounded", "anchors": ["ticdat/ticdatfactory.py:TicDatFactory.TicDat.__init__", "ticdat/utils.py:td_row_factory"]}
{"id": "C26", "title": "Defaults apply to dict rows of list-style input for keyed tables", "statement": "Building a primary-key table from a list of dicts fills a missing data field with the declared default value, as for every other dict row.", "quantifier": "every schema with a non-zero default and every list of dict rows", "why_tests_cant": "one input style out of many", "anchors": ["ticdat/ticdatfactory.py:TicDatFactory.TicDat.__init__"]}
{"id": "C27", "title": "duplicates_ticdat_init='assert' detects exactly the lost rows", "statement": "With the default 'assert' setting, constructing a keyed table from a list of rows raises exactly when two rows share a primary key; otherwise no row is lost.", "quantifier": "every list of rows", "why_tests_cant": "quantifies over all row lists (incl. keys equal under Python ==, such as 1, 1.0 and True)", "anchors": ["ticdat/ticdatfactory.py:TicDatFactory.TicDat.__init__"]}
{"id": "C28", "title": "Frozen data cannot be edited", "statement": "After freeze_me no sequence of dict, list or row operations on the tables and rows changes the data.", "quantifier": "every sequence of public container operations on every frozen object", "why_tests_cant": "unbounded histories over the whole container API", "anchors": ["ticdat/utils.py:FreezeableDict", "ticdat/ticdatfactory.py:TicDatFactory.TicDat._freeze", "ticdat/utils.py:td_row_factory"]}
{"id": "C29", "title": "Freezing covers foreign key links", "statement": "After freeze_me the foreign key link dictionaries reachable from rows are frozen too.", "quantifier": "every object with foreign key links", "why_tests_cant": "depends on link dictionaries being registered for freezing", "anchors": ["ticdat/ticdatfactory.py:TicDatFactory.TicDat._freeze", "ticdat/ticdatfactory.py:TicDatFactory.TicDat._try_make_foreign_links"]}
{"id": "C30", "title": "as_dict / TicDat round trip and copy_tic_dat", "statement": "TicDat(**as_dict(dat)) and copy_tic_dat(dat) contain exactly the same keys and cells in the same order as dat.", "quantifier": "every schema and dataset", "why_tests_cant": "universally quantified round trip", "anchors": ["ticdat/ticdatfactory.py:TicDatFactory.as_dict", "ticdat/ticdatfactory.py:TicDatFactory.copy_tic_dat"]}
{"id": "C31", "title": "Data comparison is an equivalence", "statement": "The library's dataset comparison is reflexive and symmetric.", "quantifier": "all pairs of datasets", "why_tests_cant": "needs all pairs, in particular lists of rows with repeats", "anchors": ["ticdat/ticdatfactory.py:TicDatFactory._same_data"]}
{"id": "C32", "title": "Row objects never gain or lose fields", "statement": "After any sequence of row reads and writes a TicDat row still has exactly the table's data fields; writes to other names raise; a write changes exactly the written field and is read back.", "quantifier": "every sequence of operations on rows", "why_tests_cant": "history property", "anchors": ["ticdat/utils.py:td_row_factory"]}
{"id": "C33", "title": "Reading a missing key inserts the default row once", "statement": "On an unfrozen keyed table dat.t[k] for an absent k inserts the default row and returns it; present keys, .get and 'in' never insert; a frozen table raises instead; keys of the wrong length are rejected.", "quantifier": "every sequence of table operations", "why_tests_cant": "history property over unbounded operation sequences", "anchors": ["ticdat/ticdatfactory.py:TicDatFactory.TicDat.__init__ (TicDatDict)"]}
{"id": "C34", "title": "Infinity flagging round trips", "statement": "For every valid cell of a field, writing then reading under the same infinity_io_flag gives back the same cell: with a numeric flag for all values below the flag in magnitude and both infinities, with the None flag for every valid cell of a field whose type does not allow both infinities while forbidding None (writing such a field raises), with 'N/A' for every cell. Cells that the type-driven conversions rewrite are excepted: numbers in disguise in fields that automunge, and dates in datetime fields, which always come back as that datetime.", "quantifier": "every data type, flag and cell value", "why_tests_cant": "all numbers including infinities and boundary values", "anchors": ["ticdat/ticdatfactory.py:TicDatFactory._infinity_flag_write_cell", "ticdat/ticdatfactory.py:TicDatFactory._general_read_cell", "ticdat/ticdatfactory.py:TicDatFactory._none_as_infinity_bias"]}
{"id": "C35", "title": "Infinity flagging leaves the parameters table alone", "statement": "As documented by set_infinity_io_flag, none of the flag replacements is applied to the parameters table.", "quantifier": "every cell of the parameters table under every flag", "why_tests_cant": "depends on whether add_parameter was used", "anchors": ["ticdat/ticdatfactory.py:TicDatFactory._infinity_flag_write_cell", "ticdat/ticdatfactory.py:TicDatFactory.set_infinity_io_flag"]}
{"id": "C36", "title": "The infinity-bias cache is never stale", "statement": "After any sequence of set_data_type, clear_data_type, set_infinity_io_flag and cell reads/writes, each cell is flagged according to the current data types and flag.", "quantifier": "every history of calls", "why_tests_cant": "cache coherence over unbounded histories", "anchors": ["ticdat/ticdatfactory.py:TicDatFactory._none_as_infinity_bias", "ticdat/ticdatfactory.py:TicDatFactory.set_data_type", "ticdat/ticdatfactory.py:TicDatFactory.clear_data_type"]}
{"id": "C37", "title": "JSON round trip", "statement": "Writing a dataset to json (verbose or not) and reading it back yields the same dataset: same tables, keys, order of rows and cells (cells the cell-level round trip of C34 covers).", "quantifier": "every schema and dataset", "why_tests_cant": "universally quantified round trip over both formats", "anchors": ["ticdat/jsontd.py:make_json_dict", "ticdat/jsontd.py:JsonTicFactory._create_tic_dat_dict"]}
{"id": "C38", "title": "JSON find_duplicates sees the tables create_tic_dat sees", "statement": "json.find_duplicates reports duplicates for every table that create_tic_dat would load from the same json, including tables matched case/space-insensitively.", "quantifier": "every json document", "why_tests_cant": "needs documents with non-literal table keys", "anchors": ["ticdat/jsontd.py:JsonTicFactory.find_duplicates", "ticdat/utils.py:find_duplicates_from_dict_ticdat"]}
{"id": "C39", "title": "SQL string literals round trip", "statement": "A string cell written by write_sql_file is a single well-formed SQL literal that denotes the original string.", "quantifier": "every string", "why_tests_cant": "quote placement over all strings", "anchors": ["ticdat/sqlitetd.py:_fix_str", "ticdat/sqlitetd.py:_insert_format"]}
{"id": "C40", "title": "SQLite writes apply cell conversion to every table", "statement": "True/False are written as \"True\"/\"False\" and infinity flagging is applied in every table, with or without a primary key.", "quantifier": "every table and cell", "why_tests_cant": "the two kinds of tables take different code paths", "anchors": ["ticdat/sqlitetd.py:SQLiteTicFactory._get_data", "ticdat/sqlitetd.py:SQLiteTicFactory._write_data_cell"]}
{"id": "C41", "title": "A .sql file is split back into the statements that were written", "statement": "Reading a file produced by write_sql_file executes exactly the statements written.", "quantifier": "every dataset", "why_tests_cant": "depends on cell contents", "anchors": ["ticdat/sqlitetd.py:SQLiteTicFactory._create_tic_dat_from_sql"]}
{"id": "C42", "title": "CSV/Excel readers obey the current data types and defaults", "statement": "A cell read by csv or xls is converted according to the factory's data types and default values at the time of the read.", "quantifier": "every history of find_duplicates, set_data_type, set_default_value and reads", "why_tests_cant": "cache coherence over histories", "anchors": ["ticdat/csvtd.py:CsvTicFactory._get_dv_dt", "ticdat/xls.py:XlsTicFactory._get_dv_dt"]}
{"id": "C43", "title": "csv.write_directory never overwrites without permission", "statement": "With allow_overwrite=False no pre-existing file is overwritten.", "quantifier": "every directory content, table set and naming option", "why_tests_cant": "depends on the pretty-name option and directory contents", "anchors": ["ticdat/csvtd.py:CsvTicFactory.write_directory"]}
{"id": "C44", "title": "Pretty table names are always found again", "statement": "A file, sheet or table written under the case/space 'pretty' name is matched by the reader to the table it was written for, and to no other table.", "quantifier": "every set of legal table names", "why_tests_cant": "name collisions over all strings", "anchors": ["ticdat/utils.py:case_space_to_pretty", "ticdat/csvtd.py:CsvTicFactory._get_file_path", "ticdat/xls.py:XlsTicFactory._get_sheets_and_fields"]}
{"id": "C45", "title": "Underscore replacements are exactly the space variants", "statement": "The candidate names tried for a table are exactly the strings obtained by turning some of its underscores into spaces, each once, the name itself first.", "quantifier": "every string", "why_tests_cant": "2^k variants for unbounded k", "anchors": ["ticdat/utils.py:all_underscore_replacements"]}
{"id": "C46", "title": "Excel sheet names cannot be confused", "statement": "If write_file accepts a set of tables, the sheet written for a table is read back for that table only.", "quantifier": "every set of table names accepted by the factory", "why_tests_cant": "collisions after truncation to 30 characters over all names", "anchors": ["ticdat/xls.py:XlsTicFactory._verify_differentiable_sheet_names", "ticdat/xls.py:XlsTicFactory._get_sheets_and_fields"]}
{"id": "C47", "title": "Trailing empty rows are pruned exactly", "statement": "Pruning removes precisely the longest suffix of all-null rows and nothing else (pandas binary search and openpyxl scan agree).", "quantifier": "every table", "why_tests_cant": "binary search correctness on all lengths and patterns", "anchors": ["ticdat/pandatfactory.py:remove_trailing_all_nan", "ticdat/xls.py:_OpenPyxlSheetWrapper"]}
{"id": "C48", "title": "Slicer returns exactly the matching tuples", "statement": "slice(*args) returns, in original order, exactly the tuples agreeing with args at all non-'*' positions, whatever slices or clear calls came before.", "quantifier": "every index list, pattern and call history", "why_tests_cant": "cache transparency over histories", "anchors": ["ticdat/utils.py:Slicer.slice", "ticdat/utils.py:Slicer.clear"]}
{"id": "C49", "title": "Duplicate reports count exactly", "statement": "find_duplicates reports exactly the primary keys occurring more than once, with their exact number of occurrences.", "quantifier": "every table contents", "why_tests_cant": "counting law over unbounded data", "anchors": ["ticdat/utils.py:find_duplicates", "ticdat/utils.py:find_duplicates_from_dict_ticdat", "ticdat/csvtd.py:CsvTicFactory.find_duplicates", "ticdat/xls.py:XlsTicFactory.find_duplicates"]}
{"id": "C50", "title": "PanDat find_duplicates keep options", "statement": "keep='first'/'last' flags all but the first/last occurrence of each key, keep=False flags all occurrences of repeated keys; dropping the flagged rows ('first'/'last') leaves exactly one row per key.", "quantifier": "every table contents", "why_tests_cant": "law over all data", "anchors": ["ticdat/pandatfactory.py:PanDatFactory.find_duplicates"]}
{"id": "C51", "title": "Reserved-keyword renaming is reversible", "statement": "Renaming fields that collide with reserved keywords and undoing it gives back the original fields; renaming never makes two fields collide.", "quantifier": "every schema and keyword set", "why_tests_cant": "all field name sets", "anchors": ["ticdat/utils.py:change_fields_with_reserved_keywords"]}
{"id": "C52", "title": "obfusimplify renames injectively", "statement": "The renamings dictionary of obfusimplify is a bijection between new names and (table, key) pairs: no two entities get the same new name.", "quantifier": "every set of distinct table prefixes and every dataset", "why_tests_cant": "collision freedom over unbounded tables and rows", "anchors": ["ticdat/ticdatfactory.py:TicDatFactory.obfusimplify"]}
{"id": "C53", "title": "obfusimplify can always find a table prefix", "statement": "For every schema obfusimplify finds an unused prefix for each entity table.", "quantifier": "every schema size", "why_tests_cant": "only schemas with many colliding prefixes reach the fallback", "anchors": ["ticdat/ticdatfactory.py:TicDatFactory.obfusimplify", "ticdat/utils.py:baseConverter"]}
{"id": "C54", "title": "Row predicate failures are exact and exceptions handled as documented", "statement": "find_data_row_failures reports a row for a predicate exactly when the predicate returns falsey (Boolean) or anything but True (Error Message), with exceptions counted as failures only under 'Handled as Failure'.", "quantifier": "every predicate (any function, possibly raising) and every dataset", "why_tests_cant": "quantifies over all predicates", "anchors": ["ticdat/ticdatfactory.py:TicDatFactory.find_data_row_failures", "ticdat/pandatfactory.py:PanDatFactory.find_data_row_failures"]}
{"id": "C55", "title": "predicate_kwargs_maker receives the right dat", "statement": "Every predicate_kwargs_maker is evaluated once per call on the converted dat if its predicate was cloned with convert_dat, and on the dat itself otherwise.", "quantifier": "every combination of predicates sharing makers", "why_tests_cant": "depends on sharing and order of predicates", "anchors": ["ticdat/ticdatfactory.py:TicDatFactory.find_data_row_failures"]}
{"id": "C56", "title": "create_full_parameters_dict overlays data on defaults", "statement": "create_full_parameters_dict returns a dictionary with exactly the declared parameters plus those present in the data; data wins over defaults, and datetime defaults are coerced.", "quantifier": "every parameters table and every set of declared parameters", "why_tests_cant": "overlay law over all tables", "anchors": ["ticdat/ticdatfactory.py:TicDatFactory.create_full_parameters_dict"]}
{"id": "C57", "title": "Postgres name normalisation is stable", "statement": "The postgres name of a field is a fixed point of normalisation, contains only letters, digits and underscores, never starts with a digit, and distinct fields of an accepted schema never share a postgres name.", "quantifier": "every string / every accepted schema", "why_tests_cant": "all strings", "anchors": ["ticdat/pgtd.py:_pg_name", "ticdat/pgtd.py:_PostgresFactory._check_good_pgtd_compatible_table_field_names"]}
{"id": "C58", "title": "ampl_format substitutes double braces only", "statement": "ampl_format replaces each {{name}} by its argument and leaves single braces untouched.", "quantifier": "every template built from text without braces, single braces and placeholders", "why_tests_cant": "string rewriting over all templates", "anchors": ["ticdat/utils.py:ampl_format"]}
{"id": "C59", "title": "faster_df_apply visits every row once and honours the trip wire", "statement": "faster_df_apply returns one result per row in row order; once the trip wire supplies a replacement function it is used for all later rows and never consulted again.", "quantifier": "every table, function and trip wire", "why_tests_cant": "stateful call-back protocol over all lengths", "anchors": ["ticdat/utils.py:faster_df_apply"]}
{"id": "C60", "title": "log_table writes the header and at most max_write rows", "statement": "log_table writes the header plus the first min(max_write, n) rows in order, and announces truncation exactly when rows are omitted.", "quantifier": "every table and bound", "why_tests_cant": "all lengths and bounds", "anchors": ["ticdat/utils.py:LogFile.log_table"]}
{"id": "C61", "title": "PanDat replacement honours explicit primary key replacements", "statement": "PanDatFactory.replace_data_type_failures accepts, as documented, a replacement value for a primary key field that has no default value.", "quantifier": "every schema and replacement dictionary", "why_tests_cant": "only replacement dictionaries naming key fields exhibit it", "anchors": ["ticdat/pandatfactory.py:PanDatFactory.replace_data_type_failures"]}
{"id": "C62", "title": "max_failures truncates foreign key reports correctly (TicDat and PanDat)", "statement": "With max_failures=m the truncated foreign key report is a subset of the full one and lists exactly min(ceil(m), total) failures.", "quantifier": "every dataset, foreign key order and bound", "why_tests_cant": "all positions of the short circuit", "anchors": ["ticdat/ticdatfactory.py:TicDatFactory.find_foreign_key_failures", "ticdat/pandatfactory.py:PanDatFactory._find_foreign_key_failure_rows"]}
{"id": "C63", "title": "dict_overlay, deep_freeze and deep_copy preserve content", "statement": "deep_copy(deep_freeze(x)) has the same content as x with sequences turned into tuples; deep_freeze is idempotent.", "quantifier": "every nested structure of dicts, lists, tuples, sets and scalars", "why_tests_cant": "structural induction over unbounded nesting", "anchors": ["ticdat/utils.py:deep_freeze", "ticdat/utils.py:deep_copy", "ticdat/utils.py:dict_overlay"]}
{"id": "C64", "title": "Untyped primary key fields reject only null", "statement": "As documented, find_data_type_failures applies to primary key fields without a data type a filter that excludes only null: a non-null key value (boolean and datetime keys included) is never reported for such a field.", "quantifier": "every dataset and every non-null key value", "why_tests_cant": "only boolean or datetime keys exhibit it", "anchors": ["ticdat/ticdatfactory.py:TicDatFactory.find_data_type_failures", "ticdat/utils.py:TypeDictionary.valid_data"]}
{"id": "C65", "title": "Foreign key links hold exactly the referring rows", "statement": "With foreign key links enabled, the link dictionary of a foreign row contains exactly the native rows that refer to it, each under the part of its key the foreign key does not determine; a one-to-one link is the single referring row, and building links never raises on valid data.", "quantifier": "every schema, simple foreign key and pair of tables", "why_tests_cant": "needs all key shapes and all data; injectivity of the remaining key", "anchors": ["ticdat/ticdatfactory.py:TicDatFactory.TicDat._try_make_foreign_links"]}
{"id": "C66", "title": "Different foreign keys get different link attributes", "statement": "Two different foreign keys between the same tables are linked under different attribute names, whatever order sets iterate in.", "quantifier": "every set of foreign keys and every set iteration order", "why_tests_cant": "set iteration order is not controllable in tests; field names are arbitrary strings", "anchors": ["ticdat/ticdatfactory.py:TicDatFactory._trigger_has_been_used"]}
{"id": "C67", "title": "PanDat infinity flagging round trips", "statement": "PanDat writes flag every infinite (or out of range) cell of every column and reads undo it: a table whose cells are valid and below the flag comes back unchanged under a numeric flag, and under the None flag whenever the write does not raise. Only columns with something to flag are touched, but no cell is missed.", "quantifier": "every flag, every table with distinct columns, every number of rows", "why_tests_cant": "column masks computed over unbounded tables", "anchors": ["ticdat/pandatfactory.py:PanDatFactory._pre_write_adjustment", "ticdat/pandatfactory.py:PanDatFactory._general_post_read_adjustment"]}
{"id": "C68", "title": "Parameters stored as strings come back typed", "statement": "A reader's post-read adjustment of the parameters table turns the string form of a parameter back into the value it stands for according to the parameter's declared type, changes nothing when applied twice, and leaves text parameters alone.", "quantifier": "every declared type, every parameter name and stored value", "why_tests_cant": "depends on type, string content and nullability together", "anchors": ["ticdat/ticdatfactory.py:TicDatFactory._parameter_table_post_read_adjustment"]}
{"id": "C69", "title": "convert_dat applies to copied row predicates and to no others", "statement": "After clone(convert_dat=...), a predicate_kwargs_maker copied by the clone is called on the converted dat, and those of row predicates added later are not.", "quantifier": "every factory and every history of predicates added after the clone", "why_tests_cant": "depends on names and histories of predicates", "anchors": ["ticdat/ticdatfactory.py:TicDatFactory.clone", "ticdat/ticdatfactory.py:TicDatFactory.find_data_row_failures"]}
{"id": "C70", "title": "max_failures truncates row predicate reports correctly", "statement": "With max_failures=m the row predicate report is a part of the full one (each entry a prefix) and holds exactly min(ceil(m), total) failures, a failed predicate_kwargs_maker counting as one.", "quantifier": "every dataset, predicate set and positive bound", "why_tests_cant": "needs all positions of the short circuit", "anchors": ["ticdat/ticdatfactory.py:TicDatFactory.find_data_row_failures"]}
{"id": "C71", "title": "The built-in parameters check reports exactly the bad parameters", "statement": "When parameters are declared, find_data_row_failures also lists, under a predicate name no client predicate uses, exactly the rows of the parameters table whose name is undeclared or whose value is invalid for its declared type; all client predicates are still run.", "quantifier": "every reachable factory (any client predicate names) and every parameters table", "why_tests_cant": "name clashes and values are unbounded", "anchors": ["ticdat/ticdatfactory.py:TicDatFactory.find_data_row_failures", "ticdat/ticdatfactory.py:TicDatFactory.add_parameter"]}
{"id": "C72", "title": "PanDatFactory and TicDatFactory report the same row predicate failures", "statement": "For the same predicates, data and bound, PanDatFactory.find_data_row_failures lists the same failures with the same messages as TicDatFactory, raises in the same cases and stops at the same failure, although it evaluates predicates by table with trip wires.", "quantifier": "every dataset, predicate set, bound and exception mode", "why_tests_cant": "two different loops over all inputs", "anchors": ["ticdat/pandatfactory.py:PanDatFactory.find_data_row_failures", "ticdat/utils.py:faster_df_apply"]}
{"id": "C73", "title": "Postgres columns never get a reserved name", "statement": "When PgTicFactory accepts a schema, no column name it writes in the generated DDL or SQL (the unquoted _pg_name of a field) is one of the reserved words the acceptance check is meant to keep out.", "quantifier": "for every schema accepted by the compatibility check and every field", "why_tests_cant": "The check looks at the field's own lower-cased spelling, the SQL uses the spelling after _pg_name; they differ on any field with a non-alphanumeric character, and which of the unboundedly many spellings map onto a reserved word is not sampled by tests.", "anchors": ["ticdat/pgtd.py:_pg_name", "ticdat/pgtd.py:_PostgresFactory._check_good_pgtd_compatible_table_field_names"]}
{"id": "C74", "title": "PanDat data type failure report is exact, bounded or not", "statement": "PanDatFactory.find_data_type_failures flags a row for (table, field) exactly when that cell is rejected by the type enforced on the column (declared, or non-null for undeclared key fields); with max_failures=m the flags are a subset of those and there are exactly min(ceil(m), total) of them.", "quantifier": "every schema, data types, DataFrames and positive bound", "why_tests_cant": "all cells and all positions of the short circuit, which is hidden in a stateful closure passed to pandas", "anchors": ["ticdat/pandatfactory.py:PanDatFactory.find_data_type_failures", "ticdat/pandatfactory.py:PanDatFactory._true_data_types"]}
{"id": "C75", "title": "PanDat replacement changes exactly the failing cells, or nothing", "statement": "PanDatFactory.replace_data_type_failures, when it returns, has put the given replacement or else the default into exactly the failing cells of columns that have one and left every other cell, row and column alone; when it raises the data is untouched; and it raises exactly for unknown tables or fields, for replacements of typed or key columns without default while some cell fails, or for a needed replacement that is itself invalid. Its closing assertion never fires.", "quantifier": "every schema, data types, defaults, replacement dictionary and DataFrames", "why_tests_cant": "frame conditions over all other cells and all replacement dictionaries", "anchors": ["ticdat/pandatfactory.py:PanDatFactory.replace_data_type_failures"]}
{"id": "C76", "title": "obfusimplify's copy is the renamed original", "statement": "The copy returned by obfusimplify has the same rows in the same order as the original; each cell that refers to a renamed entity (as its own key, or through a declared or implied foreign key) holds that entity's new name and every other cell is unchanged; no two rows are merged.", "quantifier": "every schema, foreign keys, data, prefix and skip arguments and set iteration order", "why_tests_cant": "relates all rows and cells of two data objects through a computed renaming", "anchors": ["ticdat/ticdatfactory.py:TicDatFactory.obfusimplify"]}
{"id": "C77", "title": "obfusimplify succeeds on data without foreign key failures", "statement": "For a good data object without foreign key failures whose keys can be sorted, and once prefixes are found, obfusimplify returns a copy instead of raising KeyError or AssertionError.", "quantifier": "every schema, foreign keys and consistent data", "why_tests_cant": "depends on how renaming columns commutes with every declared and implied foreign key", "anchors": ["ticdat/ticdatfactory.py:TicDatFactory.obfusimplify"]}
{"id": "C78", "title": "Malformed JSON rows are refused", "statement": "json.create_tic_dat raises when a row of a table does not have exactly one cell per field (list rows) or names an unknown field (dict rows); no cell of the file is silently dropped.", "quantifier": "every document and schema", "why_tests_cant": "needs every row length and row kind", "anchors": ["ticdat/jsontd.py:JsonTicFactory._create_tic_dat_dict"]}
{"id": "C79", "title": "SQL files work for every table and field name", "statement": "write_sql_file writes, for each row, the insertion of its literals into the table of that name under the names of its fields, whatever characters the names contain.", "quantifier": "every schema and dataset", "why_tests_cant": "needs every name", "anchors": ["ticdat/sqlitetd.py:SQLiteTicFactory._get_data"]}
{"id": "C80", "title": "SQLite database round trip", "statement": "sql.create_tic_dat of a database written by sql.write_db_data returns the object written, up to the order of rows (cells spelled like inf, true or false excepted, as documented).", "quantifier": "every schema, factory settings, dataset and order of the rows returned by SQLite", "why_tests_cant": "chains cell conversion, binding, column affinity, key uniqueness and reading for all values", "anchors": ["ticdat/sqlitetd.py:SQLiteTicFactory.write_db_data", "ticdat/sqlitetd.py:SQLiteTicFactory._create_tic_dat_from_con", "ticdat/sqlitetd.py:SQLiteTicFactory._get_schema_sql"]}
{"id": "C81", "title": "CSV columns are matched by name", "statement": "csv.create_tic_dat takes each field from the one column whose header equals it up to case, whatever the order of the columns and whatever other columns there are; a file with data rows in which a field has no column or more than one is refused, as are lines longer than the header.", "quantifier": "every table schema, header, body and cell conversion", "why_tests_cant": "ranges over all headers, permutations, case variants and bodies", "anchors": ["ticdat/csvtd.py:CsvTicFactory._create_table", "ticdat/csvtd.py:CsvTicFactory._get_data"]}
{"id": "C82", "title": "Excel columns are matched by name at the row offset", "statement": "xls.create_tic_dat takes each field from the one column whose header cell in the row given by row_offsets equals it up to case, and the rows after it; a sheet without exactly one such column for some field is refused.", "quantifier": "every table schema, sheet, row offset and file format", "why_tests_cant": "ranges over all sheets, offsets and formats including leading empty rows", "anchors": ["ticdat/xls.py:XlsTicFactory._get_field_indicies", "ticdat/xls.py:XlsTicFactory._create_tic_dat_dict", "ticdat/xls.py:_OpenPyxlSheetWrapper"]}
{"id": "C83", "title": "CSV round trip", "statement": "csv.create_tic_dat of a directory written by csv.write_directory returns the object written, whatever other files are in the directory.", "quantifier": "every schema, factory settings, dataset and directory listing", "why_tests_cant": "chains cell conversion, text, header matching and row construction for all values", "anchors": ["ticdat/csvtd.py:CsvTicFactory.write_directory", "ticdat/csvtd.py:CsvTicFactory.create_tic_dat", "ticdat/csvtd.py:CsvTicFactory._read_cell"]}
{"id": "C84", "title": "Excel round trip", "statement": "xls.create_tic_dat of a file written by xls.write_file returns the object written, whatever other sheets are in the file.", "quantifier": "every schema, factory settings, dataset, format and order of sheets", "why_tests_cant": "chains cell conversion, sheet naming, header matching and row construction for all values", "anchors": ["ticdat/xls.py:XlsTicFactory.write_file", "ticdat/xls.py:XlsTicFactory.create_tic_dat", "ticdat/xls.py:XlsTicFactory._sub_tuple"]}
{"id": "C85", "title": "Rows with equal keys in CSV and Excel files", "statement": "With duplicates_ticdat_init set to assert, creating an object from files with two rows of one key is refused; find_duplicates reports exactly the keys on more than one row with the number of rows.", "quantifier": "every schema, file and duplicates setting", "why_tests_cant": "quantifies over all row multisets and settings", "anchors": ["ticdat/csvtd.py:CsvTicFactory.find_duplicates", "ticdat/xls.py:XlsTicFactory.find_duplicates", "ticdat/ticdatfactory.py:TicDatFactory.set_duplicates_ticdat_init"]}
{"id": "C86", "title": "Ambiguous sources are refused", "statement": "Each reader looks for the file, sheet, key or database table whose name equals the table's up to case and spaces for underscores: none leaves the table empty, one is read, several raise an error rather than being chosen among.", "quantifier": "every table name, listing, workbook, document and database", "why_tests_cant": "ranges over all sets of names", "anchors": ["ticdat/csvtd.py:CsvTicFactory._get_file_path", "ticdat/xls.py:XlsTicFactory._get_sheets_and_fields", "ticdat/jsontd.py:JsonTicFactory._create_tic_dat_dict", "ticdat/sqlitetd.py:SQLiteTicFactory._get_table_names", "ticdat/pandatio.py"]}
{"id": "C87", "title": "good_tic_dat_object is exact", "statement": "good_tic_dat_object (strict row checking, as used before solve functions) returns True exactly for objects whose every table has the documented shape - a dict with keys of the right length or a container, with dict rows holding exactly the data fields - and otherwise returns False after giving a message.", "quantifier": "every schema and object", "why_tests_cant": "ranges over all malformed objects", "anchors": ["ticdat/ticdatfactory.py:TicDatFactory.good_tic_dat_object", "ticdat/ticdatfactory.py:TicDatFactory._good_data_rows"]}
{"id": "C88", "title": "Tables accepted by good_tic_dat_table can be converted", "statement": "If good_tic_dat_table returns True for an object then the TicDat constructor accepts the object for that table.", "quantifier": "every table schema and object", "why_tests_cant": "relates two validators over all inputs", "anchors": ["ticdat/ticdatfactory.py:TicDatFactory.good_tic_dat_table", "ticdat/ticdatfactory.py:TicDatFactory._good_ticdat_key_container"]}
{"id": "C89", "title": "copy_to_pandas copies every table", "statement": "copy_to_pandas returns for each table asked for a DataFrame with the table's rows and cells in order, the key fields as index, columns or both as documented; passing the frames to the TicDat constructor gives an equal object (None among numbers excepted), and with the key columns kept they form a good PanDat object.", "quantifier": "every schema, dataset, table restriction and choice of options", "why_tests_cant": "ranges over all key shapes, empty tables and option combinations and composes two conversions", "anchors": ["ticdat/ticdatfactory.py:TicDatFactory.copy_to_pandas", "ticdat/ticdatfactory.py:TicDatFactory.__init__"]}
{"id": "C90", "title": "copy_to_tic_dat copies every row of a PanDat object", "statement": "PanDatFactory.copy_to_tic_dat turns every good PanDat object into a TicDat object holding the cells of each row (of rows with equal keys the last one), and raises exactly if duplicates_ticdat_init is assert and two rows have equal keys.", "quantifier": "every schema, PanDat object, column order, extra columns and duplicates setting", "why_tests_cant": "ranges over all schemas, including field names special to pandas, and all row multisets", "anchors": ["ticdat/pandatfactory.py:PanDatFactory.copy_to_tic_dat", "ticdat/pandatfactory.py:PanDatFactory._copy_to_tic_dat", "ticdat/ticdatfactory.py:TicDatFactory.good_tic_dat_table"]}
{"id": "C91", "title": "The PanDat constructor keeps all cells", "statement": "The PanDat constructor accepts a DataFrame exactly if each field is a column, a level of an index holding the primary key, or has a default; the table made has the fields first, then the other columns, and in every row the cells given or the defaults; lists of rows are taken by position; unknown tables are refused and tables not given are empty.", "quantifier": "every schema, defaults, DataFrames and lists of rows", "why_tests_cant": "ranges over all column orders, index shapes and missing columns", "anchors": ["ticdat/pandatfactory.py:PanDatFactory.__init__"]}
{"id": "C92", "title": "A run of standard_main solves and writes exactly when it should", "statement": "Without a Foresta file, standard_main calls solve once, with the data read from the input path, exactly if the input can be read and the integrity check, if asked for, finds nothing; it writes the solution once, to the output path, exactly if there is one; it writes the integrity report to the errors path exactly if asked to; otherwise it says why.", "quantifier": "every command line, file system, reader, integrity result and solve function", "why_tests_cant": "ranges over all outcomes of reading, checking and solving", "anchors": ["ticdat/utils.py:standard_main"]}
{"id": "C93", "title": "File endings decide the format, reading and writing alike", "statement": "standard_main reads and writes .json, .xls/.xlsx, .db, .sql, .mdb/.accdb paths in the format named, and anything else as a directory of CSV files; the same path is read in the format in which it is written.", "quantifier": "every path and factory type", "why_tests_cant": "ranges over all strings", "anchors": ["ticdat/utils.py:standard_main"]}
{"id": "C94", "title": "Command line options of standard_main", "statement": "Of repeated options the last counts, -h does nothing but print usage, short and long spellings mean the same, words that are no options are not ignored silently and incompatible options are refused.", "quantifier": "every command line", "why_tests_cant": "ranges over all lists of words", "anchors": ["ticdat/utils.py:standard_main"]}
{"id": "C95", "title": "The integrity report names each bad row", "statement": "The report written for -e holds, for each row with a repeated primary key, failing data type, orphaned foreign key or failing row predicate, the key fields (or all fields if there is no key) of this row, for predicates the message; the number of errors is zero exactly if there are none.", "quantifier": "every schema, types, foreign keys, predicates and data", "why_tests_cant": "ranges over all tables and widths of keys", "anchors": ["ticdat/utils.py:_integrity_solve", "ticdat/pandatfactory.py:PanDatFactory.find_duplicates"]}
{"id": "C96", "title": "The integrity report agrees with TicDatFactory", "statement": "For a TicDat engine, the rows reported with -e, found by a PanDatFactory on converted data, are the rows that find_data_type_failures and find_foreign_key_failures of TicDatFactory report, so solve is run exactly if these find nothing.", "quantifier": "every schema, types, foreign keys and dataset", "why_tests_cant": "relates two implementations on all inputs", "anchors": ["ticdat/utils.py:_integrity_solve", "ticdat/ticdatfactory.py:TicDatFactory.find_foreign_key_failures", "ticdat/pandatfactory.py:PanDatFactory.find_foreign_key_failures"]}
{"id": "C97", "title": "PanDat readers keep every row and refuse exactly what they must", "statement": "The csv, sql, xls and json readers of a PanDatFactory raise exactly if a table found lacks a field that cannot be filled with a default (or None stands for infinity with an unclear sign); otherwise every row read is there in order with the cells of the columns named like its fields, or the default; missing tables are treated as documented (an exception for csv, an empty table elsewhere).", "quantifier": "every schema, factory settings and DataFrames read", "why_tests_cant": "quantifies over all settings, columns and rows; depends on the order of filling, constructing and adjusting", "anchors": ["ticdat/pandatio.py:CsvPanFactory.create_pan_dat", "ticdat/pandatio.py:SqlPanFactory.create_pan_dat", "ticdat/pandatio.py:XlsPanFactory.create_pan_dat", "ticdat/pandatio.py:JsonPanFactory.create_pan_dat", "ticdat/pandatio.py:_clean_pandat_creator", "ticdat/pandatfactory.py:PanDatFactory._general_post_read_adjustment"]}
{"id": "C98", "title": "PanDat JSON round trip", "statement": "json.create_pan_dat of what json.write_file wrote gives an equal PanDat object (None and NaN apart), for every schema, and other keys in the document do not matter.", "quantifier": "every schema, factory settings and dataset", "why_tests_cant": "chains infinity flags, dates as text, null handling and pandas construction for arbitrary cells", "anchors": ["ticdat/pandatio.py:JsonPanFactory.write_file", "ticdat/pandatio.py:JsonPanFactory.create_pan_dat", "ticdat/pandatfactory.py:PanDatFactory._pre_write_adjustment", "ticdat/pandatfactory.py:PanDatFactory._general_post_read_adjustment"]}
{"id": "C99", "title": "PanDat Excel reading prunes trailing empty rows", "statement": "With xlsx_trailing_empty_rows set to prune, exactly the rows without any data at the end of a sheet are left out of the table.", "quantifier": "every sheet and factory settings", "why_tests_cant": "interplay of pruning with infinity flags for any number of rows", "anchors": ["ticdat/pandatio.py:XlsPanFactory.create_pan_dat", "ticdat/pandatfactory.py:PanDatFactory._general_post_read_adjustment"]}
{"id": "C100", "title": "Writing again to one place replaces the data", "statement": "After writing PanDat objects several times to one directory or SQLite file, reading gives the object written last, whatever else is in that place, and the rest of that place is unchanged.", "quantifier": "every schema, every sequence of writes, every other content", "why_tests_cant": "ranges over histories of writes and directory contents", "anchors": ["ticdat/pandatio.py:CsvPanFactory.write_directory", "ticdat/pandatio.py:CsvPanFactory.create_pan_dat", "ticdat/pandatio.py:SqlPanFactory.write_file", "ticdat/pandatio.py:SqlPanFactory.create_pan_dat"]}
{"id": "C101", "title": "PanDat parameters keep type and validity", "statement": "A parameter stored as text is read by a PanDatFactory with its own type (number, date or text), and a value that is not allowed for a parameter is not turned into an allowed one.", "quantifier": "every parameter, type and value", "why_tests_cant": "quantifies over all type dictionaries and texts", "anchors": ["ticdat/pandatfactory.py:PanDatFactory._general_post_read_adjustment", "ticdat/pandatfactory.py:PanDatFactory.add_parameter"]}
{"id": "C102", "title": "Postgres columns follow the declarations", "statement": "pgsql.write_schema creates, for each table, one column per field named after it, of the type forced, declared or documented as default, nullable and with the default value as declared, the primary key of the table and exactly its foreign keys, and leaves other tables alone.", "quantifier": "every schema, factory settings, forced types and database", "why_tests_cant": "quantifies over all schemas and settings", "anchors": ["ticdat/pgtd.py:PostgresTicFactory._get_schema_sql", "ticdat/pgtd.py:PostgresTicFactory.write_schema"]}
{"id": "C103", "title": "Every factory with acceptable names gets a Postgres schema", "statement": "pgsql.write_schema succeeds for every factory whose table and field names are acceptable to Postgres and which has no generic tables, in a schema where the tables are not there yet.", "quantifier": "every schema, types, defaults and foreign keys", "why_tests_cant": "quantifies over all defaults and foreign key shapes", "anchors": ["ticdat/pgtd.py:PostgresTicFactory.write_schema", "ticdat/pgtd.py:PostgresTicFactory._get_schema_sql", "ticdat/pgtd.py:PostgresTicFactory._ordered_tables"]}
{"id": "C104", "title": "include_ancillary_info=False leaves out only the constraints", "statement": "pgsql.write_schema(include_ancillary_info=False) creates the same tables with the same column names and types as without this argument, but no primary and foreign keys.", "quantifier": "every schema, factory settings and forced types", "why_tests_cant": "relates two ways of generating a schema over all inputs", "anchors": ["ticdat/pgtd.py:PostgresTicFactory.write_schema"]}
{"id": "C105", "title": "Postgres round trip", "statement": "pgsql.create_tic_dat of a schema written by pgsql.write_schema and pgsql.write_data returns the object written, up to the order of rows.", "quantifier": "every schema, factory settings, dataset and order of the rows returned by Postgres", "why_tests_cant": "chains cell conversion, column types, constraints and reading for all values", "anchors": ["ticdat/pgtd.py:PostgresTicFactory.write_data", "ticdat/pgtd.py:PostgresTicFactory.create_tic_dat", "ticdat/pgtd.py:PostgresTicFactory._get_data"]}
{"id": "C106", "title": "What pgsql.write_data does to the rows there", "statement": "pgsql.write_data replaces the rows of each table by those of the object, or adds them with pre_existing_rows set to append, changes no other table, and leaves the data as it was if it raises.", "quantifier": "every schema, object, database and choice of pre_existing_rows", "why_tests_cant": "quantifies over databases and failures halfway", "anchors": ["ticdat/pgtd.py:PostgresTicFactory.write_data", "ticdat/pgtd.py:PostgresTicFactory._handle_prexisting_rows", "ticdat/pgtd.py:PostgresTicFactory._get_data"]}
{"id": "C107", "title": "Consistent data can be written to Postgres", "statement": "If every row of the object can be stored in its columns, keys are distinct and all foreign keys are satisfied, then pgsql.write_data succeeds.", "quantifier": "every schema and dataset without foreign key failures", "why_tests_cant": "needs all orders of tables and rows", "anchors": ["ticdat/pgtd.py:PostgresTicFactory.write_data", "ticdat/pgtd.py:PostgresTicFactory._ordered_tables"]}
{"id": "C108", "title": "The active field", "statement": "With active_fld, pgsql.create_tic_dat reads exactly the rows in which it is true (all rows of tables without it), and the rows written by pgsql.write_data are active.", "quantifier": "every database, schema and field name", "why_tests_cant": "quantifies over all databases", "anchors": ["ticdat/pgtd.py:PostgresTicFactory.create_tic_dat", "ticdat/pgtd.py:PostgresTicFactory.write_data", "ticdat/pgtd.py:PostgresTicFactory._get_data"]}
{"id": "C109", "title": "pgsql.find_duplicates counts exactly", "statement": "pgsql.find_duplicates returns for each table with a primary key exactly the keys on more than one (active) row with the number of these rows.", "quantifier": "every schema and database", "why_tests_cant": "quantifies over all row multisets", "anchors": ["ticdat/pgtd.py:PostgresTicFactory.find_duplicates"]}
{"id": "C110", "title": "PanDat objects survive Postgres", "statement": "A PanDat object written by pgsql.write_data to emptied tables whose columns can hold its cells, and read back by pgsql.create_pan_dat, has the same rows in every table, apart from the order of the rows and the kind of nulls, whatever the order the database returns them in.", "quantifier": "every schema, object, database, order of rows, active field", "why_tests_cant": "quantifies over all schemas and objects and over what the database returns", "anchors": ["ticdat/pgtd.py:PostgresTicFactory.create_pan_dat", "ticdat/pgtd.py:PostgresTicFactory.write_data"]}
{"id": "C111", "title": "What PanDat write_data leaves in Postgres", "statement": "When pgsql.write_data for a PanDat object returns, every table has its old rows (none if they were to be deleted) followed by exactly one row per row of data, unless progress asked to stop, in which case this holds for exactly the tables up to then, in an order with parents first, and the others got no rows.", "quantifier": "every schema, object, database, progress callback and choice of pre_existing_rows", "why_tests_cant": "quantifies over all databases and all points at which the callback stops", "anchors": ["ticdat/pgtd.py:PostgresTicFactory.write_data"]}
{"id": "C112", "title": "PanDat write_data is all or nothing", "statement": "When pgsql.write_data for a PanDat object raises, the database is as it was.", "quantifier": "every schema, object, database", "why_tests_cant": "quantifies over all failing inputs", "anchors": ["ticdat/pgtd.py:PostgresTicFactory.write_data"]}
{"id": "C113", "title": "pgsql.create_pan_dat reads what is there", "statement": "pgsql.create_pan_dat raises exactly if a name is not fit for Postgres, a table lacks a column or nulls cannot be told from infinities; otherwise each table has exactly the (active) rows of the database with the cells of the right columns, and tables that are missing are empty.", "quantifier": "every schema, database, active field", "why_tests_cant": "quantifies over all databases", "anchors": ["ticdat/pgtd.py:PostgresTicFactory.create_pan_dat"]}
{"id": "C114", "title": "A PanDatFactory can be rebuilt from its full schema", "statement": "For every PanDatFactory f that can be built by public calls, PanDatFactory.create_from_full_schema(f.schema(include_ancillary_info=True)) succeeds and gives a factory with the same tables and fields, foreign keys, parameters, default values, data types, tooltips and settings, in whatever order the set of tables happens to be walked.", "quantifier": "every sequence of mutator calls, every order of the tables", "why_tests_cant": "quantifies over all call histories and set orders", "anchors": ["ticdat/pandatfactory.py:create_from_full_schema", "ticdat/pandatfactory.py:schema"]}
{"id": "C115", "title": "PanDatFactory clones keep exactly what they should", "statement": "clone() of a PanDatFactory keeps everything; clone(table_restrictions) keeps the listed tables with everything attached to them, the foreign keys between them and (with the parameters table) the parameters; clone_add_a_column, clone_remove_a_column and clone_rename_a_column change the one column, with what hangs on it, and nothing else.", "quantifier": "every sequence of mutator calls, every restriction or column", "why_tests_cant": "quantifies over all schemas and histories", "anchors": ["ticdat/pandatfactory.py:clone", "ticdat/utils.py:clone_a_anchillary_info_schema", "ticdat/utils.py:clone_add_a_column", "ticdat/utils.py:clone_remove_a_column", "ticdat/utils.py:clone_rename_a_column"]}
{"id": "C116", "title": "A clone of the other kind is the same schema", "statement": "tdf.clone(clone_factory=PanDatFactory) and pdf.clone(clone_factory=TicDatFactory), restricted or not, succeed and give a factory with the same tables, fields, foreign keys, parameters, default values, data types, tooltips and settings, and exactly the row predicates that need no kwargs maker (all of them with convert_dat).", "quantifier": "every factory of either kind, every restriction", "why_tests_cant": "quantifies over all schemas and histories", "anchors": ["ticdat/ticdatfactory.py:clone", "ticdat/pandatfactory.py:clone"]}
{"id": "C117", "title": "clone_add_a_table adds the table and nothing else", "statement": "For a new table whose name and fields the constructor would take, clone_add_a_table succeeds; the clone has the new table with its fields in the order given and zero defaults, and otherwise everything of the original.", "quantifier": "every factory of either kind, every table", "why_tests_cant": "quantifies over all schemas and histories", "anchors": ["ticdat/utils.py:clone_add_a_table"]}
{"id": "C118", "title": "PanDatFactory: lock, last call, rejected calls", "statement": "Once a PanDat has been made from a PanDatFactory, no later call changes its tables, types, defaults, foreign keys, parameters or row predicates; before that the last accepted call decides what each field shows; a call that raises changes nothing; a row predicate is accepted on any table, and without a name gets the smallest unused number.", "quantifier": "every sequence of calls, accepted or not", "why_tests_cant": "quantifies over all call histories", "anchors": ["ticdat/pandatfactory.py:set_data_type", "ticdat/pandatfactory.py:set_default_values", "ticdat/pandatfactory.py:add_data_row_predicate", "ticdat/pandatfactory.py:remove_parameter"]}
{"id": "C119", "title": "copy_to_ampl gives AMPL the data of the tables", "statement": "copy_to_ampl makes one amplpy DataFrame for every table with a primary key that is not excluded (tables without a key are left out): its index is the primary key under the new names, and each field that is kept has one column, under its new name, holding the cells of the table in row order.", "quantifier": "every schema, data object, renaming and exclusion", "why_tests_cant": "quantifies over all schemas, renamings and data; needs amplpy to run at all", "anchors": ["ticdat/ticdatfactory.py:copy_to_ampl", "ticdat/pandatfactory.py:copy_to_ampl"]}
{"id": "C120", "title": "copy_from_ampl_variables holds the solution", "statement": "copy_from_ampl_variables returns an object in which a key is present exactly if some variable given for the table has a value there that passes its filter, and in each row the field of a variable holds the value of that variable; the PanDat version holds the same rows.", "quantifier": "every schema, set of variables and filters, order of the variables", "why_tests_cant": "quantifies over all solutions and schemas; needs AMPL to run", "anchors": ["ticdat/ticdatfactory.py:copy_from_ampl_variables", "ticdat/pandatfactory.py:copy_from_ampl_variables"]}
{"id": "C121", "title": "nearly_same compares numbers by relative error", "statement": "nearly_same(x, y, epsilon) holds exactly for numbers that are equal, both within 1e-10 of 0, or differ by less than epsilon times the larger absolute value; it does not depend on the order of its arguments, and NaN is not nearly the same as a number.", "quantifier": "every pair of cells and every positive tolerance", "why_tests_cant": "ranges over all numbers, infinities and NaN", "anchors": ["ticdat/utils.py:per_error", "ticdat/utils.py:nearly_same", "ticdat/utils.py:safe_apply"]}
{"id": "C122", "title": "TicDat comparison with a tolerance", "statement": "_same_data(obj1, obj2, epsilon, nans_are_same_for_data_rows) says yes exactly if the tables have the same keys (as many rows for tables without key) and each cell is equal, or a number within the tolerance, or missing on both sides when that was declared the same; a larger tolerance never says no where a smaller says yes.", "quantifier": "every schema, pair of objects, tolerance and setting", "why_tests_cant": "ranges over all objects and tolerances", "anchors": ["ticdat/ticdatfactory.py:TicDatFactory._same_data"]}
{"id": "C123", "title": "PanDat comparison", "statement": "PanDatFactory._same_data says yes exactly if corresponding tables have as many rows and each row of the first has a counterpart in the second with an equal key and cells that count as the same; generic tables must have the same columns, in any order.", "quantifier": "every schema, pair of PanDat objects with or without generic tables, tolerance and setting", "why_tests_cant": "ranges over all objects", "anchors": ["ticdat/pandatfactory.py:PanDatFactory._same_data", "ticdat/pandatfactory.py:PanDatFactory._copy_to_tic_dat"]}
{"id": "C124", "title": "One model, three engines", "statement": "The same calls of add_var, add_constraint, add_indicator_constraint and set_objective on models of different engines raise at the same places and describe the same optimization problem: a new variable can take exactly the values its bounds and type say.", "quantifier": "every sequence of calls with every argument", "why_tests_cant": "ranges over all sequences of calls, and needs three commercial solvers", "anchors": ["ticdat/model.py:Model.add_var", "ticdat/model.py:Model.add_constraint", "ticdat/model.py:Model.add_indicator_constraint", "ticdat/model.py:Model.set_objective"]}
{"id": "C125", "title": "Solution values belong to their variables", "statement": "After a successful optimize, get_solution_value gives each variable returned by add_var its value in the last solution, whatever was added to the model before or after; after an unsuccessful one it gives no value.", "quantifier": "every engine, history of calls and result of the solver", "why_tests_cant": "ranges over all histories; the index of Xpress variables is kept by ticdat", "anchors": ["ticdat/model.py:Model.optimize", "ticdat/model.py:Model.get_solution_value", "ticdat/model.py:Model.add_var"]}
{"id": "C126", "title": "set_parameters sets all or nothing", "statement": "set_parameters sets every parameter it was given, or raises because it does not know one of them (time_limit is unknown to CPLEX) and changes none.", "quantifier": "every engine and every set of keywords", "why_tests_cant": "ranges over all combinations of keywords", "anchors": ["ticdat/model.py:Model.set_parameters"]}
{"id": "C127", "title": "Progress call-backs show the bounds", "statement": "During a solve the progress call-backs of the three engines pass a lower and an upper bound to mip_progress, from the first call on and for both senses, and never raise when the bounds are consistent.", "quantifier": "every engine, sense, objective found so far (or none) and best bound", "why_tests_cant": "the state before a first solution is transient and needs the solver", "anchors": ["ticdat/utils.py:Progress.mip_progress", "ticdat/utils.py:Progress.gurobi_call_back_factory", "ticdat/utils.py:Progress.add_xpress_callback", "ticdat/utils.py:Progress.add_cplex_listener"]}
{"id": "C128", "title": "Writing an SQLite file is all or nothing", "statement": "sql.write_db_data either returns, and then every table of the schema has exactly the rows of the object and nothing else in the file has changed, or raises, and then the file is as before (there is none if there was none).  It raises if allow_overwrite is False and one of the tables has a row.", "quantifier": "every schema, object, file, column types and behaviour of the columns", "why_tests_cant": "failures halfway, and files with any further columns and tables", "anchors": ["ticdat/sqlitetd.py:SQLiteTicFactory.write_db_data", "ticdat/sqlitetd.py:SQLiteTicFactory._get_data", "ticdat/sqlitetd.py:SQLiteTicFactory.write_db_schema"]}
{"id": "C129", "title": "SQLite files: round trip", "statement": "sql.create_tic_dat of a file written by sql.write_db_data, new or existing (with columns of any type in any order, further columns and tables, old rows), returns the object written up to the order of rows, if the column of each field can hold its cells.", "quantifier": "every schema, object, file and order of the rows", "why_tests_cant": "quantifies over all files and objects", "anchors": ["ticdat/sqlitetd.py:SQLiteTicFactory.write_db_data", "ticdat/sqlitetd.py:SQLiteTicFactory.create_tic_dat", "ticdat/sqlitetd.py:SQLiteTicFactory._create_tic_dat"]}
{"id": "C130", "title": "find_duplicates of files finds what reading loses", "statement": "sql.find_duplicates and mdb.find_duplicates return for each table with a primary key exactly the keys on more than one row, with the number of rows: a table is reported exactly if reading it into an object loses rows.", "quantifier": "every schema, factory settings and file", "why_tests_cant": "quantifies over all files, and compares two ways of reading them", "anchors": ["ticdat/sqlitetd.py:SQLiteTicFactory.find_duplicates", "ticdat/mdb.py:MdbTicFactory.find_duplicates", "ticdat/utils.py:create_duplicate_focused_tdf"]}
{"id": "C131", "title": "Access files get the infinities the flag asks for", "statement": "mdb.write_file hands every cell to the file as _infinity_flag_write_cell says for its table and field: with the flag None infinities become NULL where the data type allows one infinity and no null.", "quantifier": "every schema, data type, flag, table and cell", "why_tests_cant": "quantifies over all settings; needs Access to run at all", "anchors": ["ticdat/mdb.py:MdbTicFactory.write_file", "ticdat/ticdatfactory.py:TicDatFactory._infinity_flag_write_cell"]}
{"id": "C132", "title": "Writing an Access file is all or nothing", "statement": "mdb.write_file either returns, and then every table of the schema has exactly the rows of the object and nothing else in the file has changed, or raises, and then the file is as before; in particular if allow_overwrite is False and one of the tables has a row.", "quantifier": "every schema, object, file, order of the tables", "why_tests_cant": "failures halfway at any row; needs Access", "anchors": ["ticdat/mdb.py:MdbTicFactory.write_file"]}
{"id": "C133", "title": "Access files: round trip", "statement": "mdb.create_tic_dat of a file written by mdb.write_file, new (made by write_schema with any field types, or by write_file) or existing, returns the object written up to the order of rows, if the column of each field can hold its cells.", "quantifier": "every schema, object, file, field types and order of the rows", "why_tests_cant": "quantifies over all files and objects; needs Access", "anchors": ["ticdat/mdb.py:MdbTicFactory.write_file", "ticdat/mdb.py:MdbTicFactory.create_tic_dat", "ticdat/mdb.py:MdbTicFactory.write_schema"]}
{"id": "C134", "title": "Access files: write_schema", "statement": "mdb.write_schema makes a file with exactly the tables of the schema, keys text, data double, parameters text, other types as given; refuses unknown tables, fields and types before doing anything; in an existing file it never changes a table that is there.", "quantifier": "every schema, field types and file", "why_tests_cant": "quantifies over all schemas, types and files; needs Access", "anchors": ["ticdat/mdb.py:MdbTicFactory.write_schema"]}
{"id": "C135", "title": "PanDat CSV round trip", "statement": "csv.write_directory and then csv.create_pan_dat give a PanDat object with the same tables, None and NaN apart: infinities, dates in fields for dates, texts that look like numbers in fields for text, and parameters of every type come back as they were; other files of the directory are untouched; generic tables are written as they are.", "quantifier": "every factory with legal settings, every rectangular data within the flag, every directory", "why_tests_cant": "quantifies over all schemas, data types, infinity flags, data and directory contents; what pandas infers for columns depends on the data", "anchors": ["ticdat/pandatio.py:CsvPanFactory.write_directory", "ticdat/pandatio.py:CsvPanFactory.create_pan_dat", "ticdat/pandatfactory.py:PanDatFactory._dtypes_for_pandas_read"]}
{"id": "C136", "title": "PanDat SQLite round trip", "statement": "sql.write_file and then sql.create_pan_dat give a PanDat object with the same tables, None and NaN apart; the other tables of the database are untouched; generic tables are written as they are.", "quantifier": "every factory with legal settings, data and database", "why_tests_cant": "quantifies over all schemas, data types, infinity flags, data and database contents", "anchors": ["ticdat/pandatio.py:SqlPanFactory.write_file", "ticdat/pandatio.py:SqlPanFactory.create_pan_dat"]}
{"id": "C137", "title": "PanDat Excel round trip", "statement": "xls.write_file and then xls.create_pan_dat give a PanDat object with the same tables, None and NaN apart; with xlsx_trailing_empty_rows=prune exactly the rows without data at the end are lost, otherwise none.", "quantifier": "every factory with legal settings, data and sheet names that stay different when cut", "why_tests_cant": "quantifies over all schemas, data types, infinity flags and data", "anchors": ["ticdat/pandatio.py:XlsPanFactory.write_file", "ticdat/pandatio.py:XlsPanFactory.create_pan_dat"]}
{"id": "C138", "title": "PanDat json round trip with write_file_pd", "statement": "json.write_file_pd and then json.create_pan_dat give a PanDat object with the same tables, None and NaN apart; dates in fields for dates are handed to pandas as text.", "quantifier": "every factory with legal settings and data", "why_tests_cant": "quantifies over all schemas, data types, infinity flags and data", "anchors": ["ticdat/pandatio.py:JsonPanFactory.write_file_pd", "ticdat/pandatio.py:JsonPanFactory.create_pan_dat"]}
{"id": "C139", "title": "When PanDat files are not written", "statement": "The PanDat writers refuse a good object exactly if the infinity flag is None and some field of a table that is not parameters allows both infinities but not None (and, for Excel, if two table names are equal in their first 30 characters).", "quantifier": "every factory and object", "why_tests_cant": "quantifies over all schemas, data types and objects", "anchors": ["ticdat/pandatfactory.py:PanDatFactory._pre_write_adjustment", "ticdat/pandatio.py"]}
{"id": "C140", "title": "CSV directories of objects with generic tables", "statement": "For a schema with generic tables csv.write_directory with allow_overwrite leaves a directory from which csv.create_tic_dat reads the same object; it applies infinity_io_flag and case_space_table_names as it does for a schema without generic tables.", "quantifier": "every schema with generic tables, object, setting and directory", "why_tests_cant": "quantifies over all schemas, frames, settings and previous contents of the directory", "anchors": ["ticdat/csvtd.py:CsvTicFactory.write_directory", "ticdat/csvtd.py:CsvTicFactory._read_cell", "ticdat/utils.py:create_generic_free"]}
{"id": "C141", "title": "New SQLite files of objects with generic tables", "statement": "For a schema with generic tables sql.write_db_data to a new path and then sql.create_tic_dat give the same object, in some order of rows; text fields keep text as they do for a schema without generic tables.", "quantifier": "every schema with generic tables, object and setting", "why_tests_cant": "quantifies over all schemas, defaults, frames and data", "anchors": ["ticdat/sqlitetd.py:SQLiteTicFactory.write_db_data", "ticdat/sqlitetd.py:SQLiteTicFactory._create_tic_dat_from_con", "ticdat/utils.py:create_generic_free"]}
{"id": "C142", "title": "Overwriting generic tables in SQLite files", "statement": "After sql.write_db_data with allow_overwrite each table of the schema, generic ones too, has exactly the rows of the object, and the other tables are as before.", "quantifier": "every schema with generic tables, object and file that exists", "why_tests_cant": "quantifies over all schemas, frames and previous contents of the file", "anchors": ["ticdat/sqlitetd.py:SQLiteTicFactory.write_db_data", "ticdat/utils.py:create_generic_free"]}
{"id": "C143", "title": "Names of generic tables in SQLite files", "statement": "A generic table is read from a file under the names under which a table with fields is read: in any case, with spaces for underscores.", "quantifier": "every schema with generic tables and file", "why_tests_cant": "quantifies over all names and files", "anchors": ["ticdat/sqlitetd.py:SQLiteTicFactory._create_tic_dat_from_con", "ticdat/sqlitetd.py:SQLiteTicFactory._get_table_names"]}
{"id": "C144", "title": "SQL text files of objects with generic tables", "statement": "sql.write_sql_file with include_schema and then sql.create_tic_dat_from_sql with includes_schema give the generic tables of the object, empty ones too.", "quantifier": "every schema with generic tables and object", "why_tests_cant": "quantifies over all schemas and frames", "anchors": ["ticdat/sqlitetd.py:SQLiteTicFactory.write_sql_file", "ticdat/sqlitetd.py:SQLiteTicFactory.create_tic_dat_from_sql"]}
{"id": "C145", "title": "Excel files of objects with generic tables", "statement": "For a schema with generic tables xls.write_file writes the tables with fields as it does for a schema without generic tables, with infinity_io_flag for infinities, so that xls.create_tic_dat reads them back.", "quantifier": "every schema with generic tables, object and setting", "why_tests_cant": "quantifies over all schemas, flags and data", "anchors": ["ticdat/xls.py:XlsTicFactory.write_file", "ticdat/utils.py:create_generic_free"]}
{"id": "C146", "title": "json.create_tic_dat tells the formats apart", "statement": "As its documentation says, a json document in the format of PanDatFactory.json is detected automatically, so that from_pandas can be ignored: a document written by json.write_file is read as rows, and one written by write_file_pd as DataFrames, whatever the names of the fields.", "quantifier": "every schema, object and document", "why_tests_cant": "quantifies over all schemas and documents", "anchors": ["ticdat/jsontd.py:JsonTicFactory.create_tic_dat", "ticdat/jsontd.py:JsonTicFactory._looks_pandas", "ticdat/jsontd.py:JsonTicFactory._create_jdict"]}
{"id": "C147", "title": "Further keys of a json document are ignored", "statement": "json.create_tic_dat returns for a document with further keys, which match no table, what it returns without them, whatever they hold and wherever they stand.", "quantifier": "every schema, document and further keys", "why_tests_cant": "quantifies over all documents", "anchors": ["ticdat/jsontd.py:JsonTicFactory.create_tic_dat", "ticdat/jsontd.py:JsonTicFactory._looks_pandas", "ticdat/jsontd.py:JsonTicFactory._create_tic_dat_dict"]}
{"id": "C148", "title": "json documents written through pandas come back", "statement": "json.write_file with to_pandas and then json.create_tic_dat with from_pandas give the object back, None and NaN apart; so do json.write_file_pd of the PanDatFactory of the full schema and json.create_tic_dat with or without from_pandas.", "quantifier": "every factory made by the public calls, object and order of the keys of the document", "why_tests_cant": "goes through two factories and two copies between them, for all schemas and data", "anchors": ["ticdat/jsontd.py:JsonTicFactory.write_file", "ticdat/jsontd.py:JsonTicFactory.create_tic_dat", "ticdat/pandatio.py:JsonPanFactory.write_file", "ticdat/pandatio.py:JsonPanFactory.create_pan_dat", "ticdat/pandatfactory.py:PanDatFactory.copy_to_tic_dat"]}
{"id": "C149", "title": "json.write_file: files", "statement": "json.write_file never changes another file, changes an existing file only if allow_overwrite is set, and either stores the document, from which create_tic_dat reads the object, or raises and leaves all files as they were.", "quantifier": "every factory, object, path and setting, and every state of the files", "why_tests_cant": "quantifies over all states of the files and failures of the writing", "anchors": ["ticdat/jsontd.py:JsonTicFactory.write_file"]}
{"id": "C150", "title": "find_duplicates of json documents read through pandas", "statement": "json.find_duplicates with from_pandas reports exactly the keys that occur more than once in the rows that pandas reads, with the number of their rows; it raises only if create_tic_dat does, and with duplicates_ticdat_init=assert it is empty exactly if create_tic_dat succeeds.", "quantifier": "every factory made by the public calls and document", "why_tests_cant": "compares two ways of reading all documents", "anchors": ["ticdat/jsontd.py:JsonTicFactory.find_duplicates", "ticdat/jsontd.py:JsonTicFactory.create_tic_dat", "ticdat/utils.py:find_duplicates_from_dict_ticdat"]}
{"id": "C151", "title": "Reading generator tables", "statement": "create_tic_dat of csv, sql, mdb and xls with some tables declared generator tables succeeds exactly when it does without that declaration and shows the same rows in every table; as long as the files or tables keep their names, a generator table shows at any later time the rows that reading then would give.  For xls the default treat_inf_as_infinity is refused.", "quantifier": "every factory made by the public calls, settings, contents of the files now and later", "why_tests_cant": "quantifies over all contents and over changes of the files between reading and use", "anchors": ["ticdat/csvtd.py:CsvTicFactory._generator_tables", "ticdat/sqlitetd.py:SQLiteTicFactory._create_gen_obj", "ticdat/mdb.py:MdbTicFactory._create_tic_dat", "ticdat/xls.py:XlsTicFactory._create_generator_obj"]}
{"id": "C152", "title": "Writing generator tables back", "statement": "Writing an object with generator tables stores the rows it shows at the time of the call: the result is that of writing the object with the same rows in ordinary tables, also if it is written to the files it was read from, as a user does who edits a data file.", "quantifier": "every factory made by the public calls, object, destination and settings", "why_tests_cant": "quantifies over all files, and over what a generator sees while its own file is being replaced", "anchors": ["ticdat/csvtd.py:CsvTicFactory.write_directory", "ticdat/sqlitetd.py:SQLiteTicFactory.write_db_data", "ticdat/mdb.py:MdbTicFactory.write_file", "ticdat/xls.py:XlsTicFactory._xlsx_write", "ticdat/xls.py:XlsTicFactory._xls_write"]}
{"id": "C153", "title": "Rows for a generator table", "statement": "TicDat(...) takes for a generator table whatever it takes for an ordinary table without primary key, a container of rows, and also a function that yields such rows; the object shows these rows.", "quantifier": "every factory made by the public calls and every argument", "why_tests_cant": "quantifies over all schemas, settings and arguments", "anchors": ["ticdat/ticdatfactory.py:TicDatFactory.__init__", "ticdat/ticdatfactory.py:TicDatFactory.set_generator_tables", "ticdat/ticdatfactory.py:TicDatFactory.good_tic_dat_table"]}
{"id": "C154", "title": "Integrity checks of objects with generator tables", "statement": "find_data_type_failures, find_foreign_key_failures and the lengths in the representation of an object cover generator tables as they cover the others.", "quantifier": "every schema, types, foreign keys, object and set of generator tables", "why_tests_cant": "quantifies over all schemas and data", "anchors": ["ticdat/ticdatfactory.py:TicDatFactory.find_data_type_failures", "ticdat/ticdatfactory.py:TicDatFactory.find_foreign_key_failures", "ticdat/ticdatfactory.py:TicDatFactory._len_dict"]}
{"id": "C155", "title": "A copy stands alone", "statement": "copy_tic_dat performs a deep copy, as its documentation says: the copy shows the rows the object showed, whatever happens to the object and to the data it was made from later.", "quantifier": "every factory made by the public calls, object and later state of files and lists", "why_tests_cant": "quantifies over all later states", "anchors": ["ticdat/ticdatfactory.py:TicDatFactory.copy_tic_dat"]}
{"id": "C156", "title": "A failed write leaves the files alone", "statement": "When csv.write_directory or xls.write_file raises, all files are as they were before the call; in any case only the files of the tables are touched.", "quantifier": "every factory, object, setting and state of the files", "why_tests_cant": "quantifies over all states of the files and all places where writing can fail", "anchors": ["ticdat/csvtd.py:CsvTicFactory.write_directory", "ticdat/xls.py:XlsTicFactory.write_file", "ticdat/xls.py:XlsTicFactory._xlsx_write"]}
{"id": "C157", "title": "Different tables look different in a log", "statement": "The text that log_table writes shows the table: two tables of the same size with different cells, within the rows shown, have different texts.", "quantifier": "every two tables, formatter, names and limit", "why_tests_cant": "quantifies over all pairs of tables", "anchors": ["ticdat/utils.py:LogFile.log_table"]}
{"id": "C158", "title": "find_case_space_duplicates", "statement": "For every factory find_case_space_duplicates returns exactly the tables two of whose fields are equal apart from case and blanks for underscores, with their fields.", "quantifier": "every factory made by the public calls", "why_tests_cant": "quantifies over all schemas", "anchors": ["ticdat/utils.py:find_case_space_duplicates"]}
{"id": "C159", "title": "set_ampl_data hands over every table once", "statement": "set_ampl_data calls setData exactly once for each table of the object, with the DataFrame of that table and with the set name given for it if there is one, in whatever order the set of tables is visited; it refuses wrong tables and set names before the first call, and when AMPL refuses a table it stops there.", "quantifier": "every object, mapping, order and behaviour of AMPL", "why_tests_cant": "quantifies over orders of a set and behaviours of AMPL", "anchors": ["ticdat/ticdatfactory.py:TicDatFactory.set_ampl_data", "ticdat/pandatfactory.py:PanDatFactory.set_ampl_data"]}
{"id": "C160", "title": "All parameters of a PanDat object", "statement": "create_full_parameters_dict of a PanDatFactory maps every name to the value of its last row in the parameters table, or else to the default of the declared parameter (made a date where the parameter is one), whatever the order of the columns, and agrees with the TicDatFactory; this works for every declared parameter.", "quantifier": "every factory made by the public calls and every parameters table", "why_tests_cant": "quantifies over all tables and declarations", "anchors": ["ticdat/pandatfactory.py:PanDatFactory.create_full_parameters_dict"]}
{"id": "C161", "title": "What pgsql.create_tic_dat reads", "statement": "pgsql.create_tic_dat raises exactly if active_fld or a name is not fit for Postgres, there are generic or generator tables, a table lacks a column, or a cell cannot be converted; otherwise each table holds exactly the (active) rows of the database, with the cells of the right columns, of the rows with equal keys the last one, and tables that are missing are empty.", "quantifier": "every factory and every content of the database", "why_tests_cant": "quantifies over all databases, not only those written by ticdat", "anchors": ["ticdat/pgtd.py:PostgresTicFactory.create_tic_dat", "ticdat/pgtd.py:PostgresTicFactory._create_tic_dat_from_con"]}
{"id": "C162", "title": "What sql.create_tic_dat and mdb.create_tic_dat read", "statement": "create_tic_dat from an SQLite or Access file raises exactly if a table is ambiguous or lacks a column or a cell cannot be converted; otherwise each table holds exactly the rows of the table of that name, the columns found by name, of the rows with equal keys the last one, and tables without a match are empty.", "quantifier": "every factory and every content of the file", "why_tests_cant": "quantifies over all files, not only those written by ticdat", "anchors": ["ticdat/sqlitetd.py:SQLiteTicFactory.create_tic_dat", "ticdat/sqlitetd.py:SQLiteTicFactory._create_tic_dat_from_con", "ticdat/mdb.py:MdbTicFactory.create_tic_dat"]}
{"id": "C163", "title": "The setting 'assert' guards reading from databases", "statement": "With duplicates_ticdat_init set to assert, reading from Postgres, SQLite or Access raises if two rows have equal keys, instead of dropping one of them.", "quantifier": "every factory with that setting and every database", "why_tests_cant": "quantifies over all databases", "anchors": ["ticdat/ticdatfactory.py:TicDatFactory.set_duplicates_ticdat_init", "ticdat/pgtd.py:PostgresTicFactory._create_tic_dat_from_con", "ticdat/sqlitetd.py:SQLiteTicFactory._create_tic_dat_from_con", "ticdat/mdb.py:MdbTicFactory._create_tic_dat"]}
{"id": "C164", "title": "The SQLite schema declares the factory", "statement": "The statements of write_db_schema create every table once, after the tables it refers to, and declare exactly its fields in order, its primary key, its foreign keys, and for each data field the default and the type INT, FLOAT or none that goes with the default.", "quantifier": "every factory made by the public calls and every order in which a set of foreign keys is visited", "why_tests_cant": "quantifies over all schemas, names and defaults, read back by a reader of SQL", "anchors": ["ticdat/sqlitetd.py:SQLiteTicFactory._get_schema_sql", "ticdat/sqlitetd.py:SQLiteTicFactory._fks", "ticdat/sqlitetd.py:SQLiteTicFactory.write_db_schema"]}
{"id": "C165", "title": "SQL text files with schema", "statement": "The file that write_sql_file writes is cut by create_tic_dat_from_sql into exactly the statements written: those of the schema if include_schema is set, then those of the data.", "quantifier": "every factory, object and setting", "why_tests_cant": "quantifies over all names, defaults and cells", "anchors": ["ticdat/sqlitetd.py:SQLiteTicFactory.write_sql_file", "ticdat/sqlitetd.py:SQLiteTicFactory._create_tic_dat_from_sql", "ticdat/sqlitetd.py:SQLiteTicFactory._get_schema_sql"]}
{"id": "C166", "title": "Rows with their keys inside", "statement": "_keyless gives for each table one dict per row, in order, with exactly the fields of the table and their cells, and building a TicDat from these dicts gives the object back, whatever the default values.", "quantifier": "every well-formed object of every schema", "why_tests_cant": "quantifies over all schemas, objects and defaults", "anchors": ["ticdat/ticdatfactory.py:TicDatFactory._keyless", "ticdat/ticdatfactory.py:TicDatFactory.TicDat"]}
{"id": "C167", "title": "What find_foreign_key_failures returns", "statement": "With verbosity 'Low' find_foreign_key_failures returns the entries of 'High' under plain tuples, no two foreign keys under one tuple; another verbosity or a bound that is not positive raises. For a PanDat the rows of as_table are exactly the rows marked by as_table=False, and without a bound exactly the rows without a parent, in order and as often as they occur.", "quantifier": "every schema, data, set of foreign keys and bound", "why_tests_cant": "quantifies over all schemas and data", "anchors": ["ticdat/ticdatfactory.py:TicDatFactory.find_foreign_key_failures", "ticdat/pandatfactory.py:PanDatFactory.find_foreign_key_failures"]}
{"id": "C168", "title": "sloc is loc with empty slices", "statement": "sloc works just like .loc, except that a slice which selects nothing gives an empty Series: it returns the rows asked for, and raises where .loc refuses the key.", "quantifier": "every Series with a MultiIndex and every key", "why_tests_cant": "quantifies over all Series and keys", "anchors": ["ticdat/utils.py:Sloc.__getitem__", "ticdat/ticdatfactory.py:TicDatFactory.copy_to_pandas"]}
{"id": "C169", "title": "Writing to Postgres with a dsn", "statement": "write_data with a dsn writes everything the ordinary way writes and leaves the same rows, in the order of the object; if it raises, no row of the object is in the database.", "quantifier": "every factory, object, database, pre_existing_rows and active field; any number of rows and pages", "why_tests_cant": "the pages of execute_values, the statement-wise checks of foreign keys and the transaction interact for any number of rows and tables", "anchors": ["ticdat/pgtd.py:PostgresTicFactory.write_data", "ticdat/pgtd.py:PostgresTicFactory._get_data"]}
