# Formal model of ticdat — design

Target: `/repo` (ticdat at the pinned commit), read as text.  Prover: Coq 8.16.1,
standard library only.  Sources: `rocq/theories`, logical name `Verif`.

## 1. Layout

* `PyVal.v`, `PyStr.v`, `PyDict.v`, `Data.v`, `ListFacts.v`, `Report.v` – Python values, strings,
  ordered dicts and sets, schemas; lemmas about lists and grouped reports (shared base).
* `X.v` – model of one area of the code (no proofs); every definition cites file and lines.
* `XFacts.v`, `XMore.v`, ... – specifications (independent of the model's helpers) and lemmas.
* `XWitness.v` – concrete schemas and data used by examples and refutations.  `WfCheck.v` has
  decision procedures for well-formedness hypotheses, used only to discharge them in examples.
* `P_X.v` – only property theorems `Cnn_...`, each closed by a short proof, followed by
  `Print Assumptions`, with an `Example` giving a non-trivial instance.

Naming: `Cnn_..._refuted` is a theorem exhibiting a concrete witness on which the *code as it
stands* violates property Cnn; it always comes with a positive theorem stating the largest
guarded version we can prove.  `..._partial` marks theorems proving only part of a property.

## 2. Trusted base

* Coq's kernel (and `vm_compute` in Examples and refutation witnesses).
* `Print Assumptions` of every property theorem: section 7.  No axioms are added and none of the
  standard library is used.
* The correspondence between the Python text and the Gallina text, which is by reading.
* That the properties in `properties.jsonl` are what their theorems say; again by reading.

### Modelling conventions (all simplifications)

* **Numbers.** `num := Fin z | PInf | NInf`, a finite number being `z * 2^-1074`.  Every Python
  float and int is exactly representable so comparison, equality and integrality are exact.
  Float *arithmetic* is not modelled.
* **Values.** `VNone | VNaN | VBool | VNum | VStr | VDate`.  Datetimes are an opaque `Z` stamp.
  NaN is treated as one object (self-identical), as for `float('nan')` stored once; the
  containers of Python use identity before `==`, so this is exact for dict look-up of the same
  object only.
* **Equality.** Python `==`/hash equality identifies `True` with `1`, `1` with `1.0`.  `canon`
  maps bools to numbers; `pyeq` compares canonical forms.
* **Strings.** Coq `string` (8-bit code points); `lower/upper/title/isalnum` are the ASCII ones.
* **Dicts.** Ordered association lists with Python's semantics (assignment replaces in place or
  appends; iteration in insertion order).
* **Sets** iterate in arbitrary order: functions iterating over a set take a list and theorems
  quantify over all lists (hence over all orders).
* **Keys.** A primary key is a list of values, a one-field key being the one-element list.
* **Exceptions** are values (`Err msg` / `None` / `Raise`), so partial effects before a raise are
  visible.
* **Aliasing.** Objects hold copies; where sharing matters (links, freezing) the file says so.
* **DataFrames** are lists of rows with distinct named columns and an optional index
  (`Frames.v`).  pandas' dtype coercion is the oracle `settle`, otherwise cells are kept.

### Oracles: external functions, universally quantified in the theorems

Theorems hold whatever these do, except for the hypotheses shown in their statements.

| oracle | stands for | files |
|--------|-----------|-------|
| `date_of`, `float_of` | dateutil/pandas parsing, `float()` of a text | TypeDict, InfIO, Csv, Xls, PanIO |
| predicates, makers, converters | user functions, which may raise (but do not modify the data) | RowPred, Main, Integrity |
| `order`, `sorted` | iteration order of sets, `sorted` (may raise) | FK, Graph, Obfus |
| `same` | Python `==` on hashables | Freeze, Utils |
| `subst` | `str.format` evaluation of a field | Ampl |
| `show`, `show_num`, `show_date`, `str_of` | `str()` of cells and exceptions | RowPred, Sql, Csv, Xls |
| `sql_number` | SQLite's reading of a text as number under column affinity | Sql |
| `xldate`, `saved` | what an Excel library finds in a cell after writing, date tuples | Xls |
| `settle` | pandas' choice of a column type | Frames, PanIO |
| `pg_text`, `pg_num`, `pg_stamp`, `pg_bool`, `pg_int`, `pg_float`, `pg_other` | what Postgres stores in a column for a value of another type (a text for a number, the number in a text, rounding) | Pg |
| `store`, `key_free`, `sql_default` | what a column of a SQLite or Access file stores for a value, which new keys a table accepts, the value of a column made with `default [...]` | FileDb |
| `bare`, `can_create` | can a table name be written without brackets in Access, can a new Access file be made | FileDb |
| file system, readers, writers, `solve` | the environment of `standard_main` | Main |

### External behaviour taken from documentation

* The csv module returns the texts written; `DictReader` puts surplus cells under the key `None`
  and keeps the last of equal headers.
* `json.dump` followed by `json.load` returns scalars, lists and dicts unchanged up to order.
* xlwt and XlsxWriter refuse sheet names equal without regard to case; workbooks keep exactly the
  rows written if none is entirely empty; openpyxl's `min_row`/`max_row` are the first and last
  rows in use.
* SQLite compares table and column names without regard to case, binds Python values, applies
  column affinity, rejects equal primary keys (nulls being different), returns rows in any order.
* SQLite files: a failing statement changes nothing; a connection used as context manager commits at the end of
  the block and rolls back when it raises; Python's sqlite3 opens a transaction before `DELETE` and `INSERT`, none before
  `CREATE`.  Access (pypyodbc): what was executed since the last `commit` is undone when the block raises.
* Postgres: `CREATE TABLE` needs a new name, distinct columns, literals of the column's type as
  defaults and foreign keys that refer to the primary key; `INSERT` checks keys, nulls and foreign
  keys row by row; emptying a table fails if a row of another table refers to it; rows come in
  any order; what is not committed is undone by a failure.
* pandas: `duplicated` scans with the keys seen; `apply` visits rows from the top; `to_sql` with
  `if_exists="replace"` looks names up with case and commits per table; `read_*` results are
  given DataFrames; `set_index`/`reset_index` as documented.
* `getopt.getopt` stops at the first word that is no option and accepts unique prefixes.

## 3. What is modelled

| model | lines of /repo |
|-------|----------------|
| TypeDict | utils.py 258-321 (`TypeDictionary`), set_data_type's arguments |
| FindTypes | ticdatfactory.py 1832-1961 (find/replace data type failures) |
| PanTypes | pandatfactory.py 1123-1247 (the same for PanDat) |
| FK | ticdatfactory.py 480-540, 583-589, 1690-1787, 1805-1830; pandatfactory.py 1440-1535; utils.py 322-335 (finding and removing foreign key failures, implied keys, cardinality) |
| Graph | utils.py 1330-1342; pgtd.py 101-118; sqlitetd.py 240-249 (circles, table orders) |
| Factory | ticdatfactory.py 69-156, 171-609, 635-700, 938-1024, 1352-1402; utils.py 77-229 (the schema state machine, clone, column edits) |
| Obj | ticdatfactory.py 610-634, 696-864, 1163-1287, 1305-1351, 1462-1477; utils.py 970-1012, 1050-1109 (TicDat objects, rows, freezing, comparison) |
| Links, LinkNames | ticdatfactory.py 593-609, 861-919 (foreign key links) |
| Good | ticdatfactory.py 1118-1153, 1165-1287 (what is accepted as TicDat) |
| InfIO | ticdatfactory.py 994-1083; pandatfactory.py 381-424, 441-573 (infinity flagging) |
| Params | ticdatfactory.py 1084-1112, 1788-1803 |
| RowPred | ticdatfactory.py 1395-1401, 1963-2097; pandatfactory.py 1248-1398; utils.py 38-75 |
| Json | jsontd.py 25-47, 97-134, 160-180; utils.py 761-783 |
| Sql | sqlitetd.py 18-50, 134-148, 187-195, 214-239, 251-310, 323-356, 386-390 |
| Csv | csvtd.py 25-273 |
| Xls | xls.py 37-79, 81-477 |
| Names, Sources | name matching of csvtd.py, xls.py, sqlitetd.py, mdb.py, pandatio.py; utils.py 797-806, 913-923; pgtd.py 24-66 |
| Keywords | utils.py 808-835 |
| Utils | utils.py 743-780, 848-907, 1173-1208; pandatfactory.py 32-54, 1536-1560 (Slicer, duplicates, log_table, pruning) |
| Freeze | utils.py 732-736, 1014-1048 |
| Ampl | utils.py 709-730 |
| Obfus | ticdatfactory.py 2099-2215; utils.py 956-968 |
| Frames | ticdatfactory.py 776-815, 1196-1217, 1607-1676; pandatfactory.py 982-1106 |
| PanIO | pandatio.py (json, csv, sql, xls readers and writers); pandatfactory.py 441-573 |
| Main | utils.py 424-664 and the standard library's getopt |
| Integrity | utils.py 340-422; pandatfactory.py 1536-1560 |
| Pg | pgtd.py 24-463 (TicDat side) |
| PgDsn | pgtd.py 402-410, 450-456 (writing with a dsn) |
| PgPan | pgtd.py 492-589 (PanDat side) |
| PanFac | pandatfactory.py 83-287, 299-409, 573-975; ticdatfactory.py 1376-1416; utils.py 97-166 |
| AmplData | ticdatfactory.py 1478-1583; pandatfactory.py 1598-1647, 1673-1703 |
| Near | utils.py 934-940, 1305-1325; ticdatfactory.py 1305-1351; pandatfactory.py 1093-1122 |
| Solver | model.py 23-226; utils.py 1210-1303 |
| FileDb | sqlitetd.py 71-92, 112-128, 149-239, 240-356; mdb.py 39-50, 94-334 |
| PanFiles | pandatio.py 95-147, 182-253, 262-374, 394-500, 521-625; pandatfactory.py 425-440, 521-573 |
| Generic | utils.py 837-846; csvtd.py 72-83, 92-110, 169-214, 239-244; sqlitetd.py 134-148, 214-239, 337-344, 379-388; xls.py 398-410 |
| JsonDoc | jsontd.py 19-23, 64-159, 181-215; pandatio.py 98-136, 148-180 |
| Lazy | ticdatfactory.py 443-462, 733-739, 769-859, 1187-1193, 1462-1477, 1729-1777, 1884-1906; csvtd.py 78-83, 111-120, 191-214, 216-273; sqlitetd.py 195-213, 323-356; mdb.py 173-209, 276-330; xls.py 102-168, 213-263, 374-477 |
| Extras | utils.py 782-795; ticdatfactory.py 1583-1606; pandatfactory.py 1495-1513, 1648-1672 |
| SqlSchema | sqlitetd.py 129-133, 250-277, 358-390 |
| Keyless | ticdatfactory.py 1288-1304 |
| FkReport | ticdatfactory.py 1690-1727, 1782-1787; pandatfactory.py 1399-1440 |
| Sloc | utils.py 1112-1139; ticdatfactory.py 1660-1671 |

Citations are by line of the pinned commit; where a model simplifies, its comment says so.

## 4. Not modelled

* pandas and numpy internals, Series arguments, `Sloc.add_sloc`, dtypes beyond the oracle `settle`.
* Generator tables in json and Postgres, and beside generic tables (in csv, SQLite, Access and Excel files: Lazy); generic tables in json, Access and Excel readers (pandas reads
  the sheets); DataFrames whose columns are not named by strings.  Other generic tables are in Generic, Factory, Frames, PanIO.
* `convert_dat` of clones beyond the choice of the predicates that travel.
* json: cells that are containers; what `DataFrame` makes of rows that are not all lists (oracle `records`).
* SQLite and Access files: unreadable files, directories, names with brackets, SQLite's implicit
  columns; `read_sql`-style text files beyond C39-C41; `get_mip_results` and the engines behind `model.py`.
* `pgtd.py`: generic tables, `table_specific_context_manager` (its values must have
  `__enter__`, though the documentation asks for functions that return context managers).
* Encodings, csv dialects, file locks, the SQL parser, concurrent use.
* `pandatio.py`: keyword arguments passed on to pandas, connections passed instead of file names, the random text that
  stands for infinities while `write_file_pd` runs; what pandas writes and reads is the oracle `load`.
* Messages, except where a property is about them.

## 5. Plan and state per property

| id | title | status | model | proof |
|----|----|----|----|----|
| C01 | A data type accepts exactly the documented values | proved | TypeDict | case analysis against an inductive `Accepts` relation |
| C02 | Stored data types are canonical | proved | TypeDict | idempotence, well-formedness of argument normalisation |
| C03 | find_data_type_failures is sound and complete | proved | FindTypes | fold over tables and rows; report membership iff spec |
| C04 | max_failures truncates without inventing or losing failures (data types) | proved | FindTypes | prefix lemma for the interrupted fold |
| C05 | replace_data_type_failures repairs exactly the failing data cells | proved | FindTypes | pointwise map lemma and error branch |
| C06 | replace_data_type_failures is all-or-nothing | proved | FindTypes | error branch leaves the state |
| C07 | find_foreign_key_failures is sound and complete | proved | FK | iff against `exists parent row` |
| C08 | remove_foreign_key_failures keeps the largest consistent sub-dataset | proved | FK | filter lemma, greatest fixpoint, fuel sufficiency |
| C09 | remove_foreign_key_failures(propagate=False) removes exactly the reported rows | proved | FK | filter lemma |
| C10 | Removal is idempotent and neutral on clean data | proved | FK | fixpoint |
| C11 | Every mapped pair of a foreign key is enforced | refuted, guarded version proved | FK | last pair wins; guard is C07's hypothesis |
| C12 | PanDat removal computes the same largest consistent sub-dataset | proved | FK | confluence to the greatest fixpoint for every order |
| C13 | PanDat foreign key matching uses the parent's original columns | refuted, guarded version proved | FK | sequential column assignment + join; guard `no_overwrite` |
| C14 | Implied foreign keys never change the verdict | refuted, guarded version proved | FK | fixpoint loop; guarded preservation |
| C15 | Cardinality labels mean what they say | proved | FK | key uniqueness of dict tables |
| C16 | The circular foreign key warning is exact | proved | Graph | reachability by DFS invariant |
| C17 | Postgres load order puts parents first | proved | Graph | DFS invariants |
| C18 | SQLite schema generation always terminates | refuted, guarded version proved | Graph | divergence for every fuel |
| C19 | schema / create_from_full_schema round trip | refuted, guarded version proved | Factory | induction over call lists, replay of the schema's calls |
| C20 | clone(table_restrictions) keeps exactly the requested tables and everything about them | refuted, guarded version proved | Factory | replay on the restricted schema |
| C21 | Column edits preserve everything else | refuted, guarded version proved | Factory | replay on the edited schema |
| C22 | A factory that has produced data is locked | refuted, guarded version proved | Factory | invariant over call lists |
| C23 | Automatic predicate names never clobber a predicate | proved | Factory | pigeonhole on names |
| C24 | Default values, data types and tooltips follow the last call | refuted, guarded version proved | Factory | last-writer lemma over call lists |
| C25 | TicDat construction stores the rows that were passed in | proved | Obj | row construction case by case |
| C26 | Defaults apply to dict rows of list-style input for keyed tables | refuted, guarded version proved | Obj | row construction case by case |
| C27 | duplicates_ticdat_init='assert' detects exactly the lost rows | proved | Obj | count of keys under Python equality |
| C28 | Frozen data cannot be edited | refuted, guarded version proved | Obj | invariant over operation lists |
| C29 | Freezing covers foreign key links | refuted, guarded version proved | Obj | computation on the attribute name |
| C30 | as_dict / TicDat round trip and copy_tic_dat | proved | Obj | construction of the constructed |
| C31 | Data comparison is an equivalence | refuted, guarded version proved | Obj | relational reading of the comparison |
| C32 | Row objects never gain or lose fields | refuted, guarded version proved | Obj | invariant over operation lists |
| C33 | Reading a missing key inserts the default row once | proved | Obj | invariant over operation lists |
| C34 | Infinity flagging round trips | proved | InfIO | case analysis of read after write |
| C35 | Infinity flagging leaves the parameters table alone | refuted, guarded version proved | InfIO | case analysis |
| C36 | The infinity-bias cache is never stale | proved | InfIO | cache invariant over call lists |
| C37 | JSON round trip | proved | Json | round trip cell by cell, lifted to objects |
| C38 | JSON find_duplicates sees the tables create_tic_dat sees | refuted, guarded version proved | Json | count lemma on the rows read |
| C39 | SQL string literals round trip | refuted, guarded version proved | Sql | string induction |
| C40 | SQLite writes apply cell conversion to every table | refuted, guarded version proved | Sql | row lemma |
| C41 | A .sql file is split back into the statements that were written | refuted, guarded version proved | Sql | split/join lemma on texts |
| C42 | CSV/Excel readers obey the current data types and defaults | refuted, guarded version proved | Csv | cache invariant over call lists |
| C43 | csv.write_directory never overwrites without permission | refuted, guarded version proved | Csv, Names | directory lemma |
| C44 | Pretty table names are always found again | proved | Names | string lemmas on normalised names |
| C45 | Underscore replacements are exactly the space variants | proved | Names | combinatorics of replacements |
| C46 | Excel sheet names cannot be confused | proved | Names, Xls | string lemmas, prefix of 31 characters |
| C47 | Trailing empty rows are pruned exactly | refuted, guarded version proved | Utils | loop invariant of the binary search |
| C48 | Slicer returns exactly the matching tuples | proved | Utils | cache invariant |
| C49 | Duplicate reports count exactly | proved | Utils | count lemmas |
| C50 | PanDat find_duplicates keep options | proved | Utils | scan lemma |
| C51 | Reserved-keyword renaming is reversible | proved | Keywords | injectivity of renaming |
| C52 | obfusimplify renames injectively | proved | Obfus | injectivity of names |
| C53 | obfusimplify can always find a table prefix | refuted, guarded version proved | Obfus | counting candidates |
| C54 | Row predicate failures are exact and exceptions handled as documented | proved | RowPred | loops as lists of actions |
| C55 | predicate_kwargs_maker receives the right dat | refuted, guarded version proved | RowPred | memo invariant |
| C56 | create_full_parameters_dict overlays data on defaults | refuted, guarded version proved | InfIO | dict lemmas |
| C57 | Postgres name normalisation is stable | proved | Names | string induction |
| C58 | ampl_format substitutes double braces only | refuted, guarded version proved | Ampl | structural induction over templates |
| C59 | faster_df_apply visits every row once and honours the trip wire | proved | RowPred | loop invariant |
| C60 | log_table writes the header and at most max_write rows | proved | Utils | structural induction |
| C61 | PanDat replacement honours explicit primary key replacements | refuted, guarded version proved | PanTypes | eager evaluation; guard |
| C62 | max_failures truncates foreign key reports correctly (TicDat and PanDat) | proved | FK | prefix lemma |
| C63 | dict_overlay, deep_freeze and deep_copy preserve content | refuted, guarded version proved | Freeze | structural induction over nested objects |
| C64 | Untyped primary key fields reject only null | refuted, guarded version proved | FindTypes | case analysis |
| C65 | Foreign key links hold exactly the referring rows | refuted, guarded version proved | Obj | invariant of the link loop |
| C66 | Different foreign keys get different link attributes | refuted, guarded version proved | Obj | string lemmas |
| C67 | PanDat infinity flagging round trips | proved | InfIO | masks cell by cell |
| C68 | Parameters stored as strings come back typed | proved | InfIO | case analysis |
| C69 | convert_dat applies to copied row predicates and to no others | refuted, guarded version proved | RowPred | computation on the set of converted names |
| C70 | max_failures truncates row predicate reports correctly | proved | RowPred | prefix lemma |
| C71 | The built-in parameters check reports exactly the bad parameters | proved | RowPred | case analysis |
| C72 | PanDatFactory and TicDatFactory report the same row predicate failures | proved | RowPred | equality of two loops |
| C73 | Postgres columns never get a reserved name | refuted, guarded version proved | Names | string lemmas |
| C74 | PanDat data type failure report is exact, bounded or not | proved | PanTypes | column scan |
| C75 | PanDat replacement changes exactly the failing cells, or nothing | proved | PanTypes | column scan |
| C76 | obfusimplify's copy is the renamed original | refuted, guarded version proved | Obfus | map lemma; refuted by a foreign key with two native fields onto one foreign field |
| C77 | obfusimplify succeeds on data without foreign key failures | refuted, guarded version proved | Obfus | propagation along foreign keys |
| C78 | Malformed JSON rows are refused | refuted, guarded version proved | Json | case analysis of rows |
| C79 | SQL files work for every table and field name | refuted, guarded version proved | Sql | format string lemma |
| C80 | SQLite database round trip | refuted, guarded version proved | Sql | round trip cell by cell, lifted to tables |
| C81 | CSV columns are matched by name | refuted, guarded version proved | Csv | header matching |
| C82 | Excel columns are matched by name at the row offset | refuted, guarded version proved | Xls | header matching |
| C83 | CSV round trip | refuted, guarded version proved | Csv | round trip cell by cell, lifted to directories |
| C84 | Excel round trip | refuted, guarded version proved | Xls | round trip cell by cell, lifted to workbooks |
| C85 | Rows with equal keys in CSV and Excel files | refuted, guarded version proved | Csv, Xls | dict building lemma |
| C86 | Ambiguous sources are refused | proved | Sources | exactly-one lemma |
| C87 | good_tic_dat_object is exact | refuted, guarded version proved | Good | case analysis against a relational spec |
| C88 | Tables accepted by good_tic_dat_table can be converted | refuted, guarded version proved | Good | case analysis |
| C89 | copy_to_pandas copies every table | refuted, guarded version proved | Frames | column/row transposition lemmas |
| C90 | copy_to_tic_dat copies every row of a PanDat object | refuted, guarded version proved | Frames | column lemmas |
| C91 | The PanDat constructor keeps all cells | proved | Frames | column lemmas |
| C92 | A run of standard_main solves and writes exactly when it should | refuted, guarded version proved | Main | evaluation of the run by cases |
| C93 | File endings decide the format, reading and writing alike | proved | Main | first/last matching suffix |
| C94 | Command line options of standard_main | refuted, guarded version proved | Main | induction over the argument list; getopt_exact relates it to an inductive grammar of command lines |
| C95 | The integrity report names each bad row | refuted, guarded version proved | Main | flat_map lemmas on the report |
| C96 | The integrity report agrees with TicDatFactory | refuted, guarded version proved | Main | comparison of two finders |
| C97 | PanDat readers keep every row and refuse exactly what they must | refuted, guarded version proved | PanIO | iff for refusal; content of each table |
| C98 | PanDat JSON round trip | refuted, guarded version proved | PanIO | round trip column by column |
| C99 | PanDat Excel reading prunes trailing empty rows | refuted, guarded version proved | PanIO | pruning and masks commute |
| C100 | Writing again to one place replaces the data | refuted, guarded version proved | PanIO | histories of writes |
| C101 | PanDat parameters keep type and validity | refuted, guarded version proved | PanIO | case analysis |
| C102 | Postgres columns follow the declarations | refuted, guarded version proved | Pg | statement by statement; refuted by a foreign key with two native fields onto one foreign field |
| C103 | Every factory with acceptable names gets a Postgres schema | refuted, guarded version proved | Pg | creation in dependency order |
| C104 | include_ancillary_info=False leaves out only the constraints | refuted, guarded version proved | Pg | the schema without keys is that of another factory |
| C105 | Postgres round trip | refuted, guarded version proved | Pg | cell by cell through coerce, then rows up to order |
| C106 | What pgsql.write_data does to the rows there | refuted, guarded version proved | Pg | induction over deletions and insertions |
| C107 | Consistent data can be written to Postgres | refuted, guarded version proved | Pg | invariant of insertion in dependency order |
| C108 | The active field | proved | Pg | filtering commutes with reading |
| C109 | pgsql.find_duplicates counts exactly | proved | Pg | as C85 |
| C110 | PanDat objects survive Postgres | proved | PgPan | C111 forwards, C113 backwards, cell by cell |
| C111 | What PanDat write_data leaves in Postgres | proved | PgPan | induction on the tables uploaded |
| C112 | PanDat write_data is all or nothing | refuted, guarded version proved | PgPan | witness; induction on the tables uploaded |
| C113 | pgsql.create_pan_dat reads what is there | proved | PgPan | the DataFrames selected, then C97 |
| C114 | A PanDatFactory can be rebuilt from its full schema | refuted, guarded version proved | PanFac | predicates aside, the calls of a PanDatFactory are calls of a TicDatFactory; then C19 |
| C115 | PanDatFactory clones keep exactly what they should | refuted, guarded version proved | PanFac | the same reduction to C20 and C21, then the predicates are attached one by one |
| C116 | A clone of the other kind is the same schema | refuted, guarded version proved | PanFac | the same reduction; predicates attached after a filter |
| C117 | clone_add_a_table adds the table and nothing else | refuted, guarded version proved | PanFac | the edited schema is a good one (as for C21), then create_ok |
| C118 | PanDatFactory: lock, last call, rejected calls | refuted, guarded version proved | PanFac | case by case on the calls, induction on the history |
| C119 | copy_to_ampl gives AMPL the data of the tables | refuted, guarded version proved | AmplData | copy_to_pandas reads back (C89), then column by column |
| C120 | copy_from_ampl_variables holds the solution | refuted, guarded version proved | AmplData | invariant of the loop over the variables; the temporary objects are read with the lemmas of C90 |
| C121 | nearly_same compares numbers by relative error | refuted, guarded version proved | Near | case analysis on finite and infinite numbers; Python max/min on NaN |
| C122 | TicDat comparison with a tolerance | refuted, guarded version proved | Near | the proof of C31 with the cell test as a parameter |
| C123 | PanDat comparison | refuted, guarded version proved | Near | the copy is read with the lemmas of C90; equal numbers of distinct keys |
| C124 | One model, three engines | refuted, guarded version proved | Solver | relation between core models kept by every call |
| C125 | Solution values belong to their variables | refuted, guarded version proved | Solver | invariant: the index of a variable is its position |
| C126 | set_parameters sets all or nothing | refuted, guarded version proved | Solver | induction on the keywords |
| C127 | Progress call-backs show the bounds | refuted, guarded version proved | Solver | linear arithmetic |
| C128 | Writing an SQLite file is all or nothing | refuted, guarded version proved | FileDb | the connection is a transaction; what is in the file after the INSERTs by induction on them |
| C129 | SQLite files: round trip | proved | FileDb | C128 and the rows read back table by table, as C105 |
| C130 | find_duplicates of files finds what reading loses | refuted, guarded version proved | FileDb | the focused factory is read with the lemmas of C109; a dict is shorter than the pairs iff keys are equal |
| C131 | Access files get the infinities the flag asks for | refuted, guarded version proved | FileDb | unfold the cell; C132 gives the row, no column takes it |
| C132 | Writing an Access file is all or nothing | refuted, guarded version proved | FileDb | invariant over the tables: committed and current state |
| C133 | Access files: round trip | proved | FileDb | C132 and the same reading as C129 |
| C134 | Access files: write_schema | proved | FileDb | induction on the CREATE statements |
| C135 | PanDat CSV round trip | refuted, guarded version proved | PanFiles | the cells that pandas may return (`came`) followed through `create_frames`; names by C100 |
| C136 | PanDat SQLite round trip | proved | PanFiles | as C135, no column read as text |
| C137 | PanDat Excel round trip | proved | PanFiles | as C135, then the pruning of C99 |
| C138 | PanDat json round trip with write_file_pd | proved | PanFiles | as C135 after the cells of fields for dates became text |
| C139 | When PanDat files are not written | proved | PanFiles | induction on the tables; names of sheets by an invariant of the dictionary |
| C140 | CSV directories of objects with generic tables | refuted, guarded version proved | Generic | the factory without generic tables is one of the tables with fields and the frames with rows; then as C83 |
| C141 | New SQLite files of objects with generic tables | refuted, guarded version proved | Generic | C128 for that factory; the types from its zero defaults; reading as C129 |
| C142 | Overwriting generic tables in SQLite files | refuted, guarded version proved | Generic | C128 for that factory |
| C143 | Names of generic tables in SQLite files | refuted, guarded version proved | Generic | case analysis on the two lookups |
| C144 | SQL text files of objects with generic tables | refuted, guarded version proved | Generic | the tables created are those of the factory without generic tables |
| C145 | Excel files of objects with generic tables | refuted, guarded version proved | Generic | as C140 |
| C146 | json.create_tic_dat tells the formats apart | refuted, guarded version proved | JsonDoc | lists are never taken for DataFrames, then the round trip of C37; witnesses by computation |
| C147 | Further keys of a json document are ignored | refuted, guarded version proved | JsonDoc | the lookup of each table sees the same matching keys; witnesses by computation |
| C148 | json documents written through pandas come back | proved | JsonDoc | the factory of the full schema has the same tables, types and settings; copies by C89 and C90, the trip by C98 and C138 |
| C149 | json.write_file: files | refuted, guarded version proved | JsonDoc | case analysis on the writer; reading back by C146 |
| C150 | find_duplicates of json documents read through pandas | proved | JsonDoc | the rows read are rectangular, then as C49; copying fails exactly on equal keys (C90) |
| C151 | Reading generator tables | proved | Lazy | the constructor treats each table by itself; a source read now gives the rows that reading now gives |
| C152 | Writing generator tables back | refuted, guarded version proved | Lazy | the destination written so far never matters to a source elsewhere (SQLite: nothing is visible before the commit); the losses by following the one table through the loop |
| C153 | Rows for a generator table | refuted, guarded version proved | Lazy | the length of a function is 0 and smaller than that of any container with a row; otherwise table by table |
| C154 | Integrity checks of objects with generator tables | refuted, guarded version proved | Lazy | generator tables as empty tables, then C03 and C07 |
| C155 | A copy stands alone | refuted, guarded version proved | Lazy | row factories are idempotent on rows with all fields |
| C156 | A failed write leaves the files alone | refuted, guarded version proved | Lazy | induction over the files written; witnesses by computation |
| C157 | Different tables look different in a log | refuted, guarded version proved | Extras | splitting the added text at line breaks; padded cells by position |
| C158 | find_case_space_duplicates | refuted, guarded version proved | Extras | as many names as fields exactly if the map is injective |
| C159 | set_ampl_data hands over every table once | proved | Extras | induction over the loop |
| C160 | All parameters of a PanDat object | refuted, guarded version proved | Extras | the dict of the rows keeps the last value; then C56 |
| C161 | What pgsql.create_tic_dat reads | proved | DbRead | invert the reader for the conditions; under them the rows of every table are those of rows_table, whose last-row property is C85's |
| C162 | What sql.create_tic_dat and mdb.create_tic_dat read | proved | DbRead | the same with the lookup of table and column names in a file |
| C163 | The setting 'assert' guards reading from databases | refuted, guarded version proved | DbRead | witness of two rows with one key; determinism of the rows in the two theorems above |
| C164 | The SQLite schema declares the factory | refuted, guarded version proved | SqlSchema | read_create is run on the text of a statement by rewriting lemmas for its tokens; order of the tables from sq_order_acyclic (C18); the type by cases of the default |
| C165 | SQL text files with schema | refuted, guarded version proved | SqlSchema | split_iff on the statements of schema and data; membership of a semicolon in a statement comes down to names, defaults and cells |
| C166 | Rows with their keys inside | refuted, guarded version proved | Keyless | the dict of a row is looked up field by field; handle_row_dict then gives the cells back, dict_of is the identity on distinct keys |
| C167 | What find_foreign_key_failures returns | proved | FkReport | the plain tuple determines the foreign key, so dict_of on the tuples is the identity; rows at flagged positions by induction on the flags; C13 for the flags |
| C168 | sloc is loc with empty slices | refuted, guarded version proved | Sloc | selected is a filter; cases of loc for proper keys; witnesses for the masked exceptions |
| C169 | Writing to Postgres with a dsn | proved | PgDsn | what a page adds; pages of a list concatenate to it; row-wise checks imply the statement-wise ones as rows only grow |

## 6. Properties the code violates

Each has a theorem with a concrete witness; the guarded theorems are listed in MANIFEST.json.

* **C11** (`C11_every_mapped_pair_refuted`): by the code: when two native fields map to one foreign field only the last pair is enforced. C11_only_effective_pairs_enforced says exactly what is enforced.
* **C13** (`C13_pandat_report_refuted`): by the code: with a mapping a->b, b->a the parent index is built from overwritten columns. The positive theorem excludes exactly such mappings (no_overwrite).
* **C14** (`C14_implied_keys_same_verdict_refuted`): by the code: a chain through a table whose parent has no primary key adds a foreign key with empty mapping, which every native row fails. Proved when every foreign table has a primary key.
* **C18** (`C18_sqlite_order_terminates_refuted`): by the code: any circular key, e.g. a self reference, makes the traversal recurse forever. Acyclic schemas are ordered correctly.
* **C19** (`C19_non_string_parameter_refuted`, `C19_empty_implied_key_refuted`): by the code: create_from_full_schema rejects schemas with a non-string parameter name (which add_parameter accepts) and with an empty implied foreign key. For every other reachable factory the round trip is exact.
* **C20** (`C20_clone_with_generic_table_refuted`, `C20_clone_without_generator_refuted`, `C20_clone_predicate_on_generator_refuted`): by the code: cloning a subset fails when the factory has a generic table, when a generator table is left out, and when a predicate sits on a table made a generator later. Proved for all other factories. convert_dat and clone_factory=PanDatFactory are not modelled.
* **C21** (`C21_rename_only_column_refuted`, `C21_rename_parameters_column_refuted`): by the code: renaming removes the column first, so it fails on one-column tables and on the parameters table once there are parameters. Proved for all other columns.
* **C22** (`C22_remove_parameter_refuted`): by the code: remove_parameter does not check whether the factory has been used. Every other call sequence leaves a used factory locked.
* **C24** (`C24_rejected_call_changes_nothing_refuted`): by the code: set_default_values applies the tables before the offending one and then raises. The last accepted call wins for histories without such a rejected call; types and tooltips without proviso.
* **C26** (`C26_list_of_dicts_refuted`): by the code: handle_row_dict fills missing fields with 0 instead of the declared default. True when the declared defaults are 0.
* **C28** (`C28_freeze_refuted`): by the code: setdefault, popitem, clear and |= are inherited from dict and not guarded, nor is setdefault on rows of a table without data fields. Every sequence of the other calls leaves a frozen object unchanged.
* **C29** (`C29_links_frozen_refuted`): by the code: the object registers _all_data_dicts, _freeze looks for _allDataDicts.
* **C31** (`C31_symmetric_refuted`, `C31_reflexive_refuted`): by the code: tables without a primary key are compared by length and one-sided inclusion, and a NaN cell differs from itself. Symmetric for objects without equal rows in such tables, reflexive without NaN, transitive always.
* **C32** (`C32_dataless_rows_refuted`): by the code: rows of tables without data fields accept any name. Proved for all other rows over histories of calls that go through TicDat's own code (update, setdefault and |= of a table store plain dicts).
* **C35** (`C35_parameters_flagged_refuted`): by the code: with a parameters table but no add_parameter call, _infinity_flag_write_cell flags the cell while reading never unflags it, so an infinite parameter comes back as the flag. Guarded: reading never touches the table; after add_parameter writing does not flag it.
* **C38** (`C38_refuted`, `C38_conversion_refuted`): by the code: find_duplicates only looks at keys spelled exactly like the tables (C38_refuted) and at unconverted cells (C38_conversion_refuted). Exact for literal names (C38_literal_names), and in agreement with create_tic_dat if in addition reading changes no cell (C38_agrees).
* **C39** (`C39_refuted`): by the code: the literal for ' is ill formed and the one for '' denotes ' (C39_refuted). C39_exact: a string is written correctly iff it has no two adjacent quotes and no quotes at both ends.
* **C40** (`C40_refuted`): by the code: tables without a primary key are written without conversion (C40_refuted). Proved for tables with a primary key (C40_keyed_tables); C40_listed_tables says when it makes no difference.
* **C41** (`C41_refuted`): by the code: the file is split at every semicolon, also inside cells, and a cell can carry a statement that is then executed (C41_refuted). Exact iff no statement has a semicolon of its own (C41_exact), in particular if names and strings have none (C41_no_semicolons). Schema statements and SQL parsing are not modelled.
* **C42** (`C42_refuted`): by the code: the readers cache data types and defaults per field at the first read and never invalidate the cache, so settings changed later (with the sizes of the settings dictionaries unchanged or not) are ignored (C42_refuted). Proved: the settings used are exactly those at the first read of the field by that reader, hence the current ones if they never changed since.
* **C43** (`C43_overwrites_refuted`): by the code: the check for existing files looks for table.csv only, while write_directory writes the prettified name when case_space_table_names is set; an existing file of that name is overwritten. Proved: without prettified names, and whenever no similar file exists, nothing is overwritten.
* **C47** (`C47_sheet_refuted`): by the code for Excel sheets read with openpyxl whose first rows are empty: nrows counts from min_row while rows are addressed from row 1, so the last rows are dropped. Exact for pandas, and for sheets that start in row 1.
* **C53** (`C53_refuted`): by the code: baseConverter divides with /, so from the 26th fallback name on chars[_] raises TypeError; 26 tables whose names have no usable letters suffice (C53_refuted). With at most 25 + (usable letters of each name) renamed tables a prefix is always found (C53_found).
* **C55** (`C55_shared_maker_refuted`): by the code: results are memoised per maker, so a maker shared by a predicate copied with convert_dat and a later one is called on one dat only and both predicates get that result. Otherwise sharing makers changes nothing.
* **C56** (`C56_non_string_name_refuted`): by the code for parameters whose name is not a string (add_parameter accepts them): dict(defaults, **data) raises. For string names the overlay law is proved in full.
* **C58** (`C58_refuted`): by the code: a template containing a truncated internal marker right before a placeholder passes the verify check and is garbled (C58_refuted). C58_substitutes proves the claim for every other template in which no two like single braces touch, whatever the substituted values are; str.format's field evaluation is an arbitrary partial function.
* **C61** (`C61_refuted`): by the code: replacement_values.get(key, self.default_values[table][field]) evaluates the default eagerly, so a replacement for a key field without default raises KeyError (C61_refuted). With defaults for the named columns the replacement is honoured (C61_with_defaults).
* **C63** (`C63_refuted`): by the code for structures holding datetimes: deep_copy raises on them (C63_refuted). For all others the round trip preserves content; freezing always does. Python == on hashables is an arbitrary boolean function; DataFrames, factories and other classes are not modelled.
* **C64** (`C64_only_null_excluded_refuted`): by the code: an untyped primary key cell that is a boolean or a datetime is reported, although the docstring says only null is excluded. What is reported is characterised exactly by C64_untyped_key_cells_reported.
* **C65** (`C65_shared_field_refuted`): by the code: a foreign key that maps two native fields to one foreign field makes the constructor raise. Exact for every other simple foreign key.
* **C66** (`C66_same_fields_refuted`, `C66_underscore_refuted`): by the code: foreign keys with the same native fields share a name, and names are joined with underscores. Distinct when the native fields differ and names have no underscore.
* **C69** (`C69_added_predicate_converted_refuted`): by the code: a predicate added after the clone under a copied predicate's name is converted. Copied predicates with makers are converted; predicates with new names are not.
* **C73** (`C73_reserved_column_refuted`): by the code: the check lower-cases the field while the SQL uses _pg_name, so a field such as Current Date passes and becomes the column current_date. Proved for fields of letters, digits and underscores.
* **C76** (`C76_refuted`): by the code: when a foreign key maps two native fields to one foreign field, obfusimplify goes through the inverted mapping (nativetoforeignmapping), renames only the last of the two native columns and keeps the original names in the other, without any error. C76_copy proves the claim when every foreign key is one to one. For tic_dat objects with complete rows; PanDat's obfusimplify converts to TicDat and back and is not modelled separately.
* **C77** (`C77_refuted`): by the code: a column with foreign keys to two entity tables is renamed for one of them only and the closing assertion fires (C77_refuted). C77_succeeds proves success whenever every reference to a renamed entity is passed on along each foreign key of its column.
* **C78** (`C78_refuted`): by the code: zip(all_fields, row) drops surplus cells, and a string is taken for a row of characters (C78_refuted). Short rows, unknown fields, other scalars and ambiguous keys are refused (C78_accepted_rows).
* **C79** (`C79_refuted`): by the code: names are spliced into a format string, so a percent sign raises or alters the name (C79_refuted). Proved for names without percent signs (C79_other_names).
* **C80** (`C80_refuted`): by the code: numeric strings in columns with numeric defaults come back as numbers, booleans in tables without a key as 0/1 (C80_refuted), NaN as None (C80_nan). C80_round_trip proves the round trip whenever each cell comes back, and the cell theorems say which do. sqlite3 binding and column affinity are modelled from their documentation.
* **C81** (`C81_refuted`): by the code: two identically spelled headers are accepted and the last one wins; a file without data rows is not checked at all (C81_refuted). Proved: columns are matched by name up to case in any order with any extra columns; missing columns, differently spelled duplicates and long lines are refused once there is a data row.
* **C82** (`C82_refuted`): by the code: for openpyxl sheets with leading empty rows nrows is max_row-min_row+1, so a valid offset is taken to be beyond the end and the sheet refused (C82_refuted). Proved for offsets below nrows, which is right for .xls and for sheets that begin in row 1 (C82_offset).
* **C83** (`C83_refuted`): by the code: with default settings numbers in key fields come back as strings, numeric strings in data fields as numbers, booleans as strings (C83_refuted). C83_round_trip proves the round trip whenever each cell comes back; the other theorems say which cells do and do not. The csv module is taken to return the texts written.
* **C84** (`C84_refuted`): by the code: with default settings a string spelled inf in any case comes back as infinity, also in keys (C84_refuted). C84_round_trip proves the round trip whenever each cell comes back and no row is found empty. The Excel libraries are an oracle for what is found in a cell after writing.
* **C85** (`C85_csv_refuted`, `C85_xls_refuted`, `C85_xls_inf_refuted`): by the code: both readers build a dictionary first, so rows are merged before the check (C85_csv_refuted, C85_xls_refuted), and the Excel find_duplicates always reads inf as infinity (C85_xls_inf_refuted). Proved: the last row of each key stays, none is lost iff nothing is reported, and the reports are exact.
* **C87** (`C87_refuted`): by the code: for a table without primary key that is no container (None, say) a TicDatError is raised instead of returning False (C87_refuted, C87_raises). Otherwise exact (C87_exact), and what is accepted is an object of the model (C87_objects). DataFrames are only refused; Series, generator and generic tables are not modelled.
* **C88** (`C88_refuted`): by the code: a list of dicts for a keyed table without data fields is judged by the sizes of the dicts only, so wrong field names pass (C88_refuted). Proved for all other inputs (C88_converts) and conversely (C88_accepts).
* **C89** (`C89_refuted`, `C89_empty_refuted`): by the code: a generic table is replaced by its name, a string, so the copy is no good PanDat object and cannot be converted back (C89_refuted); an empty table keeps its key columns and gets no index whatever drop_pk_columns says (C89_empty_refuted). Proved for the other tables when pandas keeps the cells of the columns (oracle settle), TicDat round trip for schemas without the field name 'name' (C89_back).
* **C90** (`C90_refuted`): by the code: for a schema with a data field 'name' (or 'name' in a key of several fields) every copy raises (C90_refuted). Proved for all other schemas (C90_copies), with exact conditions for the duplicate error. Column names are different from each other.
* **C92** (`C92_empty_input_refuted`, `C92_empty_output_refuted`, `C92_error_file_refuted`): by the code: an empty input path makes solve run without data (C92_empty_input_refuted), an empty output path is refused only after solving (C92_empty_output_refuted), and an integrity report of a TicDat engine meant for a .sql, .mdb or .accdb file ends the run with an exception (C92_error_file_refuted). Proved for all other paths without -f (C92_run; C92_ending says when the run ends normally); file system, readers, writers and solve are oracles.
* **C94** (`C94_ignored_refuted`, `C94_both_refuted`): by the code: a word that is no option hides all options after it without a message (C94_ignored_refuted), and -f with -e, called incompatible, are both carried out (C94_both_refuted). Proved: last option counts, -h does nothing, spellings are equal, exactly which words stand for which options, and malformed words end the run. getopt is modelled after the standard library.
* **C95** (`C95_message_refuted`, `C95_generic_refuted`): by the code: a cell of a column that is not in the schema is reported as error message of a row predicate (C95_message_refuted), and no report can be made for a schema with a generic table (C95_generic_refuted). Proved for the rows reported, the count deciding about solve, and messages of rows with the columns of the schema.
* **C96** (`C96_refuted`): by the code: for a foreign key that swaps field names the report has errors where TicDatFactory.find_foreign_key_failures has none (C96_refuted). Proved for keys whose mapping does not rename a field to another mapped field (no_overwrite).
* **C97** (`C97_missing_tables_refuted`): by the code as to csv: the documentation says missing tables throw an exception, but they are read as empty (C97_missing_tables_refuted). Proved: exact conditions for refusal, and the content of every table. pandas.read_* is outside of the model (what it returns is given); parameter values are C101.
* **C98** (`C98_generic_refuted`, `C98_none_text_refuted`, `C98_other_key_refuted`): by the code: no schema with a generic table can be written (C98_generic_refuted), a text spelled none comes back as None (C98_none_text_refuted), and another key without a table makes the document unreadable (C98_other_key_refuted). Proved otherwise (C98_round_trip) for cells that reading does not convert, dates in datetime fields, and columns that pandas keeps up to None and NaN.
* **C99** (`C99_refuted`): by the code: if infinity_io_flag is None and a field has an infinity bias, empty rows become rows with an infinity before pruning and stay (C99_refuted). Proved for all other settings.
* **C100** (`C100_csv_refuted`, `C100_sql_refuted`): by the code: writing with another case_space_table_names leaves files of both names, which cannot be read (C100_csv_refuted), or fails for a database (C100_sql_refuted). Proved for writes with one setting.
* **C101** (`C101_hidden_refuted`): by the code: a missing value of a text parameter that must not be null becomes the allowed text nan (C101_hidden_refuted). Proved: parameters read from text have their own type.
* **C102** (`C102_refuted`): by the code: of two native fields mapped to one foreign field only the last gets into the FOREIGN KEY clause. C102_schema proves all the rest, and the foreign keys when they are one to one. Postgres is modelled after its documentation. C102_defaults states the defaults of datetime fields and of fields with a forced type.
* **C103** (`C103_refuted`): by the code: the schema cannot be created for a foreign key to a part of a primary key, for a default value with a single quote, or for a field forced to timestamp whose default is left at 0 (C103_refuted). Proved for foreign keys to whole keys without circles and defaults that fit their columns.
* **C104** (`C104_refuted`): by the code: the values of the parameters table are text with and float without ancillary information (C104_refuted), so text parameters cannot be written. Proved for all other tables.
* **C105** (`C105_refuted`): by the code: a key field without a data type becomes a text column, so the key 1 is read as the text 1 (C105_refuted). Proved if every cell is kept by its column and by the infinity flag, which the other theorems decide for each flag.
* **C106** (`C106_refuted`): by the code: write_data first empties the tables and commits, so after a failure the rows that were there are lost (C106_refuted). Proved: what a successful call writes, what a failed one can leave, and that bad arguments and missing columns are refused before anything is touched. The dsn way of writing is C169.
* **C107** (`C107_refuted`): by the code: rows are inserted one by one in the order of the object, so a table referring to itself is refused if a row comes before the one it refers to (C107_refuted). Proved for foreign keys without circles.
* **C112** (`C112_refuted`): by the code: the tables are emptied first, so after a failure the rows that were there are lost (C112_refuted). Proved: what a failed call can leave.
* **C114** (`C114_non_string_parameter_refuted`): by the code: add_parameter takes any name, create_from_full_schema only strings (C114_non_string_parameter_refuted). Proved for parameters with string names; unlike C19 no condition on foreign keys is needed.
* **C115** (`C115_clone_with_generic_table_refuted`, `C115_rename_only_column_refuted`, `C115_rename_parameters_column_refuted`): by the code: with a generic table any restricted clone raises, even one that keeps all tables; the only column of a table and the columns of a parameters table in use cannot be renamed (the refuted theorems). Proved otherwise.
* **C116** (`C116_links_refuted`, `C116_generic_predicate_refuted`): by the code: a TicDatFactory with foreign key links cannot be cloned to a PanDatFactory (no such method), a PanDatFactory with a row predicate on a generic table not to a TicDatFactory (the refuted theorems). Proved otherwise. The clone has no generator tables. What convert_dat does later, to the kwargs makers, is not modelled.
* **C117** (`C117_generic_table_refuted`, `C117_first_table_refuted`): by the code: raises if there is a generic table, and if there is no table at all (the refuted theorems). Proved otherwise.
* **C118** (`C118_remove_parameter_refuted`, `C118_rejected_call_changes_nothing_refuted`): by the code: remove_parameter works on a used factory, and a rejected set_default_values has assigned part of its argument (the refuted theorems). Proved otherwise.
* **C119** (`C119_generic_refuted`, `C119_pan_key_refuted`): by the code: a factory with a generic table cannot copy anything, even with that table excluded (primary_key_fields has no entry for it), and PanDatFactory.copy_to_ampl adds a renamed key field a second time (the refuted theorems). Proved otherwise. set_ampl_data is not modelled.
* **C120** (`C120_zero_refuted`, `C120_pan_generic_refuted`): by the code: a variable that is 0 where another variable of the table is not gets the default of its field, which need not be 0, and the PanDat version raises if there is a generic table (the refuted theorems). Proved: which keys are present; cells are the value if the filter keeps it, else the default; equal to the variable for fields with default 0.
* **C121** (`C121_nan_refuted`): by the code: NaN is nearly the same as every finite number (max and min of Python ignore it), and as infinity in one order only (C121_nan_refuted). Proved exact for all other cells, in exact arithmetic.
* **C122** (`C122_nan_refuted`): by the code: with a positive tolerance an object with NaN passes for the same as one with a number in that place, even when NaNs are not declared the same (C122_nan_refuted). Proved exact without NaN cells, or with tolerance 0.
* **C123** (`C123_duplicates_refuted`): by the code: unless duplicates are an error, rows whose key occurs again later are not compared (C123_duplicates_refuted). Proved exact for tables with different keys.
* **C124** (`C124_indicator_refuted`): by the code: add_indicator_constraint raises for CPLEX models (as its message says). Proved for all other calls, and for all calls on Gurobi and Xpress. What the engines make of the calls is trusted.
* **C125** (`C125_core_variable_refuted`, `C125_stale_refuted`): by the code: on Xpress a variable added to core_model shifts the values of variables added later, and on CPLEX the values of an earlier solve are handed out after one that failed (the refuted theorems). Proved otherwise.
* **C126** (`C126_refuted`): by the code: a refused call has set the parameters named before the refused one (C126_refuted). Proved: when it raises, and what it sets when it does not.
* **C127** (`C127_cplex_refuted`): by the code: before CPLEX has found a solution its listener passes a dict instead of a number, and raises (C127_cplex_refuted). Proved otherwise, in exact arithmetic.
* **C128** (`C128_refuted`): by the code: a failed write to a path where nothing was leaves a file with empty tables (C128_refuted; C128_left_behind: always). Proved for files that existed, and what a call that returns has written; also when it does return.
* **C130** (`C130_refuted`): by the code: duplicates are searched without data types, so two spellings of a date that are one key for create_tic_dat are not reported and a row is lost (C130_refuted). Proved: what is reported, and that it is what is lost if no setting changes how the keys are read.
* **C131** (`C131_refuted`): by the code: for tables with a key the field name is looked up with brackets, so with the flag None infinities are handed over as they are (C131_refuted; C131_never: such a write never returns if columns have no infinity). Proved for other flags, tables without key, parameters and finite cells.
* **C132** (`C132_refuted`): by the code: every DELETE and every row of a table with a key is committed at once, so a failing call, even one refused for allow_overwrite, leaves emptied and partly written tables (C132_refuted). Proved: what exactly it leaves, what a call that returns has written, and when it returns.
* **C135** (`C135_bool_parameter_refuted`): by the code for booleans among the parameters: the column is read as text, so False comes back as the text False (C135_bool_parameter_refuted). Proved for everything else; what pandas makes of a readable DataFrame is an oracle with the hypothesis loads (cells unchanged, dates may become text, numbers become text in columns asked for as text).
* **C140** (`C140_stale_refuted`, `C140_pretty_refuted`, `C140_flag_refuted`): by the code: create_generic_free makes a factory without the settings of the old one and without its empty generic tables, and csvtd.py 244 does not pass on case_space_table_names; so infinity is written as inf whatever the flag (C140_flag_refuted), names are not made pretty (C140_pretty_refuted), and the file of a generic table that is now empty stays and is read back (C140_stale_refuted). Proved: what exactly is written to a new directory, and that it is read back (an empty generic table without its columns).
* **C141** (`C141_types_refuted`): by the code: the new factory has no default values, so every data column has the type INT and text such as 007 in a field with a text default becomes a number (C141_types_refuted; what a column stores is an oracle, the witness is the INT affinity of SQLite). Proved: the tables of a new file, and that the object comes back if every cell comes back from a column of type INT (of no type for key fields).
* **C142** (`C142_refuted`): by the code: a generic table without rows is left out of the new factory, so its old rows stay in the file although overwriting is allowed, and are read back (C142_refuted). Proved: what a call that returns leaves in each table.
* **C143** (`C143_refuted`): by the code: the columns are asked for with PRAGMA table_info under the name of the schema without brackets (sqlitetd.py 225), so a generic table that the file has with spaces makes the call raise (C143_refuted). Proved: it raises for every such name, and for each name that needs brackets.
* **C144** (`C144_refuted`): by the code: the table of an empty generic table is never created, and reading then raises (C144_fails, C144_refuted). Proved also: generic tables with rows are read (C144_read). Not proved: that the text of the script denotes those rows (for tables with fields see C39-C41).
* **C145** (`C145_refuted`): by the code: the new factory has the flag N/A, so infinity is written as the text inf, which a factory with another flag reads as text (C145_refuted). Proved: what exactly the sheets are.
* **C146** (`C146_columns_data_refuted`, `C146_index_refuted`): by the code: a document of DataFrames is not recognised if every table of the schema has just the fields columns and data (C146_columns_data_refuted) or if the index was written too (C146_index_refuted); it is then silently read as rows made of the letters of the keys columns, data, index. Proved: the default format is recognised whatever the schema and read back exactly, in any order of keys; the split format is recognised in every other case (C148_split).
* **C147** (`C147_frames_refuted`, `C147_scalar_refuted`): by the code: a list under a further key turns a document of DataFrames into rows made of the letters of columns and data (C147_frames_refuted), and a scalar under a further key makes every document unreadable (C147_scalar_refuted). Proved: lists and objects under further keys change nothing in a document that holds some rows, nor do further DataFrames in any document.
* **C149** (`C149_refuted`): by the code: the file is opened for writing before json.dump begins, so an object with a cell that json cannot write destroys the file to be overwritten (C149_refuted; whether json can write a document is an oracle). Proved: what must not be overwritten is kept in every case; if the document can be written down then a call that raises changes nothing, it raises exactly in the listed cases, and otherwise the document is stored and read back.
* **C152** (`C152_csv_refuted`, `C152_access_refuted`, `C152_xlsx_refuted`): by the code: written to the directory it was read from, a generator table is called after its csv file has been emptied and all its rows are silently lost (C152_csv_lost); in Access files likewise, since the deletion of the old rows is committed first (C152_access_lost); an .xlsx file is removed before the generator is called, so the call raises and the file is gone (C152_xlsx_gone). The three losses are proved in general, not only for the witnesses. Proved without reserve: SQLite files, .xls files, and csv to another directory.
* **C153** (`C153_refuted`): by the code: with the default setting of duplicates_ticdat_init the check for lost rows (ticdatfactory.py 850-853) takes the length of the function that the table has become for 0, so every container with a row in it is refused (C153_refused). Proved: functions are taken, and containers if the setting is another, with the rows they have and exactly when an ordinary table would take them.
* **C154** (`C154_types_refuted`, `C154_lengths_refuted`): by the code: data type failures in generator tables are silently left out (C154_types_refuted), foreign keys from a generator table, or to one from a table with rows, make the report raise (C154_fk_raises), and so does the length of any object with one (C154_lengths_refuted). Proved: the type report is exact for the other tables, the foreign key report is exact when it does not raise, the lengths are exact without generator tables.
* **C155** (`C155_refuted`, `C155_list_refuted`): by the code: the generator table of the copy calls that of the object, so it follows edits of the list (or file) behind it (C155_refuted). Proved: the copy is of the same form, its other tables are equal, and its generator tables show what those of the object show in every state of the world.
* **C156** (`C156_csv_refuted`, `C156_xlsx_refuted`): by the code: csv files are replaced one after the other, so that a failure leaves some new and the rest old or empty (C156_csv_refuted); the .xlsx file to be replaced is removed first and gone if writing fails (C156_xlsx_refuted). Proved: a failed call of the .xls writer changes nothing; the csv writer never touches other paths or files under other names; without allow_overwrite it does nothing if the file of a table exists.
* **C157** (`C157_refuted`): by the code: cells as long as the column is wide are not separated, so two different tables can give the same text (C157_refuted). Proved: the lines of the text (see also C60); tables of the same size with the same text have the same name and cells if the cells fit the columns, hold no line breaks and do not end in a blank.
* **C158** (`C158_refuted`): by the code: the schema entry of a generic table is the text *, which has no item 1, so that the function raises for every factory with a generic table (C158_raises). Proved: exact for all others.
* **C160** (`C160_non_string_name_refuted`): by the code: as in C56, dict(x, **y) raises for names that are not strings, although such parameters can be declared. Proved: exact for tables whose names are strings.
* **C163** (`C163_refuted`): by the code: the readers put the rows of a keyed table into a dict before the constructor, which is the one to assert, sees them; so a row is dropped silently. Proved: rows are lost exactly where two keys are equal, and all three readers return the same for every setting.
* **C164** (`C164_refuted`, `C164_bracket_refuted`): by the code: of two native fields that refer to one foreign field only the last is declared (C164_refuted), and a name with a closing bracket is read as something else (C164_bracket_refuted). Proved for one-to-one foreign keys without circles (C18), tables with at least one field, and names and defaults without closing brackets. str() of a default and the order of a set are oracles; the reader of SQL (SqlRead.v) is part of the statement.
* **C165** (`C165_refuted`): by the code: the file is split at every semicolon, also at one in the default of a field, so that the CREATE statement is cut (C165_refuted; for cells see C41). Proved: the pieces are the statements exactly when none has a semicolon inside, in particular when names, defaults and cells have none; when the file is written and what it consists of.
* **C166** (`C166_refuted`): by the code: a one-field key may be a tuple of one (the constructor takes it), and then two keys can have the same dict, so that a row is lost (C166_refuted). Proved when one-field keys are not tuples; C166_rows without that condition. Generator and generic tables are not covered.
* **C168** (`C168_unsorted_refuted`, `C168_too_many_refuted`): by the code: every exception of .loc is taken for an empty slice when the key has a colon; a slice of an unsorted level (copy_to_pandas does not sort) gives no row although rows are asked for (C168_unsorted_refuted), and a key with too many entries is not refused (C168_too_many_refuted). Proved for keys within the levels whose other slices are on sorted levels. .loc itself is modelled from the pandas documentation (Sloc.v).

Notes on other properties:

* **C01**: The date parser (dateutil/pandas) is an arbitrary function.
* **C07**: Mappings with pairwise distinct foreign fields; for the others see C11.
* **C12**: For mappings where no assignment overwrites a column still to be read (see C13).
* **C17**: Stronger than asked: also on cyclic schemas every foreign key that is not part of a circle is respected.
* **C25**: DataFrames, Series, generator and generic tables are outside the model. Dict rows inside a list are the subject of C26.
* **C34**: Writer and reader may have different histories (cached biases); dateutil parsing and float() are oracles.
* **C37**: json.dump/json.load are taken to return scalars, lists and dicts unchanged up to the order of dict entries. The pandas formats are not modelled. Datetimes outside datetime fields come back as text (C37_untyped_dates).
* **C44**: Strings are sequences of 8-bit characters with ASCII case mapping.
* **C46**: Uses the documented contract of xlwt/XlsxWriter that case-insensitively equal sheet names are refused. ticdat's own name check alone is case-sensitive: C46_name_check_refuted exhibits one sheet read for two tables.
* **C48**: The gurobipy branch is not modelled. Elements are of any type with an equivalence as ==.
* **C49**: One model for the utils, csv and Excel versions, which share the counting; the rows read are a parameter.
* **C50**: pandas duplicated() is modelled from its documentation as a scan with the keys seen.
* **C51**: Only what the function copies (fields, defaults, data types) is part of the result; foreign keys, predicates and parameters are not copied by the code.
* **C52**: Set iteration order and sorted() are arbitrary functions returning permutations (sorted may raise).
* **C54**: Predicates, makers and converters are arbitrary functions that may raise (assumed not to modify the data). For factories where no maker serves both converted and unconverted predicates; see C55.
* **C57**: Characters are 8-bit with ASCII isalnum.
* **C60**: C60_lines and C60_texts are about non-negative bounds; C60_negative says what the slice does with a negative one.
* **C67**: DataFrame masks are modelled cell by cell.
* **C72**: Rows are identified as in TicDat; the DataFrame slice returned with as_table is not modelled beyond which rows and messages it has.
* **C74**: pandas Series.apply is taken to visit the cells from the top; isnull of a cell is None/NaN.
* **C75**: The closing assertion is part of the model and shown never to fire. pandas column assignment is modelled cell by cell (no dtype coercion).
* **C86**: Strings are 8-bit with ASCII case mapping; SQLite table names are compared without regard to case. The readers of whole databases are not composed with the name lookup.
* **C91**: For DataFrames with differently named columns of which one has a string name, or with the key as index, and for lists of rows of equal length; other arguments of pandas.DataFrame and Series are not modelled. A DataFrame without columns and index, and rows shorter than the fields, are refused even if defaults exist (C91_rows).
* **C93**: The endings are compared with their case. Reading also needs a file, or for CSV a directory, of that name.
* **C110**: The conditions on cells (row_stays) are those of C105; C105_refuted shows that they are needed.
* **C111**: Generic tables and table_specific_context_manager are not modelled.
* **C129**: What the columns store is an oracle; the hypothesis is that each cell comes back from its column.
* **C133**: What the columns store is an oracle; the hypothesis is that each cell comes back from its column.
* **C136**: pandas is an oracle with the hypothesis loads, no column is asked for as text.
* **C137**: pandas is an oracle with the hypothesis loads.
* **C138**: pandas is an oracle with the hypothesis loads; for json, no text none in nullable text fields (see C98_none_text_refuted).
* **C148**: pandas is an oracle (gentle; loads); the rows are such that their cells survive (row_ok, file_row_ok: within the flag, dates in fields for dates, no text none in nullable text fields) and keys have no nulls; tables are frameable as in C90.
* **C150**: for factories made by the public calls; what pandas reads is an oracle.
* **C159**: what AMPL takes is an oracle.
* **C161**: The conversion of a cell is that of C34 and the adjustment of parameters that of C68; they appear as pg_read_cell and adjusted.
* **C162**: The table found for a name is that of C44 and C86; the conversion of cells is that of C34 and C80. Generic tables: C141-C143; generator tables: C151.
* **C167**: C167_rows under the guard of C13 (no mapped native name is overwritten before it is read). The TypeError fallback of the pandas join is not modelled.
* **C169**: psycopg2's execute_values (pages of 100 rows, one statement each), the transaction of its connection and statement-wise foreign key checks of Postgres are modelled after their documentation (PgDsn.v). As with C106, rows that were there before are lost when the call raises; C169_ex and C169_pages_ex show that self-references to later rows are accepted within a page and refused beyond it.

## 7. Print Assumptions

`Print Assumptions` prints `Closed under the global context` for each of the following theorems, i.e. none of
them depends on an axiom.  (A checker that lists every axiom of the loaded standard library may show
seven `Coq.ssr.ssrunder` parameters; they come with `ssreflect`'s library part and no theorem uses them.)

* C01: `C01_valid_data_iff_documented`, `C01_untyped_key_fields`
* C02: `C02_accepted_calls`, `C02_stored_types_stable`, `C02_min_max_ordered`, `C02_datetime_ignores_rest`, `C02_no_number_ignores_bounds`
* C03: `C03_report_is_exactly_the_failing_cells`
* C04: `C04_bounded_report`, `C04_nonpositive_bound_rejected`, `C04_positive_bound_accepted`
* C05: `C05_replace_exact`, `C05_no_typed_data_field_fails_afterwards`, `C05_second_call_changes_nothing`
* C06: `C06_replace_atomic`, `C05_replace_exact`
* C07: `C07_report_is_exactly_the_orphans`
* C08: `C08_removal_keeps_largest_consistent`
* C09: `C09_removal_without_propagation`
* C10: `C10_clean_data_untouched`, `C10_removal_idempotent`
* C11: `C11_every_mapped_pair_refuted`, `C11_only_effective_pairs_enforced`
* C12: `C12_pandat_removal_keeps_largest_consistent`, `C12_pandat_removal_order_independent`
* C13: `C13_pandat_report_refuted`, `C13_pandat_report_exact`
* C14: `C14_implied_keys_same_verdict_refuted`, `C14_implied_keys_same_verdict`, `C14_implied_keys_same_removal`, `C14_implied_keys_terminate`, `C14_implied_keys_closed`
* C15: `C15_to_one`, `C15_one_to`
* C16: `C16_circle_warning_exact`
* C17: `C17_postgres_order`
* C18: `C18_sqlite_order_terminates_refuted`, `C18_sqlite_order_never_terminates_on_circles`, `C18_sqlite_order_acyclic`
* C19: `C19_non_string_parameter_refuted`, `C19_empty_implied_key_refuted`, `C19_schema_round_trip`
* C20: `C20_clone_with_generic_table_refuted`, `C20_clone_without_generator_refuted`, `C20_clone_predicate_on_generator_refuted`, `C20_restricted_clone`, `C20_full_clone`
* C21: `C21_rename_only_column_refuted`, `C21_rename_parameters_column_refuted`, `C21_add_column`, `C21_remove_column`, `C21_rename_column`
* C22: `C22_remove_parameter_refuted`, `C22_used_factory_locked`
* C23: `C23_automatic_predicate_name`, `C23_when_accepted`
* C24: `C24_rejected_call_changes_nothing_refuted`, `C24_last_call_wins`, `C24_types_and_tips`, `C24_rejected_call_changes_nothing`, `C24_rejected_set_default_values`
* C25: `C25_rows_stored`, `C25_ill_shaped_rejected`, `C25_row_fields`
* C26: `C26_list_of_dicts_refuted`, `C26_zero_defaults`
* C27: `C27_duplicates_raise`, `C27_rows_kept`
* C28: `C28_freeze_refuted`, `C28_frozen_data`, `C28_can_freeze`
* C29: `C29_links_frozen_refuted`, `C29_freeze_skips_links`
* C30: `C30_round_trip`, `C30_copy_after_history`
* C31: `C31_symmetric_refuted`, `C31_reflexive_refuted`, `C31_symmetric`, `C31_reflexive`, `C31_transitive`, `C31_exact`
* C32: `C32_dataless_rows_refuted`, `C32_rows_keep_shape`, `C32_write_read`, `C32_other_names_raise`, `C32_list_rows`
* C33: `C33_missing_key`, `C33_rejected_key`, `C33_key_lengths`, `C33_reads_do_not_insert`
* C34: `C34_numeric_flag`, `C34_beyond_flag`, `C34_none_flag`, `C34_none_flag_raises`, `C34_no_flag`, `C34_dates`
* C35: `C35_parameters_flagged_refuted`, `C35_parameters_read`, `C35_parameters_write`
* C36: `C36_cache_invisible`, `C36_current_type_decides`
* C37: `C37_round_trip`, `C37_cells_no_flag`, `C37_cells_numeric_flag`, `C37_cells_none_flag`, `C37_cells_dates`, `C37_untyped_dates`
* C38: `C38_refuted`, `C38_conversion_refuted`, `C38_literal_names`, `C38_agrees`
* C39: `C39_refuted`, `C39_exact`, `C39_one_meaning`
* C40: `C40_refuted`, `C40_keyed_tables`, `C40_listed_tables`
* C41: `C41_refuted`, `C41_exact`, `C41_no_semicolons`
* C42: `C42_refuted`, `C42_first_read_csv`, `C42_first_read_xls`, `C42_current_csv`, `C42_current_xls`
* C43: `C43_overwrites_refuted`, `C43_plain_names`, `C43_no_similar_files`, `C43_other_files_stay`, `C43_files_stay`, `C43_refused`
* C44: `C44_csv_files`, `C44_written_names_differ`, `C44_no_other_table`, `C44_json_keys`, `C44_database_tables`, `C44_lookup`, `C44_database_lookup`
* C45: `C45_exactly_the_variants`, `C45_each_once`, `C45_name_first`, `C45_fewest_spaces_first`
* C46: `C46_sheet_read_for_its_table`, `C46_no_other_table`, `C46_shared_refused`, `C46_name_check_refuted`, `C46_written`
* C47: `C47_sheet_refuted`, `C47_pandas_exact`, `C47_sheet_from_row_one`, `C47_sheet_ignore`
* C48: `C48_exact_slice`, `C48_other_calls`, `C48_constructor`
* C49: `C49_counts_exact`, `C49_reports`, `C49_total`
* C50: `C50_flagged_rows`, `C50_one_row_per_key`, `C50_returns`
* C51: `C51_accepted`, `C51_renamed`, `C51_no_collision`, `C51_no_keyword_left`, `C51_reversible`
* C52: `C52_bijection`, `C52_assertion`
* C53: `C53_refuted`, `C53_found`
* C54: `C54_failures_exact`, `C54_no_repeats`, `C54_only_declared`, `C54_maker_failure`, `C54_raises`, `C54_handled_never_raises`
* C55: `C55_shared_maker_refuted`, `C55_makers_not_mixed`
* C56: `C56_full_parameters_exact`, `C56_full_parameters_total`, `C56_non_string_name_refuted`
* C57: `C57_fixed_point`, `C57_characters`, `C57_each_character`, `C57_no_shared_names`, `C57_tables_unchanged`
* C58: `C58_substitutes`, `C58_refuted`
* C59: `C59_one_result_per_row`, `C59_raises_with_the_function`, `C59_trip_wire`, `C59_quiet_wire`
* C60: `C60_lines`, `C60_texts`, `C60_accepted`, `C60_negative`
* C61: `C61_refuted`, `C61_with_defaults`
* C62: `C62_bounded_report`, `C62_pandat_bounded_report`, `C62_pandat_unbounded_report`, `C62_refused`
* C63: `C63_freeze_content`, `C63_freeze_immutable`, `C63_freeze_idempotent`, `C63_copy`, `C63_round_trip`, `C63_refuted`, `C63_overlay`
* C64: `C64_only_null_excluded_refuted`, `C64_untyped_key_cells_reported`
* C65: `C65_shared_field_refuted`, `C65_links_exact`, `C65_one_to_one_exact`
* C66: `C66_same_fields_refuted`, `C66_underscore_refuted`, `C66_link_names_distinct`
* C67: `C67_pandat_numeric_flag`, `C67_pandat_none_flag`, `C67_pandat_flags_every_cell`, `C67_pandat_parameters`
* C68: `C68_parameter_read_back`, `C68_table_read_back`, `C68_parameter_idempotent`, `C68_text_parameter`
* C69: `C69_added_predicate_converted_refuted`, `C69_copied_predicates_converted`, `C69_new_names_not_converted`
* C70: `C70_bounded_report`
* C71: `C71_parameters_checked`, `C71_client_predicates_run`, `C71_predicates_well_formed`
* C72: `C72_pandat_same_report`
* C73: `C73_reserved_column_refuted`, `C73_plain_fields`
* C74: `C74_exact`, `C74_bounded`, `C74_total`
* C75: `C75_exact`, `C75_raises`
* C76: `C76_refuted`, `C76_copy`
* C77: `C77_refuted`, `C77_succeeds`
* C78: `C78_refuted`, `C78_accepted_rows`
* C79: `C79_refuted`, `C79_other_names`
* C80: `C80_refuted`, `C80_round_trip`, `C80_keyed_cells`, `C80_keyed_booleans`, `C80_dates`, `C80_listed_cells`, `C80_nan`
* C81: `C81_refuted`, `C81_columns`, `C81_refused`, `C81_no_header`, `C81_no_header_refused`
* C82: `C82_refuted`, `C82_columns`, `C82_offset`, `C82_refused`, `C82_no_header`, `C82_lines_pruned`, `C82_lines_kept`
* C83: `C83_refuted`, `C83_round_trip`, `C83_cells`, `C83_dates`, `C83_lost`, `C83_empty_string`, `C83_texts`, `C83_blank_infinity`
* C84: `C84_refuted`, `C84_round_trip`, `C84_cells`, `C84_infinity`, `C84_dates`, `C84_none_flag`
* C85: `C85_csv_refuted`, `C85_csv_created`, `C85_rows_kept`, `C85_csv_report`, `C85_counts`, `C85_xls_refuted`, `C85_xls_created`, `C85_xls_report`, `C85_xls_inf_refuted`
* C86: `C86_files`, `C86_sheets`, `C86_keys`, `C86_database`, `C86_readers_refuse`, `C86_duplicates_refuse`
* C87: `C87_refuted`, `C87_exact`, `C87_messages`, `C87_raises`, `C87_objects`
* C88: `C88_refuted`, `C88_converts`, `C88_accepts`
* C89: `C89_refuted`, `C89_empty_refuted`, `C89_frames`, `C89_back`, `C89_pan`
* C90: `C90_refuted`, `C90_copies`
* C91: `C91_accepts`, `C91_cells`, `C91_rows`, `C91_tables`
* C92: `C92_empty_input_refuted`, `C92_empty_output_refuted`, `C92_error_file_refuted`, `C92_run`, `C92_ending`
* C93: `C93_written`, `C93_read`, `C93_one_format`
* C94: `C94_ignored_refuted`, `C94_both_refuted`, `C94_last_counts`, `C94_spellings`, `C94_grammar`, `C94_malformed`
* C95: `C95_message_refuted`, `C95_generic_refuted`, `C95_rows`, `C95_count`, `C95_messages`, `C95_returns`
* C96: `C96_refuted`, `C96_type_failures`, `C96_fk_failures`, `C96_verdict`
* C97: `C97_missing_tables_refuted`, `C97_refused`, `C97_rows`
* C98: `C98_generic_refuted`, `C98_none_text_refuted`, `C98_other_key_refuted`, `C98_round_trip`, `C98_written`
* C99: `C99_refuted`, `C99_pruned`, `C99_blank_rows`
* C100: `C100_csv_refuted`, `C100_sql_refuted`, `C100_csv`, `C100_sql`
* C101: `C101_hidden_refuted`, `C101_parameter`
* C102: `C102_refuted`, `C102_schema`, `C102_types`, `C102_defaults`
* C103: `C103_refuted`, `C103_possible`
* C104: `C104_refuted`, `C104_bare`
* C105: `C105_refuted`, `C105_round_trip`, `C105_cells_na`, `C105_cells_numeric`, `C105_cells_none`, `C105_columns`
* C106: `C106_refuted`, `C106_written`, `C106_failed`, `C106_refused`
* C107: `C107_refuted`, `C107_possible`
* C108: `C108_read`, `C108_written`
* C109: `C109_exact`
* C110: `C110_round_trip`
* C111: `C111_written`
* C112: `C112_refuted`, `C112_failure`
* C113: `C113_read`
* C114: `C114_non_string_parameter_refuted`, `C114_pan_schema_round_trip`
* C115: `C115_clone_with_generic_table_refuted`, `C115_rename_only_column_refuted`, `C115_rename_parameters_column_refuted`, `C115_pan_restricted_clone`, `C115_pan_full_clone`, `C115_pan_add_column`, `C115_pan_remove_column`, `C115_pan_rename_column`
* C116: `C116_links_refuted`, `C116_generic_predicate_refuted`, `C116_tic_to_pan`, `C116_pan_to_tic`
* C117: `C117_generic_table_refuted`, `C117_first_table_refuted`, `C117_add_table`, `C117_pan_add_table`
* C118: `C118_remove_parameter_refuted`, `C118_rejected_call_changes_nothing_refuted`, `C118_used_factory_locked`, `C118_last_call_wins`, `C118_rejected_call_changes_nothing`, `C118_set_default_values`, `C118_automatic_predicate_name`, `C118_when_accepted`
* C119: `C119_generic_refuted`, `C119_pan_key_refuted`, `C119_tic`, `C119_pan`, `C119_names`
* C120: `C120_zero_refuted`, `C120_pan_generic_refuted`, `C120_copied`, `C120_zero_default`, `C120_pan`
* C121: `C121_nan_refuted`, `C121_numbers`, `C121_order`, `C121_zero`
* C122: `C122_nan_refuted`, `C122_exact`, `C122_symmetric`, `C122_tolerance`
* C123: `C123_duplicates_refuted`, `C123_exact`
* C124: `C124_indicator_refuted`, `C124_engines`, `C124_var`, `C124_calls`
* C125: `C125_core_variable_refuted`, `C125_stale_refuted`, `C125_values`, `C125_answer`
* C126: `C126_refuted`, `C126_raises`, `C126_sets`
* C127: `C127_cplex_refuted`, `C127_bounds`, `C127_crossed`
* C128: `C128_refuted`, `C128_left_behind`, `C128_failed`, `C128_refuses`, `C128_written`, `C128_returns`, `C128_new_file`
* C129: `C129_round_trip`, `C129_new_file`
* C130: `C130_refuted`, `C130_sql_exact`, `C130_mdb_exact`, `C130_sql_lost`, `C130_mdb_lost`
* C131: `C131_refuted`, `C131_raw`, `C131_never`, `C131_same`, `C131_finite`
* C132: `C132_refuted`, `C132_stopped`, `C132_written`, `C132_refuses`, `C132_returns`
* C133: `C133_round_trip`, `C133_new_file`
* C134: `C134_new_file`, `C134_refuses`, `C134_file`
* C135: `C135_csv`, `C135_bool_parameter_refuted`
* C136: `C136_sql`
* C137: `C137_xls`
* C138: `C138_json_pd`, `C138_dates`
* C139: `C139_written`
* C140: `C140_written`, `C140_round_trip`, `C140_stale_refuted`, `C140_pretty_refuted`, `C140_flag_refuted`
* C141: `C141_new_file`, `C141_round_trip`, `C141_types_refuted`
* C142: `C142_written`, `C142_refuted`
* C143: `C143_refuted`, `C143_other_name`
* C144: `C144_no_table`, `C144_fails`, `C144_refuted`, `C144_read`
* C145: `C145_written`, `C145_refuted`
* C146: `C146_round_trip`, `C146_columns_data_refuted`, `C146_index_refuted`, `C148_split`
* C147: `C147_rows`, `C147_frames`, `C147_frames_refuted`, `C147_scalar_refuted`
* C148: `C148_rows`, `C148_split`
* C149: `C149_spares`, `C149_all_or_nothing`, `C149_read_back`, `C149_refuted`
* C150: `C150_counts`, `C150_agrees`
* C151: `C151_csv`, `C151_sqlite`, `C151_access`, `C151_excel`, `C151_excel_refused`, `C151_missing`
* C152: `C152_csv_refuted`, `C152_csv_lost`, `C152_csv_elsewhere`, `C152_sqlite`, `C152_access_refuted`, `C152_access_lost`, `C152_xlsx_refuted`, `C152_xlsx_gone`, `C152_xls`
* C153: `C153_refuted`, `C153_refused`, `C153_made`, `C153_list`, `C153_dict`
* C154: `C154_types_refuted`, `C154_types`, `C154_fk_raises`, `C154_fk`, `C154_lengths`, `C154_lengths_refuted`, `C154_types_returns`
* C155: `C155_refuted`, `C155_list_refuted`, `C155_copy`
* C156: `C156_csv_refuted`, `C156_xlsx_refuted`, `C156_xls`, `C156_csv_others`, `C156_csv_refuses`
* C157: `C157_lines`, `C157_readable`, `C157_refuted`
* C158: `C158_exact`, `C158_raises`, `C158_refuted`
* C159: `C159_all`, `C159_returns`, `C159_refuses`, `C159_stops`
* C160: `C160_exact`, `C160_total`, `C160_agrees`, `C160_non_string_name_refuted`
* C161: `C161_raises`, `C161_rows`
* C162: `C162_sql_raises`, `C162_sql_rows`, `C162_mdb_raises`, `C162_mdb_rows`
* C163: `C163_refuted`, `C163_lost`, `C163_setting`
* C164: `C164_refuted`, `C164_bracket_refuted`, `C164_schema`
* C165: `C165_refuted`, `C165_exact`, `C165_no_semicolons`, `C165_returns`
* C166: `C166_refuted`, `C166_rows`, `C166_back`
* C167: `C167_low_ticdat`, `C167_low_pandat`, `C167_tuples`, `C167_refused`, `C167_table_and_flags`, `C167_rows`
* C168: `C168_unsorted_refuted`, `C168_too_many_refuted`, `C168_slice`, `C168_no_slice`
* C169: `C169_same`, `C169_written`, `C169_failed`
