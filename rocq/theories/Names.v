(** * File, sheet, table and column names (utils.py, csvtd.py, xls.py,
    sqlitetd.py, pandatio.py, pgtd.py).

    Strings are 8-bit strings with ASCII case mapping (PyStr.v). *)
From Coq Require Import Bool List String Ascii Arith NArith Lia.
From Verif Require Import PyVal PyDict PyStr FK Factory InfIO.
Import ListNotations.
Local Open Scope string_scope.

(** ** Slices [s[:n]] and [s[n:]] (utils.py 797-806, xls.py 169-193) *)

Fixpoint stake (n : nat) (s : string) : string :=
  match n, s with
  | S n', String c s' => String c (stake n' s')
  | _, _ => ""
  end.
(** [s[n:]], utils.py 797-806. *)
Fixpoint sdrop (n : nat) (s : string) : string :=
  match n, s with
  | S n', String _ s' => sdrop n' s'
  | O, _ => s
  | _, _ => ""
  end.

(** ** utils.py 797-806 [case_space_to_pretty]

    The loop writes the upper-cased character one position ahead of the index;
    [up] says that the character about to be looked at was upper-cased. *)
Fixpoint pretty_go (up : bool) (s : string) : string :=
  match s with
  | EmptyString => EmptyString
  | String c s' =>
      let c' := if up then upper_char c else c in
      if Ascii.eqb c' "_" then String " " (pretty_go true s') else String c' (pretty_go false s')
  end.
(** utils.py 797-806 [case_space_to_pretty]. *)
Definition pretty (s : string) : string := pretty_go true s.

(** csvtd.py 255-257, xls.py 411-413, pandatio.py 225-227, 367-369, 492-494, 618-620:
    pretty names are used only if they are as many as the tables. *)
Definition use_pretty (asked : bool) (tables : list string) : bool :=
  asked && Nat.eqb (List.length (set_of String.eqb tables)) (List.length (set_of String.eqb (map pretty tables))).

(** The name under which a table is written (csvtd.py 259, xls.py 411-425). *)
Definition out_name (asked : bool) (tables : list string) (t : string) : string :=
  if use_pretty asked tables then pretty t else t.

(** ** Matching on the way in *)

(** [s.lower().replace(" ", "_")] (csvtd.py 162-168). *)
Definition unspace (s : string) : string := smap (fun c => if Ascii.eqb c " " then "_"%char else c) (lower s).

(** csvtd.py 162-168 and pandatio.py 331-335 [_get_file_path]; a directory
    entry is a name and [os.path.isfile]. *)
Definition csv_match (t f : string) : bool := String.eqb (unspace f) (lower t ++ ".csv").
(** csvtd.py 162-168, pandatio.py 331-340 [_get_file_path]. *)
Definition get_file_path (listing : list (string * bool)) (t : string) : outcome (option string) :=
  match filter (fun e => snd e && csv_match t (fst e)) listing with
  | [] => Ret None
  | [e] => Ret (Some (fst e))
  | _ => Raise
  end.

(** csvtd.py 259, pandatio.py 373: the file written for a table. *)
Definition csv_name (asked : bool) (tables : list string) (t : string) : string :=
  out_name asked tables t ++ ".csv".

(** csvtd.py 249-261, the part that touches the directory: the overwrite check
    on every table, then one file per table opened for writing.  The result is
    the list of files written; [existing] the names already present. *)
Definition write_directory (existing : list string) (allow asked : bool) (tables : list string)
  : outcome (list string) :=
  if negb allow && existsb (fun t => mem_str (t ++ ".csv") existing) tables then Raise
  else Ret (map (csv_name asked tables) tables).

(** pandatio.py 139-143 (JSON keys). *)
Definition json_match (t k : string) : bool := String.eqb (unspace k) (lower t).
(** pandatio.py 139-150: the key found for a table. *)
Definition get_json_key (keys : list string) (t : string) : outcome (option string) :=
  match filter (json_match t) keys with
  | [] => Ret None
  | [k] => Ret (Some k)
  | _ => Raise
  end.

(** xls.py 30 *)
Definition longest_sheet : nat := 30.

(** xls.py 169-175 and pandatio.py 579-585 [_verify_differentiable_sheet_names]. *)
Definition sheets_differ (tables : list string) : bool :=
  let d := fold_left (fun d t => dset String.eqb d (stake longest_sheet t)
                                   (sadd String.eqb (dget_or String.eqb d (stake longest_sheet t) []) t)) tables [] in
  forallb (fun kv => Nat.leb (List.length (snd kv)) 1) d.

(** xls.py 188-193, pandatio.py 587-595: the sheets found for a table. *)
Definition sheet_match (t s : string) : bool :=
  String.eqb (stake longest_sheet (lower t)) (stake longest_sheet (unspace s)).
(** xls.py 188-193, pandatio.py 587-595: the only sheet found, or an exception. *)
Definition get_sheet (sheets : list string) (t : string) : outcome (option string) :=
  match filter (sheet_match t) sheets with
  | [] => Ret None
  | [s] => Ret (Some s)
  | _ => Raise
  end.

(** xls.py 425, 462, pandatio.py 624: the sheet written for a table. *)
Definition sheet_name (asked : bool) (tables : list string) (t : string) : string :=
  stake longest_sheet (out_name asked tables t).

(** xls.py 411-419, 424-425, 461-462.  xlwt and XlsxWriter refuse to add a
    sheet whose name differs from an earlier one in case only ([Workbook
    .add_sheet], [Workbook.add_worksheet]); [tables] is the order of writing. *)
Definition write_sheets (asked : bool) (tables : list string) : outcome (list string) :=
  if sheets_differ tables then
    fold_left (fun acc t =>
      match acc with
      | Raise => Raise
      | Ret done =>
          let s := sheet_name asked tables t in
          if mem_str (lower s) (map lower done) then Raise else Ret (done ++ [s])%list
      end) tables (Ret [])
  else Raise.

(** ** utils.py 913-923 [all_underscore_replacements] *)

(** [itertools.combinations(l, r)] (utils.py 918). *)
Fixpoint combinations {A} (l : list A) (r : nat) : list (list A) :=
  match r, l with
  | O, _ => [[]]
  | S _, [] => []
  | S r', x :: l' => (map (cons x) (combinations l' r') ++ combinations l' r)%list
  end.

(** utils.py 915 *)
Fixpoint positions_from (i : nat) (s : string) : list nat :=
  match s with
  | EmptyString => []
  | String c s' => if Ascii.eqb c "_" then i :: positions_from (S i) s' else positions_from (S i) s'
  end.

(** utils.py 921 *)
Definition blank_at (s : string) (i : nat) : string := stake i s ++ " " ++ sdrop (S i) s.

(** utils.py 913-923. *)
Definition all_underscore_replacements (s : string) : list string :=
  let pos := positions_from 0 s in
  map (fun ixs => fold_left blank_at ixs s)
      (flat_map (combinations pos) (seq 0 (List.length pos + 1))).

(** sqlitetd.py 150-167, pandatio.py 441-456, mdb.py 135-150 [_get_table_names]
    for one table: SQLite and Access compare table names without regard to
    case. *)
Definition try_name (db : list string) (name : string) : bool := mem_str (lower name) (map lower db).
(** sqlitetd.py 150-167 for one table: none, one, or an exception. *)
Definition get_db_table (db : list string) (t : string) : outcome (option string) :=
  match filter (try_name db) (all_underscore_replacements t) with
  | [] => Ret None
  | [n] => Ret (Some n)
  | _ => Raise
  end.

(** ** pgtd.py 36-40 [_pg_name] *)

Definition is_digit (c : ascii) : bool :=
  let n := N_of_ascii c in ((48 <=? n) && (n <=? 57))%N.
(** [str.isalnum] of one character, pgtd.py 36-40. *)
Definition is_alnum (c : ascii) : bool :=
  let n := N_of_ascii c in
  (is_digit c || (65 <=? n) && (n <=? 90) || (97 <=? n) && (n <=? 122))%N.
(** pgtd.py 36-40. *)
Definition pg_name (name : string) : string :=
  match smap (fun c => if is_alnum c then c else "_"%char) (lower name) with
  | EmptyString => EmptyString
  | String c s => String (if is_digit c then "_"%char else c) s
  end.

(** pgtd.py 24-33 [_the_reserved_words] *)
Definition pg_reserved : list string :=
  ["asymmetric"; "session_user"; "initially"; "table"; "user"; "desc"; "collate"; "primary";
   "current_role"; "do"; "trailing"; "in"; "case"; "then"; "only"; "end"; "leading"; "analyze";
   "constraint"; "offset"; "union"; "limit"; "some"; "asc"; "else"; "intersect"; "for";
   "current_time"; "create"; "returning"; "analyse"; "foreign"; "grant"; "deferrable"; "using";
   "all"; "any"; "current_user"; "check"; "current_catalog"; "into"; "and"; "or"; "array";
   "symmetric"; "where"; "from"; "localtime"; "cast"; "group"; "references"; "localtimestamp";
   "not"; "true"; "column"; "to"; "null"; "current_timestamp"; "when"; "fetch"; "as";
   "placing"; "order"; "select"; "except"; "default"; "current_date"; "window"; "false";
   "unique"; "both"; "distinct"; "having"; "on"; "variadic"; "lateral"; "with"].

(** pgtd.py 51-66 [_check_good_pgtd_compatible_table_field_names], for tables
    given with their fields. *)
Definition pg_compatible (sch : list (string * list string)) : bool :=
  forallb (fun tf =>
    String.eqb (pg_name (fst tf)) (fst tf) &&
    Nat.eqb (List.length (snd tf)) (List.length (set_of String.eqb (map pg_name (snd tf)))) &&
    forallb (fun x => negb (mem_str (lower x) pg_reserved)) (snd tf)) sch.
