(** * Generator tables.

    ticdatfactory.py 443-462 (set_generator_tables), 733-739, 776-859 (the
    constructor), 1187-1193 (the check), 1462-1477 (copy_tic_dat), 1729-1777 and
    1884-1906 (the reports), 769-773 (_len_dict), 2231-2243 (freezing); the readers csvtd.py 78-83, 111-120,
    191-214, sqlitetd.py 195-213, mdb.py 173-209, xls.py 102-168, 213-263; the writers
    csvtd.py 216-273, sqlitetd.py 323-356, mdb.py 276-330, xls.py 374-477.

    A generator table is a function without arguments: the rows are read each time
    it is called, from wherever they come.  So it is a function of the world here:
    the directories, database files and workbooks by path, and the lists of the caller,
    which are shared with a generator table made from them (733-739 keeps the argument,
    not a copy).

    Taken for granted: a second connection to a database file sees what has been
    committed; a file opened for writing is empty for those who open it for
    reading until the writer's buffer is full or flushed, and the header fits into it.

    Not modelled: generic tables beside generator tables, DataFrames and Series as
    arguments, iterators that are neither functions nor containers, connecting to a missing
    SQLite file (which creates an empty file), the rows that a generator yields before it
    raises. *)
From Coq Require Import ZArith Bool List String Arith.
From Verif Require Import PyVal PyDict PyStr TypeDict Data FindTypes FK Graph Factory InfIO Params Names Obj Utils Json Csv Xls Sql FileDb.
Import ListNotations.
Local Open Scope string_scope.
Local Open Scope list_scope.

(** What the code reads and writes: directories of csv files, SQLite and Access files,
    Excel files by path; the lists of the caller by number (csvtd.py 196-200, sqlitetd.py 195-203,
    mdb.py 173-183, xls.py 213-226, ticdatfactory.py 733-739). *)
Record world : Type := mkW {
  w_dirs : list (string * directory);
  w_dbs : list (string * filedb);
  w_books : list (string * workbook);
  w_lists : list (list rowin)
}.
(** csvtd.py 260-273 *)
Definition set_dir (w : world) (p : string) (d : directory) : world := mkW (dset String.eqb (w_dirs w) p d) (w_dbs w) (w_books w) (w_lists w).
(** sqlitetd.py 348-356, mdb.py 303-330 *)
Definition set_db (w : world) (p : string) (d : filedb) : world := mkW (w_dirs w) (dset String.eqb (w_dbs w) p d) (w_books w) (w_lists w).
(** xls.py 443, 477 *)
Definition set_book (w : world) (p : string) (b : workbook) : world := mkW (w_dirs w) (w_dbs w) (dset String.eqb (w_books w) p b) (w_lists w).
(** [os.remove], xls.py 441-442, 447-448. *)
Definition del_book (w : world) (p : string) : world := mkW (w_dirs w) (w_dbs w) (ddel String.eqb (w_books w) p) (w_lists w).
(** [list.append] and other edits by the caller of a list that is [data] in ticdatfactory.py 733-739. *)
Definition set_list (w : world) (n : nat) (rs : list rowin) : world :=
  mkW (w_dirs w) (w_dbs w) (w_books w) (firstn n (w_lists w) ++ rs :: skipn (S n) (w_lists w)).
(** The list number [n] now (ticdatfactory.py 737). *)
Definition the_list (w : world) (n : nat) : list rowin := nth n (w_lists w) [].

(** [data] or [data()] of ticdatfactory.py 737, iterated over now. *)
Definition source := world -> outcome (list rowin).

(** A table of a TicDat object (ticdatfactory.py 776-846). *)
Inductive gtable : Type :=
| Stored : otable -> gtable
| Lazy : source -> gtable.
(** ticdatfactory.py 776-846 *)
Definition gobj := string -> gtable.

(** What calling a generator table yields, ticdatfactory.py 733-739. *)
Definition yields (dv : defaults) (t : string) (ts : tschema) (s : source) (w : world) : outcome (list row) :=
  bindO (s w) (mapO (fun x => match row_factory dv t ts x with Some r => Ret r | None => Raise end)).

(** The table as everybody sees it who iterates over it
    ([_t if containerish(_t) else _t()], csvtd.py 272, sqlitetd.py 300, xls.py 438). *)
Definition seen (dv : defaults) (t : string) (ts : tschema) (g : gtable) (w : world) : outcome otable :=
  match g with
  | Stored tb => Ret tb
  | Lazy s => bindO (yields dv t ts s w) (fun rs => Ret (OListed rs))
  end.

(** All tables, as [good_tic_dat_object] iterates over them (ticdatfactory.py 1118-1153, 1187-1193). *)
Definition pull (f : factory) (g : gobj) (w : world) : outcome (list (string * otable)) :=
  mapO (fun tts => bindO (seen (f_defaults f) (fst tts) (snd tts) (g (fst tts)) w) (fun tb => Ret (fst tts, tb))) (plain_schema f).
(** The tables by name, for the writers (csvtd.py 264, sqlitetd.py 285). *)
Definition pulled (l : list (string * otable)) : obj := fun t => match dget String.eqb l t with Some tb => tb | None => OListed [] end.

(** ** The constructor *)

(** A keyword argument: a value of its own, a list of the caller, a function
    (ticdatfactory.py 776-846). *)
Inductive ginput : Type :=
| GVal : tablein -> ginput
| GRef : nat -> ginput
| GFun : source -> ginput.

(** ticdatfactory.py 1187-1193 and 838-839. *)
Definition init_lazy (ts : tschema) (w : world) (i : ginput) : option gtable :=
  match i with
  | GVal (TDict _) => None
  | GVal (TRows rs) => if good_rows (tdf ts) rs then Some (Lazy (fun _ => Ret rs)) else None
  | GRef n => if good_rows (tdf ts) (the_list w n) then Some (Lazy (fun w' => Ret (the_list w' n))) else None
  | GFun s => match s w with
              | Ret rs => if good_rows (tdf ts) rs then Some (Lazy s) else None
              | Raise => None
              end
  end.

(** The argument of a table that is not a generator table; a function is refused
    (ticdatfactory.py 1226-1235). *)
Definition plain_input (w : world) (i : ginput) : option tablein :=
  match i with GVal i => Some i | GRef n => Some (TRows (the_list w n)) | GFun _ => None end.

(** [safe_apply(len)] of an argument (ticdatfactory.py 780). *)
Definition given_length (w : world) (i : ginput) : option nat :=
  match plain_input w i with Some i => Some (in_length i) | None => None end.
(** [safe_apply(len)(getattr(self, k)) or 0] (ticdatfactory.py 852-853): a function has no length. *)
Definition made_length (g : gtable) : nat := match g with Stored tb => out_length tb | Lazy _ => 0 end.

(** ticdatfactory.py 776-859; [gens]: the generator tables.  An argument for a table the
    schema does not have raises. *)
Definition gen_construct (sch : schema) (dv : defaults) (mode : string) (gens : list string) (w : world)
    (inputs : list (string * ginput)) : option gobj :=
  match map_opt (fun ti =>
          match dget String.eqb sch (fst ti) with
          | None => None
          | Some ts =>
              option_map (pair (fst ti))
                (if mem_str (fst ti) gens then init_lazy ts w (snd ti)
                 else match plain_input w (snd ti) with
                      | Some i => option_map Stored (init_one dv (fst ti) ts i)
                      | None => None
                      end)
          end) inputs with
  | None => None
  | Some built =>
      let g := fun t => match dget String.eqb built t with
                        | Some gt => gt
                        | None => if mem_str t gens then Lazy (fun _ => Ret [])
                                  else Stored (match dget String.eqb sch t with Some ts => no_rows ts | None => OListed [] end)
                        end in
      if String.eqb mode "assert" &&
         existsb (fun ti => match given_length w (snd ti) with
                            | Some n => Nat.ltb (made_length (g (fst ti))) n
                            | None => false
                            end) inputs
      then None else Some g
  end.

(** ticdatfactory.py 1462-1477: the arguments that [copy_tic_dat] hands to the constructor. *)
Definition copied (f : factory) (g : gobj) : list (string * ginput) :=
  map (fun tts => (fst tts,
    match g (fst tts) with
    | Stored (OKeyed l) => GVal (TDict (map (fun kr => (fst kr, RDict (combine (tdf (snd tts)) (snd kr)))) l))
    | Stored (OListed l) => GVal (TRows (map (fun r => RDict (combine (tdf (snd tts)) r)) l))
    | Lazy s => GFun (fun w => bindO (yields (f_defaults f) (fst tts) (snd tts) s w)
                                 (fun rs => Ret (map (fun r => RDict (combine (tdf (snd tts)) r)) rs)))
    end)) (plain_schema f).
(** ticdatfactory.py 1462-1477 [copy_tic_dat]. *)
Definition gen_copy (f : factory) (w : world) (g : gobj) : outcome gobj :=
  bindO (pull f g w) (fun _ =>
    match gen_construct (plain_schema f) (f_defaults f) (dup_mode f) (f_gens f) w (copied f g) with
    | Some h => Ret h
    | None => Raise
    end).

(** ** The reports *)

(** ticdatfactory.py 1888-1906: a table that is neither a dict nor a container is passed over. *)
Definition gen_type_failures (parses : value -> bool) (sch : schema) (tys : types) (gens : list string) (d : dat) (mx : num) : option treport :=
  find_data_type_failures parses sch tys (fun t => if mem_str t gens then Listed [] else d t) mx.

(** ticdatfactory.py 1745 (the foreign table, looked at once the native table has a row) and
    1756-1758 (the native table): [enumerate] of a function raises. *)
Definition fk_stumbles (gens : list string) (d : dat) (k : fk) : bool :=
  mem_str (fk_native k) gens ||
  (mem_str (fk_foreign k) gens && match rows_of (d (fk_native k)) with [] => false | _ => true end).
(** ticdatfactory.py 1690-1777 without a bound on the number of failures. *)
Definition gen_fk_failures (sch : schema) (fks : list fk) (gens : list string) (d : dat) : option freport :=
  if existsb (fk_stumbles gens d) fks then None else find_foreign_key_failures sch fks d PInf.

(** ticdatfactory.py 769-773 [_len_dict]: [len] of a function raises. *)
Definition gen_lengths (sch : schema) (g : gobj) : outcome (list (string * nat)) :=
  bindO (mapO (fun tts => match g (fst tts) with Stored tb => Ret (fst tts, out_length tb) | Lazy _ => Raise end) sch)
    (fun l => Ret (filter (fun tn => negb (Nat.eqb (snd tn) 0)) l)).

Section Files.
  Variable date_of : value -> option Z.
  Variable float_of : value -> option value.
  Variable show_num : num -> string.
  Variable show_date : Z -> string.

  (** ** Readers *)

  (** ticdatfactory.py 1084-1115: only [parameters], which has a key, is touched. *)
  Definition gen_adjust (f : factory) (g : gobj) : gobj := fun t =>
    match g t with
    | Lazy s => Lazy s
    | Stored _ => Stored (adjust_params date_of float_of f (fun t => match g t with Stored tb => tb | Lazy _ => OListed [] end) t)
    end.
  (** The last steps of every reader: csvtd.py 78-83, sqlitetd.py 71-77, mdb.py 94-101, xls.py 165-168. *)
  Definition gen_finish (f : factory) (w : world) (l : list (list (string * ginput))) : outcome gobj :=
    match gen_construct (plain_schema f) (f_defaults f) (dup_mode f) (f_gens f) w (List.concat l) with
    | None => Raise
    | Some g => Ret (gen_adjust f g)
    end.
  (** The tables that are read at once (csvtd.py 72-83, xls.py 149-164). *)
  Definition at_once (l : list (string * tablein)) : list (string * ginput) := map (fun ti => (fst ti, GVal (snd ti))) l.

  (** csvtd.py 196-200 *)
  Definition csv_source (f : factory) (headers : bool) (path name t : string) (ts : tschema) : source := fun w =>
    match find (fun e => String.eqb (fst (fst e)) name && snd (fst e)) (dget_or String.eqb (w_dirs w) path []) with
    | None => Raise
    | Some e => bindO (csv_rows date_of float_of f headers t ts (snd e)) (fun rs => Ret (map RSeq rs))
    end.
  (** csvtd.py 111-120, 191-214 *)
  Definition gen_csv_input (f : factory) (headers : bool) (w : world) (path : string) (tts : string * tschema) : outcome (list (string * ginput)) :=
    let dir := dget_or String.eqb (w_dirs w) path [] in
    if mem_str (fst tts) (f_gens f) then
      bindO (get_file_path (map fst dir) (fst tts)) (fun p =>
        Ret (match p with None => [] | Some name => [(fst tts, GFun (csv_source f headers path name (fst tts) (snd tts)))] end))
    else bindO (csv_input date_of float_of f headers dir tts) (fun l => Ret (at_once l)).
  (** csvtd.py 78-83, 111-120; [os.path.isdir] *)
  Definition gen_csv_create (f : factory) (headers : bool) (w : world) (path : string) : outcome gobj :=
    match dget String.eqb (w_dirs w) path with
    | None => Raise
    | Some _ => bindO (mapO (gen_csv_input f headers w path) (plain_schema f)) (gen_finish f w)
    end.

  (** sqlitetd.py 195-203, mdb.py 173-183; [read]: the conversion of a cell, [n]: the name of the
      table in the file. *)
  Definition db_source (read : factory -> string -> string -> value -> outcome value) (f : factory) (path n t : string) (ts : tschema) : source := fun w =>
    match dget String.eqb (w_dbs w) path with
    | None => Raise
    | Some db =>
        match find_table db n with
        | None => Raise
        | Some dt =>
            if forallb (has_col dt) (tdf ts) then
              bindO (mapO (fun r => mapO (fun fx => read f t (fst fx) (snd fx)) (combine (tdf ts) r)) (db_select dt (tdf ts)))
                (fun rs => Ret (map RSeq rs))
            else Raise
        end
    end.
  (** sqlitetd.py 204-239, mdb.py 184-209 *)
  Definition gen_db_create (read : factory -> string -> string -> value -> outcome value) (f : factory) (w : world) (path : string) : outcome gobj :=
    match dget String.eqb (w_dbs w) path with
    | None => Raise
    | Some db =>
        bindO (check_fields f db) (fun names =>
          bindO (mapO (fun tts =>
            match dget String.eqb names (fst tts) with
            | None => Ret []
            | Some n =>
                if mem_str (fst tts) (f_gens f) then Ret [(fst tts, GFun (db_source read f path n (fst tts) (snd tts)))]
                else match find_table db n with
                     | None => Raise
                     | Some dt => bindO (table_arg (read f) (fst tts) (snd tts) (db_select dt (tfields (snd tts)))) (fun i => Ret (at_once [(fst tts, i)]))
                     end
            end) (plain_schema f))
          (gen_finish f w))
    end.

  (** xls.py 213-226 *)
  Definition xls_source (f : factory) (headers inf : bool) (offset : nat) (path t : string) (ts : tschema) : source := fun w =>
    match dget String.eqb (w_books w) path with
    | None => Raise
    | Some b => bindO (sheet_of b t) (fun s =>
        match s with
        | None => Ret []
        | Some s => bindO (xls_rows date_of float_of f b headers inf offset t ts s) (fun rs => Ret (map sub_row rs))
        end)
    end.
  (** xls.py 102-168, 228-263; [inf]: treat_inf_as_infinity, which is refused (147-148). *)
  Definition gen_xls_create (f : factory) (headers inf : bool) (offsets : string -> nat) (w : world) (path : string) : outcome gobj :=
    match dget String.eqb (w_books w) path with
    | None => Raise
    | Some b =>
        if sheets_differ (map fst (f_decl f)) && negb (inf && match f_gens f with [] => false | _ => true end) then
          bindO (mapO (fun tts =>
            if mem_str (fst tts) (f_gens f) then Ret [(fst tts, GFun (xls_source f headers inf (offsets (fst tts)) path (fst tts) (snd tts)))]
            else bindO (xls_input date_of float_of f b headers inf offsets tts) (fun l => Ret (at_once l))) (plain_schema f))
          (gen_finish f w)
        else Raise
    end.

  (** ** Writers *)

  (** The lines of csvtd.py 261-273 up to the first cell that raises, and whether there is none. *)
  Fixpoint lines_until (f : factory) (t : string) (ts : tschema) (rows : list (list value)) : csv_file * bool :=
    match rows with
    | [] => ([], true)
    | r :: rows' =>
        match mapO (fun xv => bindO (fst (write_cell date_of (mkIO f []) t (fst xv) (snd xv)))
                                (fun u => Ret (csv_text show_num show_date u))) (combine (tfields ts) r) with
        | Raise => ([], false)
        | Ret l => match lines_until f t ts rows' with (ls, ok) => (l :: ls, ok) end
        end
    end.

  (** csvtd.py 258-273: one file after the other is emptied and filled; a generator table is called
      once its file is empty. *)
  Fixpoint gen_csv_files (f : factory) (headers pretty : bool) (path : string) (g : gobj) (tables : schema) (w : world) : bool * world :=
    match tables with
    | [] => (true, w)
    | (t, ts) :: tables' =>
        let name := csv_name pretty (map fst (f_decl f)) t in
        let head := if headers then [tfields ts] else [] in
        match put (dget_or String.eqb (w_dirs w) path []) name [] with
        | Raise => (false, w)
        | Ret dir0 =>
            let body := match seen (f_defaults f) t ts (g t) (set_dir w path dir0) with
                        | Ret tb => lines_until f t ts (full_rows tb)
                        | Raise => ([], false)
                        end in
            match put dir0 name (head ++ fst body) with
            | Ret dir1 =>
                if snd body then gen_csv_files f headers pretty path g tables' (set_dir w path dir1)
                else (false, set_dir w path dir1)
            | Raise => (false, set_dir w path dir0)
            end
        end
    end.
  (** csvtd.py 216-273: whether the call returns, and the world afterwards. *)
  Definition gen_csv_save (f : factory) (headers pretty allow : bool) (path : string) (g : gobj) (w : world) : bool * world :=
    match pull f g w with
    | Raise => (false, w)
    | Ret _ =>
        let dir := dget_or String.eqb (w_dirs w) path [] in
        if negb allow && existsb (fun t => existsb (fun e => String.eqb (fst (fst e)) (append t ".csv")) dir) (map fst (f_decl f))
        then (false, w)
        else gen_csv_files f headers pretty path g (plain_schema f) (set_dir w path dir)
    end.

  Variable store : string -> value -> option value.
  Variable key_free : list (list value) -> list value -> bool.
  Variable sql_default : value -> value.
  Variable bare : string -> bool.

  (** sqlitetd.py 323-356: all rows are there ([_get_data] returns a tuple) before the first is inserted, and
      nothing is committed before the end. *)
  Definition gen_sql_write (f : factory) (allow : bool) (path : string) (g : gobj) (w : world) : bool * world :=
    match pull f g w with
    | Raise => (false, w)
    | Ret l =>
        match sql_write_file store key_free date_of sql_default f allow (pulled l) (dget String.eqb (w_dbs w) path) with
        | (ok, Some db) => (ok, set_db w path db)
        | (ok, None) => (ok, w)
        end
    end.

  (** mdb.py 304-330: the rows of a table are deleted, and that is committed (311), before a generator
      table is called (325). *)
  Fixpoint gen_mdb_tables (f : factory) (allow : bool) (names : list (string * string)) (path : string) (g : gobj) (order : list string)
    (w : world) (st : filedb * filedb) : bool * (filedb * filedb) :=
    match order with
    | [] => (true, st)
    | t :: order' =>
        if match dget String.eqb names t with Some n => String.eqb n t | None => false end && bare t && (allow || is_empty (snd st) t) then
          let st1 := if allow then (clear_table (snd st) t, clear_table (snd st) t) else st in
          match seen (f_defaults f) t (ts_of (plain_schema f) t) (g t) (set_db w path (fst st1)) with
          | Raise => (false, st1)
          | Ret tb =>
              match mdb_rows store key_free date_of f t (ts_of (plain_schema f) t) (full_rows tb) st1 with
              | (false, st2) => (false, st2)
              | (true, st2) => gen_mdb_tables f allow names path g order' w st2
              end
          end
        else (false, st)
    end.
  (** mdb.py 276-330 for a file that is there. *)
  Definition gen_mdb_write (f : factory) (allow : bool) (order : list string) (path : string) (g : gobj) (w : world) : bool * world :=
    match pull f g w, dget String.eqb (w_dbs w) path with
    | Ret _, Some db =>
        match check_fields f db with
        | Raise => (false, w)
        | Ret names =>
            match gen_mdb_tables f allow names path g order w (db, db) with
            | (true, st) => (true, set_db w path (snd st))
            | (false, st) => (false, set_db w path (fst st))
            end
        end
    | _, _ => (false, w)
    end.

  Variable saved : value -> outcome value.

  (** xls.py 374-477; [xld]: the conversion of dates of an .xls file, None for .xlsx.  An .xlsx file is removed
      before the sheets are filled (447-448), an .xls file afterwards (441-442). *)
  Definition gen_xls_write (f : factory) (xld : option (value -> option Z)) (pretty allow : bool) (path : string) (g : gobj) (w : world) : bool * world :=
    let xls := match xld with Some _ => true | None => false end in
    match pull f g w with
    | Raise => (false, w)
    | Ret _ =>
        if sheets_differ (map fst (f_decl f)) && (allow || negb (dmem String.eqb (w_books w) path)) then
          let w0 := if xls then w else del_book w path in
          match pull f g w0 with
          | Raise => (false, w0)
          | Ret l =>
              match xls_write date_of show_date saved f xls pretty (pulled l) with
              | Raise => (false, w0)
              | Ret sheets => (true, set_book w path (mkBook xld sheets))
              end
          end
        else (false, w)
    end.
End Files.
