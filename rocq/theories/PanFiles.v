(** * PanDat objects in directories of CSV files, SQLite databases, Excel workbooks and json documents of
    DataFrames (pandatio.py 182-253, 262-374, 394-500, 521-625; pandatfactory.py 425-440, 521-530).

    A file is the DataFrame that pandas was told to write into it.  What pandas reads back is an oracle: [load]
    gets the columns that are to be read as text ([dtype=str]) and the DataFrame written.  The data of generic
    tables, any DataFrame, are [g].  Not modelled: keyword arguments passed on to pandas ([index], [orient],
    [if_exists]), connections passed instead of file names, folders that cannot be made; [write_file_pd] replaces infinities by a
    random text while pandas writes and puts them back afterwards, which is left out. *)
From Coq Require Import ZArith Bool List String Ascii Arith.
From Verif Require Import PyVal PyDict PyStr TypeDict Data FindTypes FK Factory InfIO Params Names Utils Obj Json Frames PanIO.
Import ListNotations.
Local Open Scope string_scope.
Local Open Scope list_scope.

(** pandatfactory.py 425-440 [_dtypes_for_pandas_read]: is the column [x] read as text?  437-439 take the first key field and the first
    data field of the parameters. *)
Definition read_as_text (f : factory) (t x : string) : bool :=
  match field_type f t x with Some dt => text_only dt | None => false end ||
  (String.eqb t "parameters" && has_params f &&
   match table_of f t with Some ts => mem_str x (firstn 1 (tpk ts) ++ firstn 1 (tdf ts)) | None => false end).

(** A DataFrame with the fields of the table as columns (pandatfactory.py 526-530). *)
Definition frame_of (ts : tschema) (l : list (list value)) : frame := mkFr [] (map CName (tfields ts)) (map (pair []) l).

Section PanFiles.
  Variable date_of : value -> option Z.
  Variable float_of : value -> option value.
  Variable settle : list value -> list value.
  Variable show_date : Z -> string.
  Variable str_of : value -> string.
  Variable load : (string -> bool) -> frame -> frame.

  (** pandatfactory.py 521-573 [_pre_write_adjustment] of every table: what pandas is told to write.  The fields in
      the order of the schema, no other columns; generic tables as they are. *)
  Definition frames_written (f : factory) (d : string -> list (list value)) (g : string -> frame) : outcome (string -> frame) :=
    bindO (mapO (fun td => match snd td with
                           | Generic => Ret (fst td, g (fst td))
                           | Fields ts => bindO (pan_write date_of f (fst td) (tfields ts) (d (fst td))) (fun l => Ret (fst td, frame_of ts l))
                           end) (f_decl f))
      (fun l => Ret (fun t => dget_or String.eqb l t (mkFr [] [] []))).

  (** The tables found, in the order of the factory: pandatio.py 306-311, 418-425, 559-560. *)
  Definition found {C} (f : factory) (get : string -> outcome (option C)) : outcome (list (string * C)) :=
    bindO (mapO (fun t => bindO (get t) (fun o => Ret match o with Some c => [(t, c)] | None => [] end)) (map fst (f_decl f)))
      (fun l => Ret (List.concat l)).

  (** The DataFrames of the tables that are not generic, as read at pandatio.py 308-311, 421-425, 560 and 115-119. *)
  Definition plain_frames (f : factory) (dtypes : bool) (l : list (string * frame)) : list (string * frame) :=
    flat_map (fun te => match table_of f (fst te) with
                        | Some _ => [(fst te, load (if dtypes then read_as_text f (fst te) else fun _ => false) (snd te))]
                        | None => []
                        end) l.

  (** ** CSV: pandatio.py 340-374 [write_directory] and 275-326 [create_pan_dat] *)
  Definition csv_write (f : factory) (asked : bool) (d : string -> list (list value)) (g : string -> frame) (dir : list (string * frame))
    : outcome (list (string * frame)) :=
    bindO (frames_written f d g) (fun w => Ret (csv_put asked (map fst (f_decl f)) w dir)).
  (** pandatio.py 302-326 *)
  Definition csv_read (fill : bool) (f : factory) (dir : list (string * frame)) : outcome (string -> list (list value)) :=
    bindO (found f (csv_get dir)) (fun l => create_frames date_of float_of settle str_of false fill f (plain_frames f true l)).

  (** ** SQLite: pandatio.py 457-500 [write_file] and 394-439 [create_pan_dat]; [read_sql] gets no types (424) *)
  Definition sql_write (f : factory) (asked : bool) (d : string -> list (list value)) (g : string -> frame) (db : list (string * frame))
    : outcome (list (string * frame)) :=
    bindO (frames_written f d g) (fun w =>
      match sql_put (out_name asked (map fst (f_decl f))) w (map fst (f_decl f)) db with
      | (db', true) => Ret db'
      | _ => Raise
      end).
  (** pandatio.py 416-439 *)
  Definition sql_read (fill : bool) (f : factory) (db : list (string * frame)) : outcome (string -> list (list value)) :=
    bindO (found f (sql_get db)) (fun l => create_frames date_of float_of settle str_of false fill f (plain_frames f false l)).

  (** ** Excel: pandatio.py 597-625 [write_file], the sheets that pandas is told to write, and 521-578 [create_pan_dat] *)
  Definition xls_write (f : factory) (asked : bool) (d : string -> list (list value)) (g : string -> frame) : outcome (list (string * frame)) :=
    if sheets_differ (map fst (f_decl f)) then
      bindO (frames_written f d g) (fun w => Ret (map (fun t => (sheet_name asked (map fst (f_decl f)) t, w t)) (map fst (f_decl f))))
    else Raise.
  (** pandatio.py 587-595 and 560 *)
  Definition sheet_get {C} (book : list (string * C)) (t : string) : outcome (option C) :=
    match get_sheet (map fst book) t with
    | Raise => Raise
    | Ret None => Ret None
    | Ret (Some n) => Ret (dget String.eqb book n)
    end.
  (** pandatio.py 553-578 *)
  Definition xls_read (fill : bool) (f : factory) (book : list (string * frame)) : outcome (string -> list (list value)) :=
    if sheets_differ (map fst (f_decl f)) then
      bindO (found f (sheet_get book)) (fun l => create_xls date_of float_of settle str_of fill f (plain_frames f true l))
    else Raise.

  (** ** json documents of DataFrames: pandatio.py 182-253 [write_file_pd] and 70-136 [create_pan_dat] *)

  (** pandatio.py 236-242: cells of datetime fields. *)
  Definition pd_fix (f : factory) (t x : string) (v : value) : value :=
    match field_type f t x with
    | Some dt => if datetime dt then match v with VDate d => VStr (show_date d) | _ => if is_null v then VNone else v end else v
    | None => v
    end.
  (** pandatio.py 230-242 *)
  Definition pd_frame (f : factory) (t : string) (fr : frame) : frame :=
    mkFr (fr_index fr) (fr_cols fr)
      (map (fun r => (fst r, map (fun cv => match fst cv with CName x => pd_fix f t x (snd cv) | CPos _ => snd cv end) (combine (fr_cols fr) (snd r)))) (fr_rows fr)).
  (** pandatio.py 225-253 *)
  Definition pd_write (f : factory) (asked : bool) (d : string -> list (list value)) (g : string -> frame) : outcome (list (string * frame)) :=
    bindO (frames_written f d g) (fun w => Ret (map (fun t => (out_name asked (map fst (f_decl f)) t, pd_frame f t (w t))) (map fst (f_decl f)))).
  (** pandatio.py 138-147 *)
  Definition key_get {C} (doc : list (string * C)) (t : string) : outcome (option C) :=
    match get_json_key (map fst doc) t with
    | Raise => Raise
    | Ret None => Ret None
    | Ret (Some k) => Ret (dget String.eqb doc k)
    end.
  (** pandatio.py 95-136 when every key of the document holds a DataFrame. *)
  Definition pd_read (fill : bool) (f : factory) (doc : list (string * frame)) : outcome (string -> list (list value)) :=
    bindO (found f (key_get doc)) (fun l => create_frames date_of float_of settle str_of true fill f (plain_frames f true l)).
End PanFiles.
