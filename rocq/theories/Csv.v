(** * Reading and writing CSV files, and the reader's cache it shares with Excel.

    csvtd.py 25-273 ([CsvTicFactory]) and xls.py 317-345 ([_get_dv_dt],
    [_read_cell] of [XlsTicFactory]).  Not modelled: encodings and dialects (the
    csv module gives back the lists of strings it was given), [freeze_it].  Generic
    tables are in Generic.v, generator tables in Lazy.v. *)
From Coq Require Import ZArith Bool List String.
From Verif Require Import PyVal PyDict PyStr TypeDict Data FindTypes FK Obj Factory InfIO Params Names Utils Json.
Import ListNotations.
Local Open Scope string_scope.
Local Open Scope list_scope.

(** csvtd.py 87-90, xls.py 320-323: what [_get_dv_dt] remembers for a field, its
    default (None: there is none) and its data type. *)
Definition settings : Type := (option value * option dtype)%type.
(** csvtd.py 87-90, xls.py 320-323. *)
Definition dv_dt (f : factory) (t x : string) : settings := (dget2 (f_defaults f) t x, dget2 (f_types f) t x).

(** [self._dv_dt] (csvtd.py 84-91, xls.py 317-324). *)
Definition set_cache := list ((string * string) * settings).

(** csvtd.py 84-91, xls.py 317-324: nothing ever removes an entry. *)
Definition get_dv_dt (f : factory) (c : set_cache) (t x : string) : settings * set_cache :=
  match dget tf_eqb c (t, x) with
  | Some s => (s, c)
  | None => (dv_dt f t x, dset tf_eqb c (t, x) (dv_dt f t x))
  end.

(** utils.py 953 *)
Definition is_number (v : value) : bool := match v with VNum _ | VNaN => true | _ => false end.

(** [(dt and dt.nullable) or (not dt and dv is None)] (a data type is never
    falsy: it is a named tuple with fields) (csvtd.py 97). *)
Definition blank_is_none (s : settings) : bool :=
  match s with
  | (_, Some dt) => nullable dt
  | (Some VNone, None) => true
  | _ => false
  end.

(** csvtd.py 100 *)
Definition try_float (s : settings) : bool :=
  match s with
  | (_, Some dt) => number_allowed dt
  | (Some v, None) => is_number v
  | (None, None) => false
  end.

(** csvtd.py 94-95, xls.py 326-329: cells of [parameters] are left alone. *)
Definition treats_params (f : factory) (t : string) : bool := String.eqb t "parameters" && has_params f.

(** The dictionary or list of rows handed to the constructor for one table
    (csvtd.py 202-213, xls.py 247-257): rows with equal keys overwrite each
    other. *)
Definition key_of (ts : tschema) (r : list value) : pkey :=
  match firstn (List.length (tpk ts)) r with [v] => KAtom v | l => KTup l end.
(** The table made from the rows read (csvtd.py 202-213, xls.py 247-257), handed to the
    constructor. *)
Definition built (ts : tschema) (rs : list (list value)) : tablein :=
  match tpk ts with
  | [] => TRows (map RSeq rs)
  | _ => TDict (dict_of pkey_eqb (map (fun r => (key_of ts r, RSeq (skipn (List.length (tpk ts)) r))) rs))
  end.

(** csvtd.py 148-161, xls.py 301-316: the keys of a table met more than once. *)
Definition counted (ks : list pkey) : list (pkey * nat) :=
  filter (fun kn => Nat.ltb 1 (snd kn))
    (fold_left (fun d k => dset pkey_eqb d k (S (dget_or pkey_eqb d k 0))) ks []).

Section Csv.
  Variable date_of : value -> option Z.
  Variable float_of : value -> option value.
  (** [str] of numbers and datetimes: external. *)
  Variable show_num : num -> string.
  Variable show_date : Z -> string.

  (** [_general_read_cell]; its own cache is invisible (theorem C36). *)
  Definition general (f : factory) (t x : string) (v : value) : outcome value :=
    fst (read_cell date_of float_of (mkIO f []) t x v).

  (** csvtd.py 97-109 for the settings [s].  [int(x) == x] raises for infinities
      and NaN, after [x] has become a float, and [return x] is the same; integers
      and floats of the same value are not distinguished here. *)
  Definition csv_inner (f : factory) (s : settings) (t x : string) (v : value) : outcome value :=
    let floated := if try_float s then match to_float float_of v with Some w => w | None => v end else v in
    if value_eqb v (VStr "") then
      if blank_is_none s then Ret VNone
      else match general f t x VNone with
           | Raise => Raise
           | Ret w => Ret (if is_number w then VNone else floated)
           end
    else Ret floated.

  (** csvtd.py 92-110 for the settings [s]. *)
  Definition csv_with (f : factory) (s : settings) (t x : string) (v : value) : outcome value :=
    if treats_params f t then general f t x v
    else bindO (csv_inner f s t x v) (general f t x).

  (** csvtd.py 92-110 with the cache. *)
  Definition csv_read (f : factory) (c : set_cache) (t x : string) (v : value) : outcome value * set_cache :=
    if treats_params f t then (general f t x v, c)
    else match get_dv_dt f c t x with (s, c') => (csv_with f s t x v, c') end.

  (** xls.py 330-345 for the settings [s]; [xldate] is [xldate_as_tuple_munge] of
      the sheet if it has one (xlrd).  Cells of Excel sheets are numbers, strings,
      booleans, datetimes or None. *)
  Definition xls_with (f : factory) (s : settings) (xldate : option (value -> option Z)) (inf : bool)
      (t x : string) (v : value) : outcome value :=
    let treat := inf && value_eqb (f_flag f) (VStr "N/A") && negb (treats_params f t) in
    match v with
    | VStr y =>
        if String.eqb y "" then
          if blank_is_none s then Ret VNone
          else match general f t x VNone with
               | Raise => Raise
               | Ret w => if is_number w then Ret w else general f t x v
               end
        else if treat && (String.eqb (lower y) "inf" || String.eqb (lower y) "-inf")
        then Ret (VNum (if String.eqb (lower y) "inf" then PInf else NInf))
        else general f t x v
    | _ =>
        match snd s, xldate with
        | Some dt, Some g =>
            if datetime dt && is_number v
            then general f t x (match g v with Some d => VDate d | None => VNone end)
            else general f t x v
        | _, _ => general f t x v
        end
    end.
  (** xls.py 330-345 with the cache. *)
  Definition xls_read (f : factory) (c : set_cache) (xldate : option (value -> option Z)) (inf : bool)
      (t x : string) (v : value) : outcome value * set_cache :=
    match get_dv_dt f c t x with (s, c') => (xls_with f s xldate inf t x v, c') end.

  (** ** Histories of one factory, with the caches of its [csv] and [xls] (csvtd.py 84-91 and xls.py 317-324: the caches live as long as the factory) *)

  Record reader : Type := mkR { r_fac : factory; r_csv : set_cache; r_xls : set_cache }.

  (** Calls: any factory call (Factory.v), reading a cell with csvtd.py 92-110 or xls.py
      330-345. *)
  Inductive rop : Type :=
  | RFac : op -> rop
  | RCsv : string -> string -> value -> rop
  | RXls : option (value -> option Z) -> bool -> string -> string -> value -> rop.

  (** One such call: csvtd.py 92-110, xls.py 330-345. *)
  Definition rstep (s : reader) (o : rop) : reader :=
    match o with
    | RFac o => mkR (fst (step (is_date date_of) (r_fac s) o)) (r_csv s) (r_xls s)
    | RCsv t x v => mkR (r_fac s) (snd (csv_read (r_fac s) (r_csv s) t x v)) (r_xls s)
    | RXls g inf t x v => mkR (r_fac s) (r_csv s) (snd (xls_read (r_fac s) (r_xls s) g inf t x v))
    end.
  (** A sequence of calls: csvtd.py 92-110, xls.py 330-345. *)
  Definition rrun (s : reader) (h : list rop) : reader := fold_left rstep h s.
  (** csvtd.py 37 and xls.py 100: new readers have empty caches. *)
  Definition fresh (f : factory) : reader := mkR f [] [].

  (** ** Files *)

  (** The lines of a file as the csv module splits them (what csvtd.py 175-180 iterates over). *)
  Definition csv_file := list (list string).

  (** A cell, read by a factory whose settings do not change meanwhile (csvtd.py 92-110). *)
  Definition csv_cell (f : factory) (t x : string) (v : value) : outcome value := csv_with f (dv_dt f t x) t x v.

  (** [csv.DictReader]: blank lines are skipped; missing cells are None; too many
      cells are stored under the key None (csvtd.py 179-180). *)
  Definition short (n : nat) (r : list string) : list value := map VStr r ++ repeat VNone (n - List.length r).

  (** csvtd.py 180-189.  [None.lower()] raises for lines that are too long. *)
  Definition columns_of (keys : list string) (x : string) : list string :=
    filter (fun k => String.eqb (lower k) (lower x)) keys.
  (** [csv.DictReader] of csvtd.py 179-180: one line as a dict. *)
  Definition header_row (f : factory) (t : string) (ts : tschema) (h : list string) (r : list string) : outcome (list value) :=
    if Nat.ltb (List.length h) (List.length r) then Raise
    else
      let row := dict_of String.eqb (combine h (short (List.length h) r)) in
      if forallb (fun x => Nat.eqb (List.length (columns_of (map fst row) x)) 1) (tfields ts) then
        mapO (fun x => match columns_of (map fst row) x with
                       | k :: _ => match dget String.eqb row k with
                                   | Some v => csv_cell f t x v
                                   | None => Raise
                                   end
                       | [] => Raise
                       end) (tfields ts)
      else Raise.

  (** csvtd.py 175-178 *)
  Definition plain_row (f : factory) (t : string) (ts : tschema) (r : list string) : outcome (list value) :=
    if Nat.ltb (List.length (tfields ts)) (List.length r) then Raise
    else mapO (fun xv => csv_cell f t (fst xv) (snd xv)) (combine (tfields ts) (short (List.length (tfields ts)) r)).

  (** [csv.DictReader] skips blank lines (csvtd.py 180). *)
  Definition nonblank (r : list string) : bool := match r with [] => false | _ => true end.

  (** csvtd.py 169-189 [_get_data] *)
  Definition csv_rows (f : factory) (headers : bool) (t : string) (ts : tschema) (file : csv_file) : outcome (list (list value)) :=
    if headers then
      match file with
      | [] => Ret []
      | h :: body => mapO (header_row f t ts h) (filter nonblank body)
      end
    else mapO (plain_row f t ts) (filter nonblank file).

  (** A directory: names, [os.path.isfile], contents (csvtd.py 162-168). *)
  Definition directory := list (string * bool * csv_file).

  (** csvtd.py 162-168, 192-194 *)
  Definition file_of (dir : directory) (t : string) : outcome (option csv_file) :=
    bindO (get_file_path (map fst dir) t) (fun p =>
      match p with
      | None => Ret None
      | Some name => Ret (option_map snd (find (fun e => String.eqb (fst (fst e)) name && snd (fst e)) dir))
      end).

  (** csvtd.py 111-120, 191-214: empty tables are left out. *)
  Definition csv_input (f : factory) (headers : bool) (dir : directory) (tts : string * tschema) : outcome (list (string * tablein)) :=
    bindO (file_of dir (fst tts)) (fun file =>
      match file with
      | None => Ret []
      | Some file => bindO (csv_rows f headers (fst tts) (snd tts) file) (fun rs =>
          Ret (match rs with [] => [] | _ => [(fst tts, built (snd tts) rs)] end))
      end).

  (** csvtd.py 78-83 *)
  Definition csv_create (f : factory) (headers : bool) (dir : directory) : outcome obj :=
    bindO (mapO (csv_input f headers dir) (plain_schema f)) (fun l =>
      match construct (plain_schema f) (f_defaults f) (dup_mode f) (List.concat l) with
      | None => Raise
      | Some d => Ret (adjust_params date_of float_of f d)
      end).

  (** csvtd.py 141-161 *)
  Definition csv_duplicates (f : factory) (headers : bool) (dir : directory) : outcome (list (string * list (pkey * nat))) :=
    bindO (mapO (fun tts =>
      bindO (file_of dir (fst tts)) (fun file =>
        match file with
        | None => Ret []
        | Some file => bindO (csv_rows f headers (fst tts) (snd tts) file) (fun rs =>
            Ret (match counted (map (key_of (snd tts)) rs) with [] => [] | l => [(fst tts, l)] end))
        end)) (keyed_tables (plain_schema f)))
      (fun l => Ret (List.concat l)).

  (** What the csv module writes for a value (csvtd.py 261-273). *)
  Definition csv_text (v : value) : string :=
    match v with
    | VNone => ""
    | VNaN => "nan"
    | VBool b => if b then "True" else "False"
    | VNum n => show_num n
    | VStr s => s
    | VDate d => show_date d
    end.

  (** csvtd.py 261-273: the lines of one file. *)
  Definition csv_lines (f : factory) (headers : bool) (t : string) (ts : tschema) (tb : otable) : outcome csv_file :=
    bindO (mapO (fun r => mapO (fun xv => bindO (fst (write_cell date_of (mkIO f []) t (fst xv) (snd xv)))
                                            (fun u => Ret (csv_text u))) (combine (tfields ts) r)) (full_rows tb))
      (fun l => Ret (if headers then tfields ts :: l else l)).

  (** csvtd.py 249-273 into a directory without files of those names. *)
  Definition csv_write (f : factory) (headers pretty : bool) (d : obj) : outcome directory :=
    mapO (fun tts => bindO (csv_lines f headers (fst tts) (snd tts) (d (fst tts)))
                       (fun file => Ret (csv_name pretty (map fst (f_decl f)) (fst tts), true, file))) (plain_schema f).

  (** [open(f, 'w')]: the file of that name is replaced or added; a directory of
      that name raises (csvtd.py 259-261). *)
  Definition put (dir : directory) (name : string) (file : csv_file) : outcome directory :=
    if existsb (fun e => String.eqb (fst (fst e)) name) dir then
      mapO (fun e : string * bool * csv_file => if String.eqb (fst (fst e)) name then (if snd (fst e) then Ret (name, true, file) else Raise) else Ret e) dir
    else Ret (dir ++ [(name, true, file)]).

  (** csvtd.py 249-273 into any directory: the check of 249-252, then the files.
      Simplified: a call that raises leaves no trace here. *)
  Definition csv_save (f : factory) (headers pretty allow : bool) (dir : directory) (d : obj) : outcome directory :=
    if negb allow && existsb (fun t => existsb (fun e => String.eqb (fst (fst e)) (append t ".csv")) dir) (map fst (f_decl f)) then Raise
    else bindO (csv_write f headers pretty d)
           (fun new => fold_left (fun acc e => bindO acc (fun dir => put dir (fst (fst e)) (snd e))) new (Ret dir)).
End Csv.
