(** * Reading and writing Excel files.

    xls.py 81-477 ([XlsTicFactory]) with the sheet wrappers of 37-79.  The
    reader's cache is in Csv.v.  Generic tables are in Generic.v, generator tables in Lazy.v.  Not modelled:
    [freeze_it], the checks of paths and extensions. *)
From Coq Require Import ZArith Bool List String Arith.
From Verif Require Import PyVal PyDict PyStr TypeDict Data FindTypes FK Obj Factory InfIO Params Names Utils Json Csv.
Import ListNotations.
Local Open Scope string_scope.
Local Open Scope list_scope.

(** A workbook.  [bk_xldate]: for an .xls file the conversion of numbers into
    datetimes ([xldate_as_tuple_munge], 48-54: external), None for the formats of
    openpyxl.  The sheets have names and, for .xls, [sh_min] is not used. *)
Record workbook : Type := mkBook { bk_xldate : option (value -> option Z); bk_sheets : list (string * sheet) }.
(** xls.py 37-54 or 56-79: which wrapper is used. *)
Definition is_xls (b : workbook) : bool := match bk_xldate b with Some _ => true | None => false end.

(** xls.py 41-43, 71-73 *)
Definition book_nrows (b : workbook) (s : sheet) : nat := if is_xls b then List.length (sh_rows s) else nrows s.

(** xls.py 367-370.  The fields are strings, so equal cells are strings too. *)
Definition is_header (x : string) (v : value) : bool :=
  match v with VStr k => String.eqb (lower k) (lower x) | _ => false end.
(** xls.py 367-370, positions counted from [i]. *)
Fixpoint hits_from (i : nat) (x : string) (h : list value) : list nat :=
  match h with
  | [] => []
  | v :: h' => if is_header x v then i :: hits_from (S i) x h' else hits_from (S i) x h'
  end.

(** xls.py 352-373 and 206-211.  openpyxl's rows beyond the last one are as wide as the
    others; xlrd raises for them. *)
Definition field_indices (b : workbook) (headers : bool) (s : sheet) (offset : nat) (fs : list string) : outcome (list nat) :=
  if headers then
    if Nat.leb (book_nrows b s) offset then (match fs with [] => Ret [] | _ => Raise end)
    else mapO (fun x => match hits_from 0 x (nth offset (sh_rows s) []) with [i] => Ret i | _ => Raise end) fs
  else
    match (if Nat.ltb 0 (book_nrows b s) then
             match nth_error (sh_rows s) offset with
             | Some r => Some (List.length r)
             | None => if is_xls b then None else Some (List.length (hd [] (sh_rows s)))
             end
           else Some (List.length fs)) with
    | None => Raise
    | Some n => if Nat.leb (List.length fs) n then Ret (seq 0 (List.length fs)) else Raise
    end.

(** [_sub_tuple] (346-350) gives one cell for one field. *)
Definition sub_row (r : list value) : rowin := match r with [v] => RAtom v | _ => RSeq r end.

(** xls.py 247-257 *)
Definition xls_built (ts : tschema) (rs : list (list value)) : tablein :=
  match tpk ts with
  | [] => TRows (map sub_row rs)
  | _ => TDict (dict_of pkey_eqb (map (fun r => (key_of ts r, sub_row (skipn (List.length (tpk ts)) r))) rs))
  end.

Section Xls.
  Variable date_of : value -> option Z.
  Variable float_of : value -> option value.
  Variable show_date : Z -> string.
  (** What the reading library finds in a cell that the writing library was given:
      external (xlwt and xlrd, XlsxWriter and openpyxl). *)
  Variable saved : value -> outcome value.

  (** xls.py 330-345 for a factory whose settings do not change meanwhile. *)
  Definition xls_cell (f : factory) (b : workbook) (inf : bool) (t x : string) (v : value) : outcome value :=
    xls_with date_of float_of f (dv_dt f t x) (bk_xldate b) inf t x v.

  (** xls.py 56-79: trailing empty rows are left out. *)
  Definition pruned (f : factory) (b : workbook) : bool := negb (is_xls b) && value_eqb (f_xlsx f) (VStr "prune").

  (** xls.py 245-257: the rows of a table. *)
  Definition xls_rows (f : factory) (b : workbook) (headers inf : bool) (offset : nat) (t : string) (ts : tschema) (s : sheet)
    : outcome (list (list value)) :=
    bindO (field_indices b headers s offset (tfields ts)) (fun idx =>
      mapO (fun r => mapO (fun xi => match nth_error r (snd xi) with
                                     | Some v => xls_cell f b inf t (fst xi) v
                                     | None => Raise
                                     end) (combine (tfields ts) idx))
        (rows_read (pruned f b) s (offset + (if headers then 1 else 0)))).

  (** xls.py 188-197 *)
  Definition sheet_of (b : workbook) (t : string) : outcome (option sheet) :=
    bindO (get_sheet (map fst (bk_sheets b)) t) (fun p =>
      match p with
      | None => Ret None
      | Some name => Ret (dget String.eqb (bk_sheets b) name)
      end).

  (** xls.py 241-259; tables without sheet are left out. *)
  Definition xls_input (f : factory) (b : workbook) (headers inf : bool) (offsets : string -> nat) (tts : string * tschema)
    : outcome (list (string * tablein)) :=
    bindO (sheet_of b (fst tts)) (fun s =>
      match s with
      | None => Ret []
      | Some s => bindO (xls_rows f b headers inf (offsets (fst tts)) (fst tts) (snd tts) s)
                    (fun rs => Ret [(fst tts, xls_built (snd tts) rs)])
      end).

  (** xls.py 102-168 *)
  Definition xls_create (f : factory) (b : workbook) (headers inf : bool) (offsets : string -> nat) : outcome obj :=
    if sheets_differ (map fst (f_decl f)) then
      bindO (mapO (xls_input f b headers inf offsets) (plain_schema f)) (fun l =>
        match construct (plain_schema f) (f_defaults f) (dup_mode f) (List.concat l) with
        | None => Raise
        | Some d => Ret (adjust_params date_of float_of f d)
        end)
    else Raise.

  (** xls.py 265-316; [treat_inf_as_infinity] is always true. *)
  Definition xls_duplicates (f : factory) (b : workbook) (headers : bool) (offsets : string -> nat)
    : outcome (list (string * list (pkey * nat))) :=
    if sheets_differ (map fst (f_decl f)) then
      bindO (mapO (fun tts =>
        bindO (sheet_of b (fst tts)) (fun s =>
          match s with
          | None => Ret []
          | Some s =>
              bindO (field_indices b headers s (offsets (fst tts)) (tfields (snd tts))) (fun idx =>
              bindO (mapO (fun r => mapO (fun xi => match nth_error r (snd xi) with
                                                    | Some v => xls_cell f b true (fst tts) (fst xi) v
                                                    | None => Raise
                                                    end) (combine (tpk (snd tts)) idx))
                       (rows_read (pruned f b) s (offsets (fst tts) + (if headers then 1 else 0)))) (fun ks =>
                Ret (match counted (map (key_of (snd tts)) ks) with [] => [] | l => [(fst tts, l)] end)))
          end)) (keyed_tables (plain_schema f)))
        (fun l => Ret (List.concat l))
    else Raise.

  (** xls.py 423-426 (.xls) and 453-459 (.xlsx). *)
  Definition clean_for_write (f : factory) (xls : bool) (t x : string) (v : value) : outcome value :=
    if xls then
      match v with
      | VDate d => Ret (VStr (show_date d))
      | _ => fst (write_cell date_of (mkIO f []) t x v)
      end
    else
      bindO (if negb (value_eqb (f_flag f) (VStr "N/A")) || treats_params f t
             then fst (write_cell date_of (mkIO f []) t x v) else Ret v)
        (fun u => Ret (match u with
                       | VNum PInf => VStr "inf"
                       | VNum NInf => VStr "-inf"
                       | VDate d => VStr (show_date d)
                       | _ => u
                       end)).

  (** xls.py 428-443, 460-476: one sheet, as it will be found. *)
  Definition xls_sheet (f : factory) (xls : bool) (t : string) (ts : tschema) (tb : otable) : outcome sheet :=
    bindO (mapO (fun r => mapO (fun xv => bindO (clean_for_write f xls t (fst xv) (snd xv)) saved) (combine (tfields ts) r)) (full_rows tb))
      (fun l => Ret (mkSheet 1 (map VStr (tfields ts) :: l))).

  (** xls.py 398-477.  The order of the sheets, which does not matter for reading, is
      that of the schema here. *)
  Definition xls_write (f : factory) (xls pretty : bool) (d : obj) : outcome (list (string * sheet)) :=
    bindO (write_sheets pretty (map fst (f_decl f))) (fun _ =>
      mapO (fun tts => bindO (xls_sheet f xls (fst tts) (snd tts) (d (fst tts)))
                         (fun s => Ret (sheet_name pretty (map fst (f_decl f)) (fst tts), s))) (plain_schema f)).
End Xls.
