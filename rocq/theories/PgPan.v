(** * Postgres with PanDat objects: pgtd.py 492-523 (create_pan_dat), 525-589 (write_data).

    The database and the parts shared with TicDat are in Pg.v; what pandas does to cells
    read is [settle] (Frames.v), what it writes to the database are the cells with NULL for a
    null.  The data are the rows of the fields: other columns are dropped by
    pandatfactory.py 530-532.  Not modelled: generic tables, context managers (pgtd.py 552-567), an
    object that is not good (571-573). *)
From Coq Require Import ZArith Bool List String Ascii Arith.
From Verif Require Import PyVal PyDict PyStr TypeDict Data FindTypes FK Graph Factory InfIO Params Names Obj Utils Json Frames PanIO Pg.
Import ListNotations.
Local Open Scope string_scope.
Local Open Scope list_scope.

(** [to_sql] writes NULL for None, NaN and NaT (pgtd.py 585). *)
Definition sql_null (v : value) : value := if is_null v then VNone else v.

(** pgtd.py 579-583: the cells of one row by column; the assignment of 583 replaces a column of this name. *)
Definition frame_cells (active : string) (actives : list string) (t : string) (ts : tschema) (r : list value) : list (string * value) :=
  let cells := combine (map pg_name (tfields ts)) (map sql_null r) in
  if mem_str t actives then dset String.eqb cells active (VBool true) else cells.

Section PgPan.
  Variable date_of : value -> option Z.
  Variable float_of : value -> option value.
  Variable settle : list value -> list value.
  Variable str_of : value -> string.
  Variable pg_text : value -> string.
  Variable pg_num : string -> option num.
  Variable pg_stamp : string -> option Z.
  Variable pg_bool : string -> option bool.
  Variable pg_int : Z -> option Z.
  Variable pg_float : Z -> Z.
  Variable pg_other : string -> value -> option value.

  (** pgtd.py 578-588: one table after another, from the [i]-th.  [go] is what [progress] answers after each
      table.  A table is uploaded in a transaction of its own. *)
  Fixpoint upload (go : nat -> bool) (i : nat) (l : list (string * list (list (string * value)))) (db : pgdb) : bool * pgdb :=
    match l with
    | [] => (true, db)
    | tg :: l' =>
        match insert_all pg_text pg_num pg_stamp pg_bool pg_int pg_float pg_other (map (pair (fst tg)) (snd tg)) db with
        | (true, db') => if go i then upload go (S i) l' db' else (true, db')
        | (false, _) => (false, db)
        end
    end.

  (** pgtd.py 576-583: everything that is to be uploaded. *)
  Definition frame_data (f : factory) (active : string) (actives : list string) (d : string -> list (list value))
    : outcome (list (string * list (list (string * value)))) :=
    mapO (fun t => let ts := ts_of (plain_schema f) t in
            bindO (pan_write date_of f t (tfields ts) (d t)) (fun l => Ret (t, map (frame_cells active actives t ts) l)))
      (ordered_tables f).

  (** pgtd.py 525-589.  Result as for [Pg.write_data]; with [auto] the tables before the one that fails are kept. *)
  Definition pan_write_data (f : factory) (auto : bool) (go : nat -> bool) (pre : list (string * string)) (active : string)
    (d : string -> list (list value)) (db : pgdb) : bool * pgdb :=
    if String.eqb (pg_name active) active && names_ok f &&
       match check_tables f db true with Ret _ => true | Raise => false end
    then
      match handle_preexisting f pre db with
      | (false, db1) => (false, db1)
      | (true, db1) =>
          match frame_data f active (active_tables db active) d with
          | Raise => (false, db1)
          | Ret l => match upload go 0 l db1 with
                     | (true, db2) => (true, db2)
                     | (false, db2) => (false, if auto then db2 else db1)
                     end
          end
      end
    else (false, db).

  (** pgtd.py 511-517: the DataFrame made of the rows selected. *)
  Definition sql_frame (ts : tschema) (rows : list (list value)) : frame :=
    mkFr [] (map CName (tfields ts)) (map (fun r => ([], r)) (settled settle (List.length (tfields ts)) rows)).

  (** pgtd.py 507-517: the DataFrames of the tables that are there. *)
  Definition sql_frames (f : factory) (active : string) (db : pgdb) : list (string * frame) :=
    flat_map (fun tts =>
      match dget String.eqb db (fst tts) with
      | None => []
      | Some pt => [(fst tts, sql_frame (snd tts) (select_rows pt (map pg_name (tfields (snd tts)))
                                                     (if mem_str (fst tts) (active_tables db active) then Some active else None)))]
      end) (plain_schema f).

  (** pgtd.py 492-523 *)
  Definition pan_pg_create (f : factory) (active : string) (db : pgdb) : outcome (string -> list (list value)) :=
    if String.eqb (pg_name active) active && names_ok f then
      bindO (check_tables f db false) (fun _ =>
        clean date_of float_of settle str_of false f (map (fun tf => (fst tf, PFrame (snd tf))) (sql_frames f active db)))
    else Raise.
End PgPan.
