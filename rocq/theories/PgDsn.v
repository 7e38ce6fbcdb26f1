(** * Postgres: the [dsn] way of writing, pgtd.py 402-410 and 450-456.

    A second connection, made by psycopg2, takes the rows: [execute_values] sends those of
    one table in statements of [page_size] rows each, and everything is one transaction (the
    [with] of 453), committed if the block ends and undone if it raises.  A statement checks
    the keys of its rows one after another, the foreign keys when all its rows are there.  The
    deletions are those of the other way (Pg.v); they are committed before.  Whether the
    second connection can be made is an argument.  Statements are told apart by their text,
    which has the name of the table, and the rows of a table all name the same columns: one
    entry of the dict of 410 for each table with rows. *)
From Coq Require Import ZArith Bool List String Ascii Arith.
From Verif Require Import PyVal PyDict PyStr TypeDict Data FindTypes FK Graph Factory InfIO Params Names Obj Utils Json Pg.
Import ListNotations.
Local Open Scope string_scope.
Local Open Scope list_scope.

(** The default of [psycopg2.extras.execute_values] (called at pgtd.py 456). *)
Definition page_size : nat := 100.

(** [psycopg2.extras._paginate] (for pgtd.py 456); [fuel] bounds the number of pages. *)
Fixpoint pages_fuel {A} (fuel n : nat) (l : list A) : list (list A) :=
  match fuel, l with
  | S fuel', _ :: _ => firstn n l :: pages_fuel fuel' n (skipn n l)
  | _, _ => []
  end.
(** The pages of the rows of a table (for pgtd.py 456). *)
Definition pages {A} (n : nat) (l : list A) : list (list A) := pages_fuel (List.length l) n l.

Section PgDsn.
  Variable date_of : value -> option Z.
  Variable pg_text : value -> string.
  Variable pg_num : string -> option num.
  Variable pg_stamp : string -> option Z.
  Variable pg_bool : string -> option bool.
  Variable pg_int : Z -> option Z.
  Variable pg_float : Z -> Z.
  Variable pg_other : string -> value -> option value.

  (** The rows of one statement, with the checks that are made at once (pgtd.py 409, 456). *)
  Fixpoint add_given (pt : pgtable) (gs : list (list (string * value))) : option pgtable :=
    match gs with
    | [] => Some pt
    | g :: gs' =>
        if distinct_b (map fst g) && forallb (fun x => mem_str x (map c_name (pt_cols pt))) (map fst g) then
          match new_row pg_text pg_num pg_stamp pg_bool pg_int pg_float pg_other (pt_cols pt) g with
          | None => None
          | Some r => if key_free pt r then add_given (with_rows pt (pt_rows pt ++ [r])) gs' else None
          end
        else None
    end.

  (** INSERT INTO with the rows of one page (pgtd.py 409, 456). *)
  Definition insert_page (db : pgdb) (t : string) (gs : list (list (string * value))) : option pgdb :=
    match dget String.eqb db t with
    | None => None
    | Some pt =>
        match add_given pt gs with
        | None => None
        | Some pt' =>
            let db' := dset String.eqb db t pt' in
            if forallb (fun r => forallb (fun k => fk_satisfied db' pt k r) (pt_fks pt)) (skipn (List.length (pt_rows pt)) (pt_rows pt'))
            then Some db' else None
        end
    end.

  (** [execute_values] for one table (pgtd.py 456). *)
  Fixpoint insert_pages (t : string) (l : list (list (list (string * value)))) (db : pgdb) : option pgdb :=
    match l with
    | [] => Some db
    | gs :: l' => match insert_page db t gs with Some db' => insert_pages t l' db' | None => None end
    end.

  (** pgtd.py 455-456 *)
  Fixpoint insert_groups (l : list (string * list (list (string * value)))) (db : pgdb) : option pgdb :=
    match l with
    | [] => Some db
    | tg :: l' => match insert_pages (fst tg) (pages page_size (snd tg)) db with Some db' => insert_groups l' db' | None => None end
    end.

  (** pgtd.py 381-410 with [dump_format="dict"]. *)
  Definition dsn_data (f : factory) (active : string) (actives : list string) (d : obj)
    : outcome (list (string * list (list (string * value)))) :=
    mapO (fun t => bindO (mapO (given_cells date_of f active actives t (ts_of (plain_schema f) t)) (full_rows (d t))) (fun gs => Ret (t, gs)))
      (ordered_tables f).

  (** pgtd.py 412-463 with a [dsn], for an object that is good.  The result is whether the call returned, and
      the database afterwards. *)
  Definition write_dsn (f : factory) (connects : bool) (pre : list (string * string)) (active : string) (d : obj) (db : pgdb)
    : bool * pgdb :=
    if String.eqb (pg_name active) active && names_ok f && no_generics f &&
       match check_tables f db true with Ret _ => true | Raise => false end
    then
      match handle_preexisting f pre db with
      | (false, db1) => (false, db1)
      | (true, db1) =>
          if connects then
            match dsn_data f active (active_tables db active) d with
            | Raise => (false, db1)
            | Ret l => match insert_groups l db1 with
                       | Some db2 => (true, db2)
                       | None => (false, db1)
                       end
            end
          else (false, db1)
      end
    else (false, db).
End PgDsn.
