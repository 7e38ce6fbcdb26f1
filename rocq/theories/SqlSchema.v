(** * The text of an SQLite schema: sqlitetd.py 129-133, 250-277, 358-390.

    External: [str()] of a default value ([show]) and the order in which a set of
    foreign keys is gone through ([order]).  Generic tables are in Generic.v. *)
From Coq Require Import ZArith Bool List String Ascii Arith.
From Verif Require Import PyVal PyDict PyStr TypeDict Data FindTypes FK Graph Factory InfIO Params Names Obj ObjFacts Utils Ampl Json Sql Pg FileDb.
Import ListNotations.
Local Open Scope string_scope.
Local Open Scope list_scope.

(** [",\n".join], sqlitetd.py 275. *)
Fixpoint comma_lines (l : list text) : text :=
  match l with
  | [] => []
  | [x] => x
  | x :: l' => x ++ txt "," ++ [newline] ++ comma_lines l'
  end.

Section Schema.
  Variable show : value -> text.
  Variable order : list fk -> list fk.

  (** sqlitetd.py 266-267 *)
  Definition column_clause (f : factory) (t x : string) : text :=
    bracket x ++ txt " " ++ txt (sql_type f t x) ++ txt " default [" ++ show (cell_default (f_defaults f) t x) ++ txt "]".
  (** sqlitetd.py 268-271 *)
  Definition fk_clause (k : fk) : text :=
    txt "FOREIGN KEY(" ++ commas (map (fun nf => bracket (fst nf)) (native_to_foreign (fk_map k))) ++ txt ") REFERENCES " ++
    bracket (fk_foreign k) ++ txt "(" ++ commas (map (fun nf => bracket (snd nf)) (native_to_foreign (fk_map k))) ++ txt ")".
  (** sqlitetd.py 272-273 *)
  Definition key_clause (ts : tschema) : list text :=
    match tpk ts with
    | [] => []
    | pk => [txt "PRIMARY KEY(" ++ commas (map bracket pk) ++ txt ")"]
    end.
  (** sqlitetd.py 129-133 [_fks], 265-273. *)
  Definition clauses (f : factory) (t : string) (ts : tschema) : list text :=
    map bracket (tpk ts) ++ map (column_clause f t) (tdf ts) ++
    map fk_clause (order (filter (fun k => String.eqb (fk_native k) t) (f_fks f))) ++ key_clause ts.
  (** sqlitetd.py 264, 274-275 *)
  Definition table_sql (f : factory) (t : string) (ts : tschema) : text :=
    txt "Create TABLE " ++ bracket t ++ txt " (" ++ [newline] ++ comma_lines (clauses f t ts) ++ [newline] ++ txt ");".
  (** sqlitetd.py 250-277 [_get_schema_sql]; a circle of foreign keys raises RecursionError (C18). *)
  Definition schema_sql (f : factory) (tables : list string) : outcome (list text) :=
    match sq_order (S (List.length (f_decl f))) (f_fks f) (map fst (plain_schema f)) with
    | None => Raise
    | Some l => Ret (map (fun t => table_sql f t (ts_of (plain_schema f) t)) (filter (fun t => mem_str t tables) l))
    end.

  Variable date_of : value -> option Z.
  Variable show_num : Z -> text.
  Variable show_date : Z -> text.

  (** sqlitetd.py 358-390 [write_sql_file]: the text written. *)
  Definition sql_text (f : factory) (include_schema : bool) (d : obj) : outcome text :=
    bindO (schema_sql f (if include_schema then map fst (plain_schema f) else [])) (fun s =>
      bindO (data_sql date_of show_num show_date f d) (fun l => Ret (sql_file (s ++ l)))).
End Schema.
