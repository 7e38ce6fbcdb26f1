(** * The integrity report of the command line: utils.py 340-422 [_integrity_solve], and
    PanDatFactory.find_duplicates (pandatfactory.py 1536-1560) with keep="first".

    The schema is cloned into a PanDatFactory; TicDat data is copied into DataFrames with
    one column per field ([pan_of]; Frames.v models the copy, here the cells are taken as
    copied unchanged).  The finders are those of PanTypes.v and FK.v; the row predicate
    failures ([pred_fail], RowPred.v models the finder) are an argument.  [str(mapping)] (398)
    is represented by the foreign key itself. *)
From Coq Require Import ZArith Bool List String Arith.
From Verif Require Import PyVal PyDict TypeDict Data FindTypes FK PanTypes.
Import ListNotations.
Local Open Scope list_scope.

(** utils.py 366-369: [copy_to_pandas(dat, reset_index=True)]. *)
Definition pan_of (d : dat) : pdat := fun t => map (fun x => snd (fst x) ++ snd x) (rows_of (d t)).

(** [DataFrame.duplicated(pk, keep="first")]: flags, from the top (pandatfactory.py 1559). *)
Fixpoint dup_flags (seen : list key) (keys : list key) : list bool :=
  match keys with
  | [] => []
  | k :: keys' => existsb (fun k' => key_pyeq k' k) seen :: dup_flags (k :: seen) keys'
  end.

(** [df\[flags\]] (pandatfactory.py 1560-1562). *)
Definition keep_flagged (rows : list row) (flags : list bool) : list row :=
  map fst (filter (fun rb => snd rb) (combine rows flags)).

(** pandatfactory.py 1553-1559 *)
Definition find_dups (sch : schema) (d : pdat) : list (string * list row) :=
  flat_map (fun tts =>
    match tpk (snd tts) with
    | [] => []
    | pk => let fl := dup_flags [] (map (fun r => map (pcell (snd tts) r) pk) (d (fst tts))) in
            if existsb (fun b => b) fl then [(fst tts, keep_flagged (d (fst tts)) fl)] else []
    end) sch.

(** The failures of one predicate (the values of find_data_row_failures): the failing rows, with a
    message column at the end for error message predicates, or what the kwargs maker raised (utils.py 403-418). *)
Inductive pred_fail : Type :=
| PFRows : list row -> pred_fail
| PFMaker : value -> pred_fail.

(** utils.py 357: [pks or dfs] *)
Definition id_fields (ts : tschema) : list string := match tpk ts with [] => tdf ts | pk => pk end.

(** utils.py 358 *)
Definition longest (sch : schema) : nat := fold_right Nat.max 0 (map (fun tts => List.length (id_fields (snd tts))) sch).

(** utils.py 371-375 [add_error_row] *)
Definition id_cells (n : nat) (ts : tschema) (r : row) : list value :=
  firstn (List.length (id_fields ts)) r ++ repeat VNone (n - List.length (id_fields ts)).

(** The four tables of the report, utils.py 359-365 and 420-422. *)
Record errors : Type := mkErr {
  e_dups  : list (string * list value);
  e_types : list (string * string * list value);
  e_fks   : list (fk * list value);
  e_preds : list (string * string * value * list value)
}.

(** utils.py 403-418 for one entry. *)
Definition pred_rows (sch : schema) (n : nat) (e : (string * string) * pred_fail)
  : list (string * string * value * list value) :=
  let ts := ts_of sch (fst (fst e)) in
  match snd e with
  | PFMaker msg => [(fst e, msg, repeat VNone n)]
  | PFRows rows => map (fun r =>
      (fst e, if Nat.ltb (List.length (tfields ts)) (List.length r) then last r VNone else VNone, id_cells n ts r)) rows
  end.

(** utils.py 340-422; [None] is the exception.  A generic table makes 357 fail (the schema holds "*", which cannot be
    unpacked into two parts), an empty schema makes 358 fail. *)
Definition integrity_solve (parses : value -> bool) (sch : schema) (generics : list string) (tys : types) (fks : list fk)
  (preds : list ((string * string) * pred_fail)) (d : pdat) : option errors :=
  match generics, sch with
  | [], _ :: _ =>
      let n := longest sch in
      match pan_find_types parses sch tys d PInf with
      | None => None
      | Some trep =>
          Some (mkErr
            (flat_map (fun tr => map (fun r => (fst tr, id_cells n (ts_of sch (fst tr)) r)) (snd tr)) (find_dups sch d))
            (flat_map (fun e => map (fun r => (fst e, id_cells n (ts_of sch (fst (fst e))) r))
                                    (keep_flagged (d (fst (fst e))) (snd e))) trep)
            (flat_map (fun e => map (fun r => (fst e, id_cells n (ts_of sch (fk_native (fst e))) r))
                                    (keep_flagged (d (fk_native (fst e))) (snd e))) (pan_find sch fks d))
            (flat_map (pred_rows sch n) preds))
      end
  | _, _ => None
  end.

(** utils.py 579 *)
Definition err_count (e : errors) : nat :=
  List.length (e_dups e) + List.length (e_types e) + List.length (e_fks e) + List.length (e_preds e).
