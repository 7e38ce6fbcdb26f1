(** * Property theorems: C37, C38, C78 (JSON files). *)
From Coq Require Import ZArith Bool List String Permutation.
From Verif Require Import PyVal PyDict TypeDict Data FindTypes Obj ObjFacts ObjMore Factory InfIO InfIOFacts Params Names NamesFacts
  Json ObjRows JsonFacts JsonDups JsonMore JsonWitness InfWitness.
Import ListNotations.
Local Open Scope string_scope.
Local Open Scope list_scope.

(** ** C37 Round trip *)

(** [cells_back]: each cell outside the parameters, written and read, is the
    same cell; [params_back]: likewise for parameters including the adjustment
    after reading.  [doc_like]: tables, and the entries of verbose rows, in any
    order, and further keys that match no table. *)
Theorem C37_round_trip : forall date_of float_of show_date f verbose d, decl_ok (f_decl f) = true ->
  obj_ok (plain_schema f) d -> obj_keys (plain_schema f) d -> proper_keys (plain_schema f) d ->
  cells_back date_of float_of show_date f d -> params_back date_of float_of show_date f d ->
  exists doc, make_json date_of show_date f verbose d = Ret doc /\
    forall doc', doc_like (map fst (plain_schema f)) doc doc' ->
      exists e, json_create date_of float_of f doc' = Ret e /\ forall t ts, In (t, ts) (plain_schema f) -> e t = d t.
Proof. exact json_round_trip. Qed.
Print Assumptions C37_round_trip.

(** The cells that come back: without a flag, those left alone by reading. *)
Theorem C37_cells_no_flag : forall date_of float_of show_date f t x v,
  is_table f t = true -> t <> "parameters" -> f_flag f = VStr "N/A" -> not_datetime v -> kept date_of float_of f t x v ->
  exists w, json_write_cell date_of show_date f t x v = Ret w /\ json_read_cell date_of float_of f t x w = Ret v.
Proof. exact trip_na. Qed.
Print Assumptions C37_cells_no_flag.

(** With a numeric flag, the infinities and the numbers below the flag. *)
Theorem C37_cells_numeric_flag : forall date_of float_of show_date f t x v m,
  is_table f t = true -> t <> "parameters" -> f_flag f = VNum m -> good_flag (VNum m) = true -> not_datetime v ->
  kept date_of float_of f t x v ->
  (forall n, v = VNum n -> n = PInf \/ n = NInf ->
     kept date_of float_of f t x (VNum m) /\ kept date_of float_of f t x (VNum (num_opp m))) ->
  (forall n, v = VNum n -> n = PInf \/ n = NInf \/ within m n) ->
  exists w, json_write_cell date_of show_date f t x v = Ret w /\ json_read_cell date_of float_of f t x w = Ret v.
Proof. exact trip_numeric. Qed.
Print Assumptions C37_cells_numeric_flag.

Theorem C37_cells_none_flag : forall date_of float_of show_date f t x v,
  is_table f t = true -> t <> "parameters" -> f_flag f = VNone -> not_datetime v -> kept date_of float_of f t x v ->
  (forall dt, field_type f t x = Some dt -> valid_data (is_date date_of) dt v = true) ->
  fst (write_cell date_of (mkIO f []) t x v) <> Raise ->
  exists w, json_write_cell date_of show_date f t x v = Ret w /\ json_read_cell date_of float_of f t x w = Ret v.
Proof. exact trip_none. Qed.
Print Assumptions C37_cells_none_flag.

(** Datetimes in datetime fields, if the text of a datetime denotes it. *)
Theorem C37_cells_dates : forall date_of float_of show_date f t x d dt,
  is_table f t = true -> t <> "parameters" -> field_type f t x = Some dt -> datetime dt = true ->
  date_of (VStr (show_date d)) = Some d ->
  exists w, json_write_cell date_of show_date f t x (VDate d) = Ret w /\ json_read_cell date_of float_of f t x w = Ret (VDate d).
Proof. exact trip_date. Qed.
Print Assumptions C37_cells_dates.

(** In a field without a type a datetime comes back as its text. *)
Theorem C37_untyped_dates : forall date_of float_of show_date f t x d,
  is_table f t = true -> t <> "parameters" -> field_type f t x = None -> f_flag f = VStr "N/A" ->
  forall v', (exists w, json_write_cell date_of show_date f t x (VDate d) = Ret w /\ json_read_cell date_of float_of f t x w = Ret v') <->
             v' = VStr (show_date d).
Proof. exact trip_untyped_date. Qed.
Print Assumptions C37_untyped_dates.

(** Flag 1000, an infinite cell, dates, a parameter, rows as dicts, everything
    that may be reordered reordered. *)
Example C37_ex :
  cells_back wi_date wi_float wj_show wj_fac wj_obj /\ params_back wi_date wi_float wj_show wj_fac wj_obj /\
  doc_like (map fst (plain_schema wj_fac)) wj_doc wj_moved /\
  decl_ok (f_decl wj_fac) = true /\ has_params wj_fac = true /\ f_flag wj_fac = wi_big /\ List.length wj_doc = 2 /\
  exists e, json_create wi_date wi_float wj_fac wj_moved = Ret e /\ e "items" = wj_obj "items" /\ e "parameters" = wj_obj "parameters".
Proof. exact (conj wj_cells (conj wj_params (conj wj_like wj_example))). Qed.

(** ** C38 Duplicates *)

(** The key "Items" is read as the table "items", whose two rows have the same
    key, so that reading refuses the file, but the report is empty. *)
Theorem C38_refuted : exists date_of float_of f doc,
  decl_ok (f_decl f) = true /\ dup_mode f = "assert" /\
  get_json_key (map fst doc) "items" = Ret (Some "Items") /\
  dget String.eqb doc "Items" = Some wj_twice /\
  json_create date_of float_of f doc = Raise /\ json_duplicates (plain_schema f) doc = Ret [] /\
  json_duplicates (plain_schema f) [("items", wj_twice)] = Ret [("items", [([VStr "a"], 2)])].
Proof.
  exists wi_date, wi_float, wj_fac, [("Items", wj_twice)].
  refine (conj _ (conj _ (conj _ (conj _ (conj _ (conj _ _)))))); vm_compute; reflexivity.
Qed.
Print Assumptions C38_refuted.

(** Cells are compared as they are in the file: "7" and 7 are the same key once
    read, and again the report is empty. *)
Theorem C38_conversion_refuted : exists date_of float_of f doc,
  decl_ok (f_decl f) = true /\ dup_mode f = "assert" /\ map fst doc = ["items"] /\
  json_create date_of float_of f doc = Raise /\ json_duplicates (plain_schema f) doc = Ret [].
Proof.
  exists wi_date, wi_float,
    (run (fun _ => false) wi_f0 [OSetType "items" "Name" wi_any; ODup (VStr "assert")]),
    [("items", [RSeq [VStr "7"; int 1; int 2; VNone]; RSeq [int 7; int 1; int 2; VNone]])].
  refine (conj _ (conj _ (conj _ (conj _ _)))); vm_compute; reflexivity.
Qed.
Print Assumptions C38_conversion_refuted.

(** For the rows under the literal table names the report is exact: [times k ks]
    is the number of rows whose key is [k]. *)
Theorem C38_literal_names : forall sch doc, wf_schema sch -> NoDup (map fst doc) ->
  (forall t ts, In (t, ts) sch -> tpk ts <> [] -> dict_rows (doc_rows doc t) /\ exists ks, keys_of_rows ts (doc_rows doc t) ks) ->
  exists rtn, json_duplicates sch doc = Ret rtn /\
    (forall t, In t (map fst rtn) -> exists ts, In (t, ts) sch /\ tpk ts <> []) /\
    (forall t d, In (t, d) rtn -> exists k n, In (k, n) d) /\
    forall t ts ks, In (t, ts) sch -> tpk ts <> [] -> keys_of_rows ts (doc_rows doc t) ks ->
      (forall d k n, In (t, d) rtn -> In (k, n) d -> exists k0, In k0 ks /\ k = key_cells k0 /\ n = times k0 ks /\ 1 < n) /\
      (forall k, In k ks -> 1 < times k ks -> duplicate_reports rtn t k (times k ks)).
Proof. exact json_duplicates_spec. Qed.
Print Assumptions C38_literal_names.

(** ... and if reading changes no cell either, it is empty exactly when the
    file can be read. *)
Theorem C38_agrees : forall date_of float_of f doc,
  decl_ok (f_decl f) = true -> dup_mode f = "assert" -> NoDup (map fst doc) ->
  (forall t ts, In (t, ts) (plain_schema f) ->
     (In t (map fst doc) -> get_json_key (map fst doc) t = Ret (Some t)) /\
     (~ In t (map fst doc) -> get_json_key (map fst doc) t = Ret None) /\
     dict_rows (doc_rows doc t) /\ (forall x, In x (doc_rows doc t) -> has_shape (tfields ts) x) /\
     mapO (json_read_row date_of float_of f t ts) (doc_rows doc t) = Ret (doc_rows doc t)) ->
  exists rtn, json_duplicates (plain_schema f) doc = Ret rtn /\
    (rtn = [] <-> exists e, json_create date_of float_of f doc = Ret e).
Proof. exact duplicates_agree. Qed.
Print Assumptions C38_agrees.

Definition wj_lit : jdoc :=
  [("items", RDict [("Day", VDate 5); ("Name", VStr "b"); ("Cap", int 1); ("Cost", int 1)] :: wj_twice)].
Example C38_ex : NoDup (map fst wj_lit) /\
  get_json_key (map fst wj_lit) "items" = Ret (Some "items") /\ get_json_key (map fst wj_lit) "parameters" = Ret None /\
  dict_rows (doc_rows wj_lit "items") /\
  (forall x, In x (doc_rows wj_lit "items") -> has_shape ["Name"; "Cost"; "Cap"; "Day"] x) /\
  mapO (json_read_row wi_date wi_float wj_fac "items" (mkT ["Name"] ["Cost"; "Cap"; "Day"])) (doc_rows wj_lit "items") =
    Ret (doc_rows wj_lit "items") /\
  json_duplicates (plain_schema wj_fac) wj_lit = Ret [("items", [([VStr "a"], 2)])].
Proof.
  refine (conj _ (conj _ (conj _ (conj _ (conj _ (conj _ _)))))); try (vm_compute; reflexivity).
  - repeat constructor. intros [].
  - intros l [E | [E | [E | []]]]; try discriminate. injection E as <-. repeat constructor; simpl; intuition discriminate.
  - intros x [E | [E | [E | []]]]; subst x; simpl; auto. intros g v H. intuition (match goal with H : (_, _) = _ |- _ => injection H as <- _ end; auto).
Qed.

(** ** C78 Malformed rows *)

(** A row with a cell too many is cut short without a word; a string of at
    least as many characters as there are fields is taken for a row. *)
Theorem C78_refuted : exists date_of float_of f doc,
  decl_ok (f_decl f) = true /\
  doc = [("items", [RSeq [VStr "a"; int 1; int 2; VDate 5; VStr "extra"]; RAtom (VStr "wxyz!")])] /\
  exists e, json_create date_of float_of f doc = Ret e /\
    e "items" = OKeyed [(KAtom (VStr "a"), [int 1; int 2; VDate 5]); (KAtom (VStr "w"), [VStr "x"; VStr "y"; VStr "z"])].
Proof.
  exists wi_date, wi_float, wj_fac. eexists. split; [vm_compute; reflexivity |]. split; [reflexivity |].
  eexists. split; [vm_compute; reflexivity |]. vm_compute. reflexivity.
Qed.
Print Assumptions C78_refuted.

(** What is refused: list rows that are too short, dict rows naming an unknown
    field, scalars other than strings, two keys for one table. *)
Theorem C78_accepted_rows : forall date_of float_of f doc e,
  decl_ok (f_decl f) = true -> json_create date_of float_of f doc = Ret e ->
  forall t ts, In (t, ts) (plain_schema f) -> exists o, get_json_key (map fst doc) t = Ret o /\
    forall k x, o = Some k -> In x (dget_or String.eqb doc k []) ->
      match x with
      | RDict l => forall g v, In (g, v) l -> In g (tfields ts)
      | RSeq l => List.length (tfields ts) <= List.length l
      | RAtom (VStr s) => List.length (tfields ts) <= String.length s
      | RAtom _ => False
      end.
Proof. exact accepted_rows. Qed.
Print Assumptions C78_accepted_rows.

Example C78_ex :
  json_create wi_date wi_float wj_fac [("items", [RSeq [VStr "a"; int 1; int 2]])] = Raise /\
  json_create wi_date wi_float wj_fac [("items", [RDict [("Nam", VStr "a")]])] = Raise /\
  json_create wi_date wi_float wj_fac [("items", [RAtom VNone])] = Raise /\
  json_create wi_date wi_float wj_fac [("items", []); ("ITEMS", [])] = Raise.
Proof. refine (conj _ (conj _ (conj _ _))); vm_compute; reflexivity. Qed.
