(** * Property theorems: C39, C40, C41, C79, C80 (SQLite). *)
From Coq Require Import ZArith Bool List String Ascii Permutation.
From Verif Require Import PyVal PyDict PyStr TypeDict Data FindTypes Obj ObjFacts ObjMore Factory InfIO InfIOFacts Params Names NamesFacts
  Ampl Json ObjRows TripFacts Sql SqlText SqlFacts SqlMore SqlWitness InfWitness JsonWitness.
Import ListNotations.
Local Open Scope string_scope.
Local Open Scope list_scope.

(** ** C39 String literals *)

(** [denotes l x]: the text [l] is the SQL literal of [x], every quote doubled
    between two quotes.  The literal written for ['] denotes no string at all;
    the one written for [''] denotes [']. *)
Theorem C39_refuted : forall show_num show_date,
  (forall x, ~ denotes (insert_format show_num show_date (VStr "'")) x) /\
  denotes (insert_format show_num show_date (VStr "''")) (txt "'").
Proof.
  intros sn sd. split; [| reflexivity]. intros x H. unfold denotes in H. cbn in H. injection H as H.
  change ([quote] ++ [quote] = double x ++ [quote]) in H. apply app_inj_tail in H as [H _].
  destruct x as [| c x]; [discriminate |]. simpl in H. destruct (is_quote c) eqn:E; [discriminate |]. injection H as <- _. discriminate.
Qed.
Print Assumptions C39_refuted.

(** Exactly the strings with two adjacent quotes, or with quotes at both ends,
    are written wrongly. *)
Theorem C39_exact : forall show_num show_date s,
  denotes (insert_format show_num show_date (VStr s)) (txt s) <->
  ~ ((exists a b, txt s = a ++ quote :: quote :: b) \/ ((exists b, txt s = quote :: b) /\ exists a, txt s = a ++ [quote])).
Proof. exact literal_iff. Qed.
Print Assumptions C39_exact.

(** A literal denotes at most one string. *)
Theorem C39_one_meaning : forall l x y, denotes l x -> denotes l y -> x = y.
Proof. exact denotes_fun. Qed.
Print Assumptions C39_one_meaning.

Example C39_ex : denotes (insert_format ws_num ws_show (VStr "it's 5 o'clock'")) (txt "it's 5 o'clock'") /\
  insert_format ws_num ws_show (VStr "it's 5 o'clock'") = txt "'it''s 5 o''clock'''".
Proof. split; vm_compute; reflexivity. Qed.

(** ** C40 Conversion of cells *)

(** [converted]: True and False become strings, other cells go through
    [_infinity_flag_write_cell].  A table without primary key is written raw. *)
Theorem C40_refuted : exists date_of f (d : obj) rows,
  decl_ok (f_decl f) = true /\ In ("log", mkT [] ["What"; "Amount"]) (plain_schema f) /\ f_flag f = wi_big /\
  out_rows date_of f "log" (mkT [] ["What"; "Amount"]) (d "log") = Ret rows /\
  In [VBool true; VNum PInf] rows /\
  ~ Forall2 (row_converted date_of f "log" (mkT [] ["What"; "Amount"])) (full_rows (d "log")) rows.
Proof.
  exists wi_date, ws_fac, ws_raw, [[VBool true; VNum PInf]].
  refine (conj _ (conj _ (conj _ (conj _ (conj _ _))))).
  - vm_compute; reflexivity.
  - rewrite ws_plain. simpl. auto.
  - vm_compute; reflexivity.
  - vm_compute; reflexivity.
  - simpl. auto.
  - intros H. inversion H as [| ? ? ? ? H1 _]; subst. inversion H1 as [| ? ? ? ? H2 _]; subst. discriminate H2.
Qed.
Print Assumptions C40_refuted.

Theorem C40_keyed_tables : forall date_of f t ts tb rows, table_ok ts tb -> tpk ts <> [] ->
  (out_rows date_of f t ts tb = Ret rows <-> Forall2 (row_converted date_of f t ts) (full_rows tb) rows).
Proof. intros date_of f. exact (keyed_rows_converted date_of (fun _ => None) (fun _ => []) (fun _ => None) f). Qed.
Print Assumptions C40_keyed_tables.

(** Without a key it is right exactly if no cell needs a conversion. *)
Theorem C40_listed_tables : forall date_of f t ts l rows, table_ok ts (OListed l) -> out_rows date_of f t ts (OListed l) = Ret rows ->
  (Forall2 (row_converted date_of f t ts) l rows <->
   forall r x v, In r l -> In (x, v) (combine (tfields ts) r) -> converted date_of f t x v v).
Proof. exact listed_rows_raw. Qed.
Print Assumptions C40_listed_tables.

Example C40_ex : table_ok (mkT ["Name"] ["Cost"; "Cap"; "Day"]) (ws_keyed "items") /\
  out_rows wi_date ws_fac "items" (mkT ["Name"] ["Cost"; "Cap"; "Day"]) (ws_keyed "items") = Ret [[VStr "k"; VStr "True"; wi_big; VNone]].
Proof.
  split; [| vm_compute; reflexivity]. unfold table_ok. simpl. intros k r [E | []]. injection E as <- <-. simpl. auto.
Qed.

(** ** C41 Files *)

(** One row is written, and reading it executes a statement found inside one of
    its cells. *)
Theorem C41_refuted : exists date_of show_num show_date f d stmt,
  decl_ok (f_decl f) = true /\ obj_ok (plain_schema f) d /\
  data_sql date_of show_num show_date f d = Ret [stmt] /\
  split_semi (sql_file [stmt]) =
    [txt "INSERT INTO [items] ([Name],[Cost],[Cap],[Day]) VALUES ('',0,0,0)"; txt "Delete from [items]";
     txt "--''',0,0,null)"; [newline]].
Proof.
  exists wi_date, ws_num, ws_show, ws_fac, ws_evil. eexists.
  refine (conj _ (conj _ (conj _ _))); [vm_compute; reflexivity | | vm_compute; reflexivity | vm_compute; reflexivity].
  rewrite ws_plain. intros t ts [E | [E | [E | []]]]; injection E as <- <-; unfold table_ok; simpl; intros;
    repeat match goal with H : _ \/ _ |- _ => destruct H as [H | H] | H : False |- _ => destruct H | H : (_, _) = (_, _) |- _ => injection H as <- <- end; simpl; auto.
Qed.
Print Assumptions C41_refuted.

(** The pieces read are the statements written ([as_read]: with the line breaks
    between them) exactly if no statement contains a semicolon of its own. *)
Theorem C41_exact : forall date_of show_num show_date f d stmts, obj_ok (plain_schema f) d ->
  (forall t ts, In (t, ts) (plain_schema f) -> no_percent (txt t) /\ forall x, In x (tfields ts) -> no_percent (txt x)) ->
  data_sql date_of show_num show_date f d = Ret stmts ->
  exists bodies, stmts = map (fun b => b ++ [semi]) bodies /\
    (split_semi (sql_file stmts) = as_read bodies <-> forall b, In b bodies -> ~ In semi b) /\
    (forall b, In b bodies -> exists t ts rows r, In (t, ts) (plain_schema f) /\ out_rows date_of f t ts (d t) = Ret rows /\ In r rows /\
       b = insert_text t (tfields ts) (map (insert_format show_num show_date) r)).
Proof. exact file_read. Qed.
Print Assumptions C41_exact.

Theorem C41_no_semicolons : forall date_of show_num show_date f d stmts, obj_ok (plain_schema f) d ->
  (forall z, ~ In semi (show_num z)) -> (forall z, ~ In semi (show_date z)) ->
  (forall t ts x, In (t, ts) (plain_schema f) -> x = t \/ In x (tfields ts) -> no_percent (txt x) /\ ~ In semi (txt x)) ->
  (forall t ts rows r s, In (t, ts) (plain_schema f) -> out_rows date_of f t ts (d t) = Ret rows -> In r rows -> In (VStr s) r ->
     ~ In semi (txt s)) ->
  data_sql date_of show_num show_date f d = Ret stmts ->
  exists bodies, stmts = map (fun b => b ++ [semi]) bodies /\ split_semi (sql_file stmts) = as_read bodies.
Proof. exact file_without_semicolons. Qed.
Print Assumptions C41_no_semicolons.

Example C41_ex : obj_ok (plain_schema ws_fac) ws_obj /\ exists stmts, data_sql wi_date ws_num ws_show ws_fac ws_obj = Ret stmts /\
  List.length stmts = 5 /\ nth 3 stmts [] = txt "INSERT INTO [log] ([What],[Amount]) VALUES ('it''s',0);" /\
  nth 3 (split_semi (sql_file stmts)) [] = newline :: txt "INSERT INTO [log] ([What],[Amount]) VALUES ('it''s',0)".
Proof. split; [apply ws_obj_ok |]. eexists. refine (conj _ (conj _ (conj _ _))); vm_compute; reflexivity. Qed.

(** ** C79 Names in statements *)

(** The names become part of a format string: a percent sign raises an
    exception, or changes the name. *)
Theorem C79_refuted : exists date_of show_num show_date d,
  (exists f, plain_schema f = [("items", mkT [] ["Growth %"])] /\ decl_ok (f_decl f) = true /\ obj_ok (plain_schema f) d /\
     data_sql date_of show_num show_date f d = Raise) /\
  (exists f, plain_schema f = [("items", mkT [] ["50%%"])] /\ decl_ok (f_decl f) = true /\ obj_ok (plain_schema f) d /\
     data_sql date_of show_num show_date f d = Ret [txt "INSERT INTO [items] ([50%]) VALUES (0);"]).
Proof.
  exists wi_date, ws_num, ws_show, ws_one. split; [exists (ws_percent "Growth %") | exists (ws_percent "50%%")];
    (refine (conj _ (conj _ (conj _ _))); [vm_compute; reflexivity | vm_compute; reflexivity | | vm_compute; reflexivity]);
    intros t ts H; vm_compute in H; destruct H as [E | []]; injection E as <- <-; unfold table_ok; simpl; intros r [<- | []]; reflexivity.
Qed.
Print Assumptions C79_refuted.

(** Otherwise each row is written as the insertion of its literals under the
    names of the fields. *)
Theorem C79_other_names : forall show_num show_date date_of f d, obj_ok (plain_schema f) d ->
  (forall t ts, In (t, ts) (plain_schema f) -> no_percent (txt t) /\ forall x, In x (tfields ts) -> no_percent (txt x)) ->
  data_sql date_of show_num show_date f d =
  bindO (mapO (fun tts => bindO (out_rows date_of f (fst tts) (snd tts) (d (fst tts))) (fun rows =>
            Ret (map (fun r => insert_text (fst tts) (tfields (snd tts)) (map (insert_format show_num show_date) r) ++ [semi]) rows)))
           (plain_schema f))
    (fun l => Ret (List.concat l)).
Proof. exact data_sql_text. Qed.
Print Assumptions C79_other_names.

Example C79_ex : (forall t ts, In (t, ts) (plain_schema ws_fac) -> no_percent (txt t) /\ forall x, In x (tfields ts) -> no_percent (txt x)) /\
  exists stmts, data_sql wi_date ws_num ws_show ws_fac ws_obj = Ret stmts /\
    nth 1 stmts [] = txt "INSERT INTO [items] ([Name],[Cost],[Cap],[Day]) VALUES ('b',0,0,'2020-01-01');".
Proof.
  split.
  - rewrite ws_plain. intros t ts [E | [E | [E | []]]]; injection E as <- <-; (split; [now apply no_percent_b |]);
      intros x H; simpl in H; repeat destruct H as [<- | H]; try contradiction; now apply no_percent_b.
  - eexists. split; vm_compute; reflexivity.
Qed.

(** ** C80 Databases *)

(** The key "7" survives; the same string in a column with a numeric default
    comes back as a number, and True in a table without key as 1. *)
Theorem C80_refuted : exists date_of float_of show_date sql_number f d db e,
  decl_ok (f_decl f) = true /\ f_types f = [] /\ f_flag f = VStr "N/A" /\
  write_db date_of show_date sql_number f d = Ret db /\ sql_create date_of float_of f db = Ret e /\
  d "items" = OKeyed [(KAtom (VStr "7"), [VStr "7"; int 0; VNone])] /\ e "items" = OKeyed [(KAtom (VStr "7"), [int 7; int 0; VNone])] /\
  d "log" = OListed [[VStr "x"; VBool true]] /\ e "log" = OListed [[VStr "x"; int 1]].
Proof.
  exists wi_date, wi_float, ws_show, ws_number, ws_f0, ws_digits. eexists. eexists.
  refine (conj _ (conj _ (conj _ (conj _ (conj _ (conj _ (conj _ (conj _ _)))))))); vm_compute; reflexivity.
Qed.
Print Assumptions C80_refuted.

(** If every cell comes back ([db_trip]: converted if the table has a key,
    bound, stored and read) then so does the object, whatever the order in which
    SQLite returns the rows ([db_like]); in particular the keys do not collide
    in the database. *)
Theorem C80_round_trip : forall date_of float_of show_date sql_number f d, decl_ok (f_decl f) = true ->
  obj_ok (plain_schema f) d -> obj_keys (plain_schema f) d -> proper_keys (plain_schema f) d ->
  cells_kept f (db_trip date_of float_of show_date sql_number f) d ->
  params_kept date_of float_of f (db_trip date_of float_of show_date sql_number f) d ->
  exists db, write_db date_of show_date sql_number f d = Ret db /\
    forall db', db_like db db' ->
      exists e, sql_create date_of float_of f db' = Ret e /\ forall t ts, In (t, ts) (plain_schema f) -> reordered (e t) (d t).
Proof. exact db_round_trip. Qed.
Print Assumptions C80_round_trip.

(** The cells that come back: with a key, those that come back through the
    infinity flag (C34), if what is written is neutral (neither spelled like
    inf, true or false, nor a number in a column with a numeric default). *)
Theorem C80_keyed_cells : forall date_of float_of show_date sql_number f t ts x v u, tpk ts <> [] -> (forall b, v <> VBool b) ->
  fst (write_cell date_of (mkIO f []) t x v) = Ret u -> fst (read_cell date_of float_of (mkIO f []) t x u) = Ret v ->
  neutral sql_number f t ts x u -> db_trip date_of float_of show_date sql_number f t ts x v v.
Proof. exact keyed_cell. Qed.
Print Assumptions C80_keyed_cells.

Theorem C80_keyed_booleans : forall date_of float_of show_date sql_number f t ts x b, tpk ts <> [] ->
  sql_number "True" = None -> sql_number "False" = None -> db_trip date_of float_of show_date sql_number f t ts x (VBool b) (VBool b).
Proof. exact keyed_bool. Qed.
Print Assumptions C80_keyed_booleans.

Theorem C80_dates : forall date_of float_of show_date sql_number f t ts x d dt,
  is_table f t = true -> t <> "parameters" -> field_type f t x = Some dt -> datetime dt = true ->
  let s := string_of_list_ascii (show_date d) in
  ~ In (lower s) special -> sql_number s = None -> date_of (VStr s) = Some d ->
  fst (write_cell date_of (mkIO f []) t x (VDate d)) = Ret (VDate d) ->
  db_trip date_of float_of show_date sql_number f t ts x (VDate d) (VDate d).
Proof. exact date_cell. Qed.
Print Assumptions C80_dates.

(** Without a key, those that reading leaves alone. *)
Theorem C80_listed_cells : forall date_of float_of show_date sql_number f t ts x v, tpk ts = [] ->
  fst (read_cell date_of float_of (mkIO f []) t x v) = Ret v -> neutral sql_number f t ts x v ->
  db_trip date_of float_of show_date sql_number f t ts x v v.
Proof. exact listed_cell. Qed.
Print Assumptions C80_listed_cells.

(** The cells that do not: NaN is read as None is. *)
Theorem C80_nan : forall date_of float_of show_date sql_number f t ts x w, t <> "parameters" -> f_flag f <> VNone ->
  db_trip date_of float_of show_date sql_number f t ts x VNaN w -> fst (read_cell date_of float_of (mkIO f []) t x VNone) = Ret w.
Proof. exact nan_lost. Qed.
Print Assumptions C80_nan.

Example C80_ex :
  cells_kept ws_fac (db_trip wi_date wi_float ws_show ws_number ws_fac) ws_obj /\
  params_kept wi_date wi_float ws_fac (db_trip wi_date wi_float ws_show ws_number ws_fac) ws_obj /\
  obj_ok (plain_schema ws_fac) ws_obj /\ obj_keys (plain_schema ws_fac) ws_obj /\ proper_keys (plain_schema ws_fac) ws_obj /\
  db_like ws_db ws_moved /\ write_db wi_date ws_show ws_number ws_fac ws_obj = Ret ws_db /\
  dget String.eqb ws_db "items" = Some [[VStr "b"; int 3; wi_big; VStr "2020-01-01"]; [VStr "a"; VStr "True"; int 999; VStr "2020-01-01"]] /\
  exists e, sql_create wi_date wi_float ws_fac ws_moved = Ret e /\
    e "items" = OKeyed [(KAtom (VStr "a"), [VBool true; int 999; VDate 5]); (KAtom (VStr "b"), [int 3; VNum PInf; VDate 5])].
Proof.
  refine (conj ws_cells (conj ws_params (conj (proj1 ws_obj_ok) (conj (proj1 (proj2 ws_obj_ok)) (conj (proj2 (proj2 ws_obj_ok)) (conj ws_like _)))))).
  refine (conj _ (conj _ _)); [vm_compute; reflexivity | vm_compute; reflexivity |]. eexists. split; vm_compute; reflexivity.
Qed.
