(** * Property theorems: C164, C165 (the text of an SQLite schema). *)
From Coq Require Import ZArith Bool List String Ascii Arith Permutation.
From Verif Require Import PyVal PyDict PyStr TypeDict Data FindTypes FK FKFacts Graph GraphFacts Obj ObjFacts ObjMore WfCheck Factory InfIO InfIOFacts
  Params Names NamesFacts Ampl Json ObjRows TripFacts Sql SqlText SqlFacts SqlMore InfWitness JsonWitness SqlWitness Pg PgFacts PgWitness
  FileDb FileDbFacts FileDbWitness SqlSchema SqlRead SqlSchemaFacts SqlSchemaMore SqlSchemaWitness.
Import ListNotations.
Local Open Scope string_scope.
Local Open Scope list_scope.

(** ** C164 The statements declare the factory *)

(** Two native fields that refer to one foreign field: the statement of the
    native table declares the foreign key without the first of them. *)
Theorem C164_refuted : forall show, exists f ts k g rt, f = wp_twin /\ decl_ok (f_decl f) = true /\
  In ("link", ts) (plain_schema f) /\ f_fks f = [k] /\ fk_native k = "link" /\ map fst (fk_map k) = ["Tail"; "Head"] /\
  schema_sql show (fun l => l) f ["link"] = Ret [table_sql show (fun l => l) f "link" ts] /\
  read_create (table_sql show (fun l => l) f "link" ts) = Some rt /\ rt_fks rt = [g] /\ rf_native g = [txt "Head"].
Proof.
  intros show. exists wp_twin, (mkT ["Tail"; "Head"] []), (mkFk "link" "node" [("Tail", "Name"); ("Head", "Name")]).
  eexists. eexists. repeat split; try (vm_compute; reflexivity). vm_compute. auto.
Qed.
Print Assumptions C164_refuted.

(** A name with a bracket: one field, two columns. *)
Theorem C164_bracket_refuted : exists ts rt, In ("items", ts) (plain_schema sc_close) /\ decl_ok (f_decl sc_close) = true /\
  List.length (tfields ts) = 1 /\ read_create (table_sql sc_show (fun l => l) sc_close "items" ts) = Some rt /\
  map rc_name (rt_cols rt) = [txt "x"; txt "y"].
Proof. exists (mkT [] ["x], [y"]). eexists. refine (conj _ (conj _ (conj _ (conj _ _)))); try (vm_compute; reflexivity). vm_compute. auto. Qed.
Print Assumptions C164_bracket_refuted.

(** Otherwise there is one statement per table, after those of the tables it
    refers to, and a reader of SQL finds in it ([says]) the name of the table,
    its fields in order, its primary key, its foreign keys and no others, and for
    each data field the type [declared_type] and the default. *)
Theorem C164_schema : forall show order f, (forall l, Permutation (order l) l) ->
  decl_ok (f_decl f) = true -> acyclic (f_fks f) -> fks_within (f_fks f) (map fst (plain_schema f)) ->
  (forall t ts, In (t, ts) (plain_schema f) -> tfields ts <> []) -> closed_names show f -> one_to_one_fks f ->
  exists l stmts, schema_sql show order f (map fst (plain_schema f)) = Ret stmts /\ Permutation l (map fst (plain_schema f)) /\
    (forall t u, In t l -> edge (f_fks f) t u -> before l u t) /\
    Forall2 (fun t s => exists ts rt, In (t, ts) (plain_schema f) /\ read_create s = Some rt /\ says show f t ts rt) l stmts.
Proof. intros show order f Ho. now apply schema_says. Qed.
Print Assumptions C164_schema.

Example C164_ex : decl_ok (f_decl wp_fac) = true /\ acyclic (f_fks wp_fac) /\ fks_within (f_fks wp_fac) (map fst (plain_schema wp_fac)) /\
  (forall t ts, In (t, ts) (plain_schema wp_fac) -> tfields ts <> []) /\ closed_names sc_show wp_fac /\ one_to_one_fks wp_fac /\
  read_create (table_sql sc_show (fun l => l) wp_fac "child" (mkT ["Code"; "No."] ["Amount"])) =
    Some (mkRT (txt "child") [mkRC (txt "Code") [] None; mkRC (txt "No.") [] None; mkRC (txt "Amount") (txt "INT") (Some (txt "0"))]
            [mkRF [txt "Code"] (txt "parent") [txt "Code"]] [txt "Code"; txt "No."]) /\
  declared_type wp_fac "log" "What" "" /\ declared_type wp_fac "parameters" "Value" "".
Proof.
  refine (conj _ (conj fw_acyclic (conj wp_within (conj _ (conj _ (conj sc_fks (conj _ (conj _ _)))))))).
  - vm_compute; reflexivity.
  - rewrite wp_plain. intros t ts H. destruct H as [E | [E | [E | [E | []]]]]; injection E as <- <-; discriminate.
  - exact sc_closed.
  - vm_compute; reflexivity.
  - assert (cell_default (f_defaults wp_fac) "log" "What" = VStr "it''s") as E by (vm_compute; reflexivity).
    apply dy_other; rewrite E; [intros n; discriminate | discriminate].
  - apply dy_param; [reflexivity | vm_compute; reflexivity].
Qed.

(** ** C165 A file with schema and data is cut into the statements written *)

(** A default with a semicolon: three pieces for one statement, and the first is
    no CREATE statement that can be read. *)
Theorem C165_refuted : forall date_of show_num show_date, exists f d x stmt a b, f = sc_semi /\ decl_ok (f_decl f) = true /\
  obj_ok (plain_schema f) d /\ schema_sql sc_show (fun l => l) f (map fst (plain_schema f)) = Ret [stmt] /\
  data_sql date_of show_num show_date f d = Ret [] /\
  sql_text sc_show (fun l => l) date_of show_num show_date f true d = Ret x /\
  split_semi x = [a; b; [newline]] /\ read_create a = None.
Proof.
  intros date_of show_num show_date. exists sc_semi, sc_obj. do 4 eexists.
  repeat split; try (vm_compute; reflexivity).
  intros t ts H. vm_compute in H. destruct H as [E | []]. injection E as <- <-. unfold table_ok. simpl. intros k r [].
Qed.
Print Assumptions C165_refuted.

(** The pieces are the statements of the schema (none when it is not asked for)
    and then those of the data, exactly when none of these has a semicolon inside. *)
Theorem C165_exact : forall show order date_of show_num show_date f inc d x, obj_ok (plain_schema f) d ->
  (forall t ts, In (t, ts) (plain_schema f) -> no_percent (txt t) /\ forall y, In y (tfields ts) -> no_percent (txt y)) ->
  sql_text show order date_of show_num show_date f inc d = Ret x ->
  exists schema data, schema_sql show order f (if inc then map fst (plain_schema f) else []) = Ret (map (fun b => b ++ [semi]) schema) /\
    data_sql date_of show_num show_date f d = Ret (map (fun b => b ++ [semi]) data) /\
    (split_semi x = as_read (schema ++ data) <-> forall b, In b (schema ++ data) -> ~ In semi b).
Proof. exact sql_text_read. Qed.
Print Assumptions C165_exact.

(** So it is when names, defaults and cells have no semicolon. *)
Theorem C165_no_semicolons : forall show order, (forall l, Permutation (order l) l) ->
  forall date_of show_num show_date f inc d x, decl_ok (f_decl f) = true -> obj_ok (plain_schema f) d ->
  (forall z, ~ In semi (show_num z)) -> (forall z, ~ In semi (show_date z)) ->
  (forall k, In k (f_fks f) -> wf_fk (plain_schema f) k) ->
  (forall t ts, In (t, ts) (plain_schema f) -> no_percent (txt t) /\ forall y, In y (tfields ts) -> no_percent (txt y)) ->
  semi_free_names show f ->
  (forall t ts rows r s, In (t, ts) (plain_schema f) -> out_rows date_of f t ts (d t) = Ret rows -> In r rows -> In (VStr s) r ->
     ~ In semi (txt s)) ->
  sql_text show order date_of show_num show_date f inc d = Ret x ->
  exists schema data, schema_sql show order f (if inc then map fst (plain_schema f) else []) = Ret (map (fun b => b ++ [semi]) schema) /\
    data_sql date_of show_num show_date f d = Ret (map (fun b => b ++ [semi]) data) /\ split_semi x = as_read (schema ++ data).
Proof. exact sql_text_whole. Qed.
Print Assumptions C165_no_semicolons.

(** The schema is written when it is asked for, and the data always. *)
Theorem C165_returns : forall show order date_of show_num show_date f inc d x,
  sql_text show order date_of show_num show_date f inc d = Ret x <->
  exists s l, schema_sql show order f (if inc then map fst (plain_schema f) else []) = Ret s /\
    data_sql date_of show_num show_date f d = Ret l /\ x = flat_map (fun b => b ++ [newline]) (s ++ l) /\ (inc = false -> s = []).
Proof.
  intros show order date_of show_num show_date f inc d x. unfold sql_text. split.
  - intros H. apply bindO_ret in H as (s & Es & H). apply bindO_ret in H as (l & El & E). injection E as <-. exists s, l. split; [exact Es |]. split; [exact El |]. split; [reflexivity |].
    intros ->. destruct (schema_bodies show order f _ _ Es) as (tl & -> & Htl). destruct tl as [| t tl]; [reflexivity |]. destruct (Htl t). now left.
  - intros (s & l & -> & H & -> & _). cbn [bindO]. rewrite H. reflexivity.
Qed.
Print Assumptions C165_returns.

Example C165_ex : obj_ok (plain_schema wp_fac) wp_obj /\ (forall k, In k (f_fks wp_fac) -> wf_fk (plain_schema wp_fac) k) /\
  semi_free_names sc_show wp_fac /\
  exists x, sql_text sc_show (fun l => l) wi_date ws_num ws_show wp_fac true wp_obj = Ret x /\ List.length (split_semi x) = 12 /\
    nth 2 (split_semi x) [] = newline :: table_body sc_show (fun l => l) wp_fac "child" (mkT ["Code"; "No."] ["Amount"]).
Proof.
  split; [apply wp_ok |]. split; [intros k Hk; now apply sc_fks |]. split; [exact sc_semi_free |].
  eexists. refine (conj _ (conj _ _)); vm_compute; reflexivity.
Qed.
