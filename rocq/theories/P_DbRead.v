(** * Property theorems: C161-C163 (what is read from databases). *)
From Coq Require Import ZArith Bool List String Ascii Arith.
From Verif Require Import PyVal PyValFacts PyDict PyStr TypeDict Data FindTypes FK Graph Obj ObjFacts WfCheck Factory InfIO Params Names
  Utils Json Sql Csv Pg PgFacts PgWitness FileDb FileDbWitness InfWitness JsonWitness DbRead.
Import ListNotations.
Local Open Scope string_scope.
Local Open Scope list_scope.

(** ** C161 Postgres *)

(** [shown a db t]: the rows of the table, with an active field [a] those in which it is true. *)
Theorem C161_raises : forall date_of float_of f a db, decl_ok (f_decl f) = true -> NoDup (map fst db) ->
  ((exists e, pg_create date_of float_of f a db = Ret e) <->
   pg_name a = a /\ names_ok f = true /\ no_generics f = true /\ f_gens f = [] /\
   forall t ts pt, In (t, ts) (plain_schema f) -> dget String.eqb db t = Some pt -> forall x, In x (tfields ts) ->
     In (pg_name x) (map c_name (pt_cols pt)) /\
     forall r, In r (shown a db t) -> pg_read_cell date_of float_of f t x (pg_cell pt r (pg_name x)) <> Raise).
Proof. exact pg_read_iff. Qed.
Print Assumptions C161_raises.

(** [rs]: these rows, the cells in the order of the fields and each converted as the types and the flag ask for (C34); [last_rows]: of the rows
    with equal keys the last stays; [adjusted]: parameters get their types (C68). *)
Theorem C161_rows : forall date_of float_of f a db e t ts, decl_ok (f_decl f) = true -> NoDup (map fst db) ->
  pg_create date_of float_of f a db = Ret e -> In (t, ts) (plain_schema f) ->
  exists rs tb, Forall2 (fun r r' => Forall2 (fun x v => pg_read_cell date_of float_of f t x (pg_cell_at db t r x) = Ret v) (tfields ts) r') (shown a db t) rs /\
    last_rows ts rs tb /\ e t = adjusted date_of float_of f t tb.
Proof. exact pg_read_rows. Qed.
Print Assumptions C161_rows.

Example C161_ex : exists e, decl_ok (f_decl wp_fac) = true /\ NoDup (map fst wp_marked) /\ wp_read wp_fac "active" wp_marked = Ret e /\
  In ("parent", mkT ["Code"] ["Cap"; "Day"]) (plain_schema wp_fac) /\
  List.length (shown "" wp_marked "parent") = 3 /\ List.length (shown "active" wp_marked "parent") = 1 /\
  e "parent" = OKeyed [(KAtom (VStr "b"), [int 1; VDate 5])].
Proof.
  eexists. refine (conj _ (conj _ (conj _ (conj _ (conj _ (conj _ _)))))); [vm_compute; reflexivity | | vm_compute; reflexivity | | vm_compute; reflexivity ..].
  - apply (nodup_b_ok String.eqb String.eqb_eq). vm_compute. reflexivity.
  - rewrite wp_plain. simpl. auto.
Qed.

(** ** C162 SQLite and Access *)

(** [get_db_table]: the table of the file for a table (C44, C86). *)
Theorem C162_sql_raises : forall date_of float_of f db, decl_ok (f_decl f) = true ->
  ((exists e, sql_read_file date_of float_of f db = Ret e) <->
   forall t ts, In (t, ts) (plain_schema f) -> get_db_table (map fst db) t = Ret None \/
      exists n dt, get_db_table (map fst db) t = Ret (Some n) /\ find_table db n = Some dt /\ forall x, In x (tfields ts) ->
        has_col dt x = true /\ forall r, In r (dt_rows dt) -> read_data_cell date_of float_of f t x (db_cell dt r x) <> Raise).
Proof. intros date_of float_of f db. apply file_read_iff. Qed.
Print Assumptions C162_sql_raises.

Theorem C162_sql_rows : forall date_of float_of f db e t ts, decl_ok (f_decl f) = true ->
  sql_read_file date_of float_of f db = Ret e -> In (t, ts) (plain_schema f) ->
  exists rs tb, Forall2 (fun r r' => Forall2 (fun x v => read_data_cell date_of float_of f t x (file_cell db t r x) = Ret v) (tfields ts) r') (file_rows db t) rs /\
    last_rows ts rs tb /\ e t = adjusted date_of float_of f t tb.
Proof. intros date_of float_of. apply file_read_rows. Qed.
Print Assumptions C162_sql_rows.

Theorem C162_mdb_raises : forall date_of float_of f db, decl_ok (f_decl f) = true ->
  ((exists e, mdb_read_file date_of float_of f db = Ret e) <->
   forall t ts, In (t, ts) (plain_schema f) -> get_db_table (map fst db) t = Ret None \/
      exists n dt, get_db_table (map fst db) t = Ret (Some n) /\ find_table db n = Some dt /\ forall x, In x (tfields ts) ->
        has_col dt x = true /\ forall r, In r (dt_rows dt) -> general_read date_of float_of f t x (db_cell dt r x) <> Raise).
Proof. intros date_of float_of f db. apply file_read_iff. Qed.
Print Assumptions C162_mdb_raises.

Theorem C162_mdb_rows : forall date_of float_of f db e t ts, decl_ok (f_decl f) = true ->
  mdb_read_file date_of float_of f db = Ret e -> In (t, ts) (plain_schema f) ->
  exists rs tb, Forall2 (fun r r' => Forall2 (fun x v => general_read date_of float_of f t x (file_cell db t r x) = Ret v) (tfields ts) r') (file_rows db t) rs /\
    last_rows ts rs tb /\ e t = adjusted date_of float_of f t tb.
Proof. intros date_of float_of. apply file_read_rows. Qed.
Print Assumptions C162_mdb_rows.

Example C162_ex : exists e, decl_ok (f_decl wp_fac) = true /\ sql_read_file wi_date wi_float wp_fac fw_twice = Ret e /\
  In ("child", mkT ["Code"; "No."] ["Amount"]) (plain_schema wp_fac) /\ List.length (file_rows fw_twice "child") = 6 /\
  e "child" = OKeyed [(KTup [VStr "a"; int 1], [int 4]); (KTup [VBool true; int 1], [int 5]); (KTup [VStr "a"; int 2], [int 3])] /\
  e "parent" = OKeyed [].
Proof.
  eexists. refine (conj _ (conj _ (conj _ (conj _ (conj _ _))))); [vm_compute; reflexivity | vm_compute; reflexivity | | vm_compute; reflexivity ..].
  rewrite wp_plain. simpl. auto.
Qed.

(** ** C163 The setting 'assert' *)

(** The setting is assert, two rows have the same key, and one is dropped without an error: in all three readers the rows are put
    into a dict before the constructor sees them. *)
Theorem C163_refuted : exists date_of float_of f db pt pg e f2 file dt e2 e3,
  decl_ok (f_decl f) = true /\ f_dup f = VStr "assert" /\ db = [("days", pt)] /\ pg = pt_rows pt /\
  pg = [[VStr "2020-01-01"; int 1]; [VStr "2020-01-01"; int 2]] /\
  pg_create date_of float_of f "" db = Ret e /\ e "days" = OKeyed [(KAtom (VDate 5), [int 2])] /\
  decl_ok (f_decl f2) = true /\ f_dup f2 = VStr "assert" /\ file = [("days", dt)] /\ dt_key dt = ["Day"] /\
  dt_rows dt = [[VStr "2020-01-01"; int 1]; [VStr "Jan 1 2020"; int 2]] /\
  sql_read_file date_of float_of f2 file = Ret e2 /\ e2 "days" = OKeyed [(KAtom (VDate 5), [int 2])] /\
  mdb_read_file date_of float_of f2 file = Ret e3 /\ e3 "days" = OKeyed [(KAtom (VDate 5), [int 2])].
Proof.
  exists fw_date, wi_float, fw_days, [("days", mkPT [mkCol "day" CText false None; mkCol "cost" CFloat false None] [] [] [[VStr "2020-01-01"; int 1]; [VStr "2020-01-01"; int 2]])].
  do 3 eexists. exists fw_days, fw_days_db. do 3 eexists.
  refine (conj _ (conj _ (conj eq_refl (conj eq_refl (conj _ (conj _ (conj _ (conj _ (conj _ (conj eq_refl (conj _ (conj _ (conj _ (conj _ (conj _ _))))))))))))))); vm_compute; reflexivity.
Qed.
Print Assumptions C163_refuted.

(** Rows are lost exactly where two keys are equal, whatever the setting. *)
Theorem C163_lost : forall ts rs tb, last_rows ts rs tb ->
  (out_length tb < List.length rs <-> tpk ts <> [] /\ exists i j r r', i < j /\ nth_error rs i = Some r /\ nth_error rs j = Some r' /\ pkey_eqb (key_of ts r) (key_of ts r') = true).
Proof. exact last_rows_lost. Qed.
Print Assumptions C163_lost.

(** The three readers return the same for every setting. *)
Theorem C163_setting : forall date_of float_of f v, decl_ok (f_decl f) = true ->
  let g := with_flags f (f_flag f) (f_xlsx f) v (f_auto f) in
  (forall a db e, NoDup (map fst db) -> pg_create date_of float_of f a db = Ret e ->
     exists e', pg_create date_of float_of g a db = Ret e' /\ forall t ts, In (t, ts) (plain_schema f) -> e' t = e t) /\
  (forall db e, sql_read_file date_of float_of f db = Ret e ->
     exists e', sql_read_file date_of float_of g db = Ret e' /\ forall t ts, In (t, ts) (plain_schema f) -> e' t = e t) /\
  (forall db e, mdb_read_file date_of float_of f db = Ret e ->
     exists e', mdb_read_file date_of float_of g db = Ret e' /\ forall t ts, In (t, ts) (plain_schema f) -> e' t = e t).
Proof.
  intros date_of float_of f v Hd g. refine (conj _ (conj _ _)).
  - intros a db e Hn. now apply pg_read_setting.
  - intros db e. apply file_read_setting; auto.
  - intros db e. apply file_read_setting; auto.
Qed.
Print Assumptions C163_setting.

Example C163_ex : exists e, decl_ok (f_decl fw_days) = true /\ sql_read_file fw_date wi_float fw_days fw_days_db = Ret e /\
  last_rows (mkT ["Day"] ["Cost"]) [[VDate 5; int 1]; [VDate 5; int 2]] (e "days") /\ out_length (e "days") = 1.
Proof.
  eexists. refine (conj _ (conj _ (conj _ _))); [vm_compute; reflexivity | vm_compute; reflexivity | | vm_compute; reflexivity].
  exact (rows_table_last (mkT ["Day"] ["Cost"]) [[VDate 5; int 1]; [VDate 5; int 2]]).
Qed.
