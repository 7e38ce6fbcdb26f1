(** * Properties of the Postgres reader and writer for PanDat objects (C110-C113). *)
From Coq Require Import ZArith Bool List String Arith Lia Permutation.
From Verif Require Import PyVal PyValFacts PyDict PyDictFacts PyStr TypeDict Data FindTypes FK Graph Obj Factory GraphFacts InfIO InfIOFacts Params ParamsFacts Names NamesFacts Utils Json
  JsonWitness Frames PanIO PanRead PanJson Pg PgFacts PgWrite PgTrip PgMore PgPan PgPanFacts PgPanTrip InfWitness PgWitness PgPanWitness.
Import ListNotations.
Local Open Scope string_scope.
Local Open Scope list_scope.

(** ** C110 Round trip *)

(** [row_stays]: each column holds what goes in for the cell, and reading leaves the cell alone.  Then the rows read are
    those written in some order, nulls of any kind for nulls; in whatever order the database returns them, with or without the active field. *)
Theorem C110_round_trip : forall date_of float_of settle str_of pg_text pg_num pg_stamp pg_bool pg_int pg_float pg_other f auto go pre active active' d db db2 db3,
  decl_ok (f_decl f) = true -> fks_within (f_fks f) (map fst (plain_schema f)) -> good_flag (f_flag f) = true -> params_shape f -> db_wf db ->
  (forall i, go i = true) ->
  (forall t ts, In (t, ts) (plain_schema f) -> deleted pre t = true) ->
  (active = "" \/ forall t ts x, In (t, ts) (plain_schema f) -> In x (tfields ts) -> pg_name x <> active) ->
  (active' = "" \/ active' = active /\ forall t pt c, dget String.eqb db t = Some pt -> In c (pt_cols pt) -> c_name c = active -> c_type c = CBool) ->
  (forall t ts r, In (t, ts) (plain_schema f) -> In r (d t) ->
     row_stays date_of float_of pg_text pg_num pg_stamp pg_bool pg_int pg_float pg_other f db t ts r) ->
  pan_write_data date_of pg_text pg_num pg_stamp pg_bool pg_int pg_float pg_other f auto go pre active d db = (true, db2) ->
  NoDup (map fst db3) -> same_rows db2 db3 ->
  (forall t ts k, In (t, ts) (plain_schema f) -> gentle settle (Frames.column (selected active' db3 t ts) k)) ->
  exists e, pan_pg_create date_of float_of settle str_of f active' db3 = Ret e /\
    forall t ts, In (t, ts) (plain_schema f) -> exists l, Permutation (d t) l /\ Forall2 (Forall2 alike) l (e t).
Proof.
  intros date_of float_of settle str_of pg_text pg_num pg_stamp pg_bool pg_int pg_float pg_other f auto go pre active active' d db db2 db3 Hd Hw.
  exact (pan_pg_round_trip date_of float_of settle str_of pg_text pg_num pg_stamp pg_bool pg_int pg_float pg_other f Hd Hw auto go pre active active' d db db2 db3).
Qed.
Print Assumptions C110_round_trip.

Example C110_ex : exists e,
  decl_ok (f_decl wp_fac) = true /\ fks_within (f_fks wp_fac) (map fst (plain_schema wp_fac)) /\ good_flag (f_flag wp_fac) = true /\ params_shape wp_fac /\ db_wf wp_marked /\
  (forall t ts r, In (t, ts) (plain_schema wp_fac) -> In r (wp_frames t) -> wp_stays wp_fac wp_marked t ts r) /\
  wp_pan_write wp_fac false wp_on [] "active" wp_frames wp_marked = (true, wp_pan_full) /\
  NoDup (map fst wp_pan_moved) /\ same_rows wp_pan_full wp_pan_moved /\
  (forall l, gentle (fun l => l) l) /\
  wp_pan_read wp_fac "active" wp_pan_moved = Ret e /\
  e "parent" = [[VStr "a"; int 999; VDate 6]; [VStr "b"; VNum PInf; VDate 5]] /\
  e "log" = [[VStr "it's"; VNone]; [VStr "it's"; int 1]] /\
  e "parameters" = [[VStr "Big"; int 7]].
Proof.
  eexists. refine (conj _ (conj wp_within (conj _ (conj wp_shape (conj wp_marked_wf (conj wp_rows_stay (conj wp_pan_written
    (conj (proj1 wp_pan_same) (conj (proj2 wp_pan_same) (conj gentle_id (conj _ (conj _ (conj _ _))))))))))))); vm_compute; reflexivity.
Qed.

(** ** C111 What is in the database after a call that returns *)

(** Tables are uploaded parents first.  If [progress] never says stop ([go]) every table has its old rows, or none if it was to be
    deleted, and then one row for each row of data.  If it says stop, so do the tables up to this one; those after it have lost the rows deleted
    and got no new ones, and the call returns all the same. *)
Theorem C111_written : forall date_of pg_text pg_num pg_stamp pg_bool pg_int pg_float pg_other f auto go pre active d db db',
  decl_ok (f_decl f) = true -> fks_within (f_fks f) (map fst (plain_schema f)) -> good_flag (f_flag f) = true -> db_wf db -> rows_fit f d ->
  pan_write_data date_of pg_text pg_num pg_stamp pg_bool pg_int pg_float pg_other f auto go pre active d db = (true, db') ->
  names_ok f = true /\ pg_name active = active /\
  exists l1 l2, ordered_tables f = l1 ++ l2 /\
    (forall j, S j < List.length l1 -> go j = true) /\
    (l2 <> [] -> exists k, List.length l1 = S k /\ go k = false) /\
    (forall t ts, In (t, ts) (plain_schema f) -> exists pt rows,
       dget String.eqb db t = Some pt /\ (forall x, In x (tfields ts) -> In (pg_name x) (map c_name (pt_cols pt))) /\
       dget String.eqb db' t = Some (with_rows pt ((if deleted pre t then [] else pt_rows pt) ++ rows)) /\
       (In t l1 -> Forall2 (stores date_of pg_text pg_num pg_stamp pg_bool pg_int pg_float pg_other f active t ts pt) (d t) rows) /\
       (In t l2 -> rows = [])) /\
    forall t, ~ In t (map fst (plain_schema f)) -> dget String.eqb db' t = dget String.eqb db t.
Proof.
  intros date_of pg_text pg_num pg_stamp pg_bool pg_int pg_float pg_other f auto go pre active d db db' Hd Hw.
  exact (pan_write_ok date_of pg_text pg_num pg_stamp pg_bool pg_int pg_float pg_other f Hd Hw auto go pre active d db db').
Qed.
Print Assumptions C111_written.

(** The stop comes after parents: children and log had rows and are left empty. *)
Example C111_ex : exists db' p,
  rows_fit wp_fac wp_frames /\ wp_pan_write wp_fac false wp_stop [] "active" wp_frames wp_pan_full = (true, db') /\
  dget String.eqb db' "parent" = Some p /\
  pt_rows p = [[VStr "b"; int 1000; VDate 5; VBool true]; [VStr "a"; int 999; VDate 6; VBool true]] /\
  map (fun t => match dget String.eqb wp_pan_full t with Some pt => List.length (pt_rows pt) | None => 0 end) (ordered_tables wp_fac) = [1; 2; 2; 2] /\
  map (fun t => match dget String.eqb db' t with Some pt => List.length (pt_rows pt) | None => 0 end) (ordered_tables wp_fac) = [1; 2; 0; 0].
Proof. do 2 eexists. refine (conj wp_fit (conj _ (conj _ (conj _ (conj _ _))))); vm_compute; reflexivity. Qed.

(** ** C112 A call that raises *)

(** A child without a parent: the call raises, and the tables have been emptied. *)
Theorem C112_refuted : exists date_of pg_text pg_num pg_stamp pg_bool pg_int pg_float pg_other f d db db' pt,
  decl_ok (f_decl f) = true /\ fks_within (f_fks f) (map fst (plain_schema f)) /\ db_wf db /\ rows_fit f d /\
  pan_write_data date_of pg_text pg_num pg_stamp pg_bool pg_int pg_float pg_other f false (fun _ => true) [] "" d db = (false, db') /\
  dget String.eqb db "parent" = Some pt /\ List.length (pt_rows pt) = 2 /\
  dget String.eqb db' "parent" = Some (with_rows pt []).
Proof.
  exists wi_date, wp_text, wp_num, wp_stamp, wp_bool, wp_int, wp_float, wp_other, wp_fac, wp_orphan, wp_pan_full. do 2 eexists.
  refine (conj _ (conj wp_within (conj _ (conj _ (conj _ (conj _ (conj _ _))))))).
  1,4-7: vm_compute; reflexivity.
  - apply db_wf_ok. vm_compute. reflexivity.
  - intros t ts r Hin Hr. rewrite wp_plain in Hin. destruct Hin as [E | [E | [E | [E | []]]]]; injection E as <- <-; simpl in Hr; try contradiction.
    destruct Hr as [<- | []]. reflexivity.
Qed.
Print Assumptions C112_refuted.

(** This is all that can go wrong: tables of others are untouched, tables not to be deleted keep their rows, and
    without autocommit nothing is added. *)
Theorem C112_failure : forall date_of pg_text pg_num pg_stamp pg_bool pg_int pg_float pg_other f auto go pre active d db db',
  decl_ok (f_decl f) = true -> fks_within (f_fks f) (map fst (plain_schema f)) ->
  pan_write_data date_of pg_text pg_num pg_stamp pg_bool pg_int pg_float pg_other f auto go pre active d db = (false, db') ->
  forall t, match dget String.eqb db t with
            | None => dget String.eqb db' t = None
            | Some pt => exists rows, dget String.eqb db' t = Some (with_rows pt rows) /\
                (auto = false -> rows = pt_rows pt \/ rows = [] /\ deleted pre t = true /\ In t (map fst (plain_schema f))) /\
                (~ In t (map fst (plain_schema f)) -> rows = pt_rows pt) /\
                (deleted pre t = false -> exists new, rows = pt_rows pt ++ new)
            end.
Proof.
  intros date_of pg_text pg_num pg_stamp pg_bool pg_int pg_float pg_other f auto go pre active d db db' Hd Hw.
  exact (pan_write_fails date_of pg_text pg_num pg_stamp pg_bool pg_int pg_float pg_other f Hd Hw auto go pre active d db db').
Qed.
Print Assumptions C112_failure.

(** The parents are kept. *)
Example C112_ex : exists db',
  wp_pan_write wp_fac false wp_on [("parent", "append"); ("child", "append")] "" wp_orphan wp_pan_full = (false, db') /\
  map (fun t => match dget String.eqb db' t with Some pt => List.length (pt_rows pt) | None => 0 end) ("old" :: ordered_tables wp_fac) = [1; 0; 2; 2; 0].
Proof. eexists. split; vm_compute; reflexivity. Qed.

(** ** C113 Reading *)

(** Refused exactly if the name of the active field or a name of the schema is none for Postgres, a table is there without the column of a field,
    or nulls stand for infinity and it is not clear which.  Each row read is a row of the table whose active column, if asked for and there, is
    true; with the cells of the columns of these names.  Tables not there are empty. *)
Theorem C113_read : forall date_of float_of settle str_of f active db,
  decl_ok (f_decl f) = true -> params_shape f -> NoDup (map fst db) ->
  (forall t ts k, In (t, ts) (plain_schema f) -> gentle settle (Frames.column (selected active db t ts) k)) ->
  (pan_pg_create date_of float_of settle str_of f active db = Raise <->
    pg_name active <> active \/ names_ok f = false \/
    (exists t ts pt x, In (t, ts) (plain_schema f) /\ dget String.eqb db t = Some pt /\ In x (tfields ts) /\ ~ In (pg_name x) (map c_name (pt_cols pt))) \/
    (f_flag f = VNone /\ exists t ts x, In (t, ts) (plain_schema f) /\ t <> "parameters" /\ In x (tfields ts) /\ bias_now date_of f t x = Raise)) /\
  forall e, pan_pg_create date_of float_of settle str_of f active db = Ret e -> forall t ts, In (t, ts) (plain_schema f) ->
    (dget String.eqb db t = None -> e t = []) /\
    forall pt l, dget String.eqb db t = Some pt -> read_rows active pt l ->
      Forall2 (fun r row => Forall2 (fun x w =>
        (t <> "parameters" /\ (forall v, alike (pg_cell pt r (pg_name x)) v -> quiet date_of float_of false f t x v)) \/
        (t = "parameters" /\ (has_params f = false \/ In x (tpk ts))) ->
        alike (pg_cell pt r (pg_name x)) w) (tfields ts) row) l (e t).
Proof. intros date_of float_of settle str_of f active db Hd. exact (pan_pg_read date_of float_of settle str_of f Hd active db). Qed.
Print Assumptions C113_read.

(** One of three parents is active; without the active field all are read. *)
Example C113_ex : exists e e' pt,
  params_shape wp_fac /\ wp_pan_read wp_fac "active" wp_marked = Ret e /\ wp_pan_read wp_fac "" wp_marked = Ret e' /\
  dget String.eqb wp_marked "parent" = Some pt /\ read_rows "active" pt [[VStr "b"; int 1; VDate 5; VBool true]] /\
  e "parent" = [[VStr "b"; int 1; VDate 5]] /\ List.length (e' "parent") = 3 /\ e "log" = [] /\
  wp_pan_read wp_fac "Active!" wp_marked = Raise.
Proof. do 3 eexists. refine (conj wp_shape (conj _ (conj _ (conj _ (conj _ (conj _ (conj _ (conj _ _)))))))); vm_compute; reflexivity. Qed.
