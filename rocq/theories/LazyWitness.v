(** * Concrete objects with generator tables. *)
From Coq Require Import ZArith Bool List String Arith.
From Verif Require Import PyVal PyDict TypeDict Data FindTypes FindTypesFacts FK WfCheck Obj Factory FactoryFacts InfIO Params Names Utils Json Csv Xls Sql FileDb
  InfWitness JsonWitness CsvWitness PgWitness FileDbWitness Lazy LazyFacts LazyRead.
Import ListNotations.
Local Open Scope string_scope.
Local Open Scope list_scope.

Definition no_parse (v : value) : bool := false.
Definition wl_decl : list (string * tdecl) := [("items", Fields (mkT ["Name"] ["Cost"])); ("log", Fields (mkT [] ["What"; "Amount"]))].
Definition wl_f0 : factory := match init wl_decl with Some f => f | None => wi_f0 end.
(** [log] is a generator table. *)
Definition wl_fac : factory := run no_parse wl_f0 [OSetGens ["log"]].
(** The same without the check for duplicates. *)
Definition wl_lax : factory := run no_parse wl_f0 [OSetGens ["log"]; ODup (VStr "ignore")].
Lemma wl_reach : reachable no_parse wl_fac.
Proof. exists wl_decl, wl_f0, [OSetGens ["log"]]. split; reflexivity. Qed.
Lemma wl_lax_reach : reachable no_parse wl_lax.
Proof. exists wl_decl, wl_f0, [OSetGens ["log"]; ODup (VStr "ignore")]. split; reflexivity. Qed.
Lemma wl_plain : plain_schema wl_fac = [("items", mkT ["Name"] ["Cost"]); ("log", mkT [] ["What"; "Amount"])].
Proof. reflexivity. Qed.
Lemma wl_gens : f_gens wl_fac = ["log"].
Proof. reflexivity. Qed.

Definition wl_obj : obj := fun t =>
  if String.eqb t "items" then OKeyed [(KAtom (VStr "a"), [int 3])] else OListed [[VStr "start"; int 1]; [VStr "stop"; int 2]].

Definition wl_dir : directory :=
  [("items.csv", true, [["Name"; "Cost"]; ["a"; "3"]]); ("log.csv", true, [["What"; "Amount"]; ["start"; "1"]; ["stop"; "2"]]); ("notes.txt", true, [["?"]])].
Definition wl_db : filedb :=
  [("items", mkDT [mkDC "Name" "TEXT" VNone; mkDC "Cost" "REAL" VNone] ["Name"] [[VStr "a"; int 3]]);
   ("log", mkDT [mkDC "Amount" "REAL" VNone; mkDC "What" "TEXT" VNone] [] [[int 1; VStr "start"]; [int 2; VStr "stop"]])].
Definition wl_sheets : list (string * sheet) := match xls_write wi_date wc_show wx_saved wl_fac true false wl_obj with Ret l => l | Raise => [] end.
Definition wl_xld : value -> option Z := fun _ => None.
Definition wl_rows : list rowin := [RSeq [VStr "start"; int 1]; RSeq [VStr "stop"; int 2]].
Definition wl_w : world :=
  mkW [("data", wl_dir)] [("data.db", wl_db)] [("data.xls", mkBook (Some wl_xld) wl_sheets); ("data.xlsx", mkBook None wl_sheets)] [wl_rows].

Definition wl_none : gobj := fun _ => Stored (OListed []).
Definition got {A} (dflt : A) (o : outcome A) : A := match o with Ret a => a | Raise => dflt end.
Definition wl_csv : gobj := got wl_none (gen_csv_create wi_date wc_float wl_fac true wl_w "data").
Definition wl_sql : gobj := got wl_none (gen_db_create wi_date wc_float (read_data_cell wi_date wc_float) wl_fac wl_w "data.db").
Definition wl_mdb : gobj := got wl_none (gen_db_create wi_date wc_float (general_read wi_date wc_float) wl_fac wl_w "data.db").
Definition wl_xls : gobj := got wl_none (gen_xls_create wi_date wc_float wl_fac true false (fun _ => 0) wl_w "data.xls").
Definition wl_xlsx : gobj := got wl_none (gen_xls_create wi_date wc_float wl_fac true false (fun _ => 0) wl_w "data.xlsx").
(** A generator function over a list of the caller. *)
Definition wl_over : source := fun w => Ret (the_list w 0).

Definition ok_b {A} (o : outcome A) : bool := match o with Ret _ => true | Raise => false end.
Lemma got_ok : forall A (dflt : A) o, ok_b o = true -> o = Ret (got dflt o).
Proof. intros A dflt [a |] H; [reflexivity | discriminate]. Qed.
Lemma wl_csv_made : gen_csv_create wi_date wc_float wl_fac true wl_w "data" = Ret wl_csv.
Proof. apply got_ok. vm_compute. reflexivity. Qed.
Lemma wl_sql_made : gen_db_create wi_date wc_float (read_data_cell wi_date wc_float) wl_fac wl_w "data.db" = Ret wl_sql.
Proof. apply got_ok. vm_compute. reflexivity. Qed.
Lemma wl_mdb_made : gen_db_create wi_date wc_float (general_read wi_date wc_float) wl_fac wl_w "data.db" = Ret wl_mdb.
Proof. apply got_ok. vm_compute. reflexivity. Qed.
Lemma wl_xls_made : gen_xls_create wi_date wc_float wl_fac true false (fun _ => 0) wl_w "data.xls" = Ret wl_xls.
Proof. apply got_ok. vm_compute. reflexivity. Qed.
Lemma wl_xlsx_made : gen_xls_create wi_date wc_float wl_fac true false (fun _ => 0) wl_w "data.xlsx" = Ret wl_xlsx.
Proof. apply got_ok. vm_compute. reflexivity. Qed.

(** The generator table, as anybody sees it. *)
Definition wl_log (g : gobj) (w : world) : outcome otable := seen (f_defaults wl_fac) "log" (mkT [] ["What"; "Amount"]) (g "log") w.
Lemma wl_csv_rows : wl_log wl_csv wl_w = Ret (wl_obj "log").
Proof. vm_compute. reflexivity. Qed.
Lemma wl_sql_rows : wl_log wl_sql wl_w = Ret (wl_obj "log").
Proof. vm_compute. reflexivity. Qed.
Lemma wl_mdb_rows : wl_log wl_mdb wl_w = Ret (wl_obj "log").
Proof. vm_compute. reflexivity. Qed.
Lemma wl_xls_rows : wl_log wl_xls wl_w = Ret (wl_obj "log") /\ wl_log wl_xlsx wl_w = Ret (wl_obj "log").
Proof. split; vm_compute; reflexivity. Qed.

(** ** Reports *)

(** Cost and Amount: any number. *)
Definition wl_number : dtype := mkDtype true true true NInf PInf false (SList []) false false.
Definition wl_types : types := [("items", [("Cost", wl_number)]); ("log", [("Amount", wl_number)])].
(** An amount that is a string: in [log], and in [items] too. *)
Definition wl_dat : dat := fun t => if String.eqb t "items" then Keyed [([VStr "a"], [int 3])] else Listed [[VStr "start"; int 1]; [VStr "stop"; VStr "many"]].
Definition wl_dat2 : dat := fun t => if String.eqb t "items" then Keyed [([VStr "a"], [VStr "dear"])] else wl_dat t.
Lemma wl_wf : wf_schema (plain_schema wl_fac).
Proof. apply wf_schema_ok. vm_compute. reflexivity. Qed.
Lemma wl_dat_wf : wf_dat (plain_schema wl_fac) wl_dat.
Proof. apply wf_dat_ok. vm_compute. reflexivity. Qed.
Lemma wl_types_wf : wf_types (plain_schema wl_fac) wl_types.
Proof.
  split; [apply (nodup_b_ok String.eqb String.eqb_eq); reflexivity |]. intros t fs [E | [E | []]]; injection E as <- <-; (split; [apply (nodup_b_ok String.eqb String.eqb_eq); reflexivity |]).
  - exists (mkT ["Name"] ["Cost"]). split; [now left |]. intros f dt [E | []]. injection E as <- <-. right. now left.
  - exists (mkT [] ["What"; "Amount"]). split; [right; now left |]. intros f dt [E | []]. injection E as <- <-. right. now left.
Qed.
Lemma wl_failing : failing no_parse (plain_schema wl_fac) wl_types wl_dat "log" "Amount" (RIdx 1) (VStr "many").
Proof.
  exists (mkT [] ["What"; "Amount"]), [], [VStr "stop"; VStr "many"], wl_number. split; [right; now left |]. split; [split; [reflexivity |]; exists 1; split; reflexivity |].
  split; [exists 1; split; reflexivity |]. split; [| reflexivity]. left. exists [("Amount", wl_number)]. split; [right; now left | now left].
Qed.
