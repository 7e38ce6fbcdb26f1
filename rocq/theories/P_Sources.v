(** * Property theorems: C86 (which file, sheet, key or database table is read). *)
From Coq Require Import ZArith Bool List String Ascii Arith Lia.
From Verif Require Import PyVal PyDict PyStr TypeDict Data FindTypes Obj Factory InfIO Utils Names NamesFacts Json ObjRows Csv Xls Sources
  CsvWitness InfWitness.
Import ListNotations.
Local Open Scope string_scope.
Local Open Scope list_scope.

(** The files, sheets, keys and database tables that may be meant by a table are
    those of its name up to case and spaces for underscores (for sheets, up to the
    31st character).  There is none: nothing is read.  There is one: it is read.
    There are several: an error. *)
Theorem C86_files : forall listing t,
  (get_file_path listing t = Ret None <-> forall e, In e listing -> ~ csv_for t e) /\
  (forall n, get_file_path listing t = Ret (Some n) <-> exists e, once (csv_for t) listing e /\ n = fst e) /\
  (get_file_path listing t = Raise <-> twice (csv_for t) listing).
Proof. exact files_cases. Qed.
Print Assumptions C86_files.

Theorem C86_sheets : forall sheets t,
  (get_sheet sheets t = Ret None <-> forall s, In s sheets -> ~ sheet_for t s) /\
  (forall s, get_sheet sheets t = Ret (Some s) <-> once (sheet_for t) sheets s) /\
  (get_sheet sheets t = Raise <-> twice (sheet_for t) sheets).
Proof. exact sheets_cases. Qed.
Print Assumptions C86_sheets.

Theorem C86_keys : forall keys t,
  (get_json_key keys t = Ret None <-> forall k, In k keys -> ~ key_for t k) /\
  (forall k, get_json_key keys t = Ret (Some k) <-> once (key_for t) keys k) /\
  (get_json_key keys t = Raise <-> twice (key_for t) keys).
Proof. exact keys_cases. Qed.
Print Assumptions C86_keys.

(** Tables of one database differ in more than case. *)
Theorem C86_database : forall decl db t, decl_ok decl = true -> In t (map fst decl) ->
  (get_db_table db t = Ret None <-> forall n, In n db -> ~ key_for t n) /\
  (forall y, get_db_table db t = Ret (Some y) ->
     exists n, In n db /\ key_for t n /\ lower y = lower n /\ forall n', In n' db -> key_for t n' -> lower n' = lower n) /\
  (get_db_table db t = Raise <-> exists n n', In n db /\ In n' db /\ key_for t n /\ key_for t n' /\ lower n <> lower n').
Proof. intros decl db t Hd Ht. apply db_cases. now apply (decl_ok_legal _ Hd). Qed.
Print Assumptions C86_database.

(** The readers raise, whatever is in the files. *)
Theorem C86_readers_refuse : forall date_of float_of f t ts, In (t, ts) (plain_schema f) ->
  (forall hdr dir, twice (csv_for t) (map fst dir) -> csv_create date_of float_of f hdr dir = Raise) /\
  (forall b hdr inf offsets, twice (sheet_for t) (map fst (bk_sheets b)) -> xls_create date_of float_of f b hdr inf offsets = Raise) /\
  (forall doc, twice (key_for t) (map fst doc) -> json_create date_of float_of f doc = Raise).
Proof.
  intros date_of float_of f t ts H. split; [| split]; intros; [eapply csv_ambiguous | eapply xls_ambiguous | eapply json_ambiguous]; eauto.
Qed.
Print Assumptions C86_readers_refuse.

Theorem C86_duplicates_refuse : forall date_of float_of f t ts, In (t, ts) (plain_schema f) -> tpk ts <> [] ->
  (forall hdr dir, twice (csv_for t) (map fst dir) -> csv_duplicates date_of float_of f hdr dir = Raise) /\
  (forall b hdr offsets, twice (sheet_for t) (map fst (bk_sheets b)) -> xls_duplicates date_of float_of f b hdr offsets = Raise).
Proof.
  intros date_of float_of f t ts H Hp. split; intros; [eapply csv_dups_ambiguous | eapply xls_dups_ambiguous]; eauto.
Qed.
Print Assumptions C86_duplicates_refuse.

Example C86_ex :
  once (csv_for "food_groups") [("Food_Groups.csv", false); ("FOOD groups.csv", true); ("food.csv", true)] ("FOOD groups.csv", true) /\
  twice (key_for "food_groups") ["food_groups"; "other"; "Food Groups"] /\
  twice (sheet_for "items") ["Items"; "ITEMS"] /\
  twice (csv_for "items") (map fst [("Items.csv", true, [["Name"; "Cost"]]); ("items.csv", true, [["Name"; "Cost"]; ["a"; "1"]])]) /\
  csv_create wi_date wc_float wc_one true [("Items.csv", true, [["Name"; "Cost"]]); ("items.csv", true, [["Name"; "Cost"]; ["a"; "1"]])] = Raise /\
  get_db_table ["a b_c"; "A_B C"] "a_b_c" = Raise /\ get_db_table ["a b_c"; "A_B"] "a_b_c" = Ret (Some "a b_c").
Proof.
  refine (conj _ (conj _ (conj _ (conj _ (conj _ (conj _ _)))))); [| | | | vm_compute; reflexivity | vm_compute; reflexivity | vm_compute; reflexivity].
  - exists 1. split; [reflexivity |]. split; [split; vm_compute; reflexivity |].
    intros [| [| [| j]]] c E [H1 H2]; cbn in E; try reflexivity; try (injection E as <-; vm_compute in H1, H2; discriminate); destruct j; discriminate.
  - exists 0, 2, "food_groups", "Food Groups". refine (conj _ (conj _ (conj _ (conj _ _)))); [discriminate | reflexivity | reflexivity | vm_compute; reflexivity | vm_compute; reflexivity].
  - exists 0, 1, "Items", "ITEMS". refine (conj _ (conj _ (conj _ (conj _ _)))); [discriminate | reflexivity | reflexivity | vm_compute; reflexivity | vm_compute; reflexivity].
  - exists 0, 1, ("Items.csv", true), ("items.csv", true).
    refine (conj _ (conj _ (conj _ (conj _ _)))); [discriminate | reflexivity | reflexivity | split; vm_compute; reflexivity | split; vm_compute; reflexivity].
Qed.
