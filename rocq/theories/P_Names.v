(** * Properties of names: C43-C46, C57, C73 *)
From Coq Require Import Bool List String Ascii Arith NArith Lia Permutation.
From Verif Require Import PyVal PyDict PyStr Data FK Factory InfIO Names NamesFacts.
Import ListNotations.
Local Open Scope string_scope.

Definition demo_decl : list (string * tdecl) :=
  [("food_groups", Fields (mkT ["Name"] ["Cost"]));
   ("Nutrition__Facts", Fields (mkT ["Food"; "Category"] ["Quantity"]));
   ("x", Generic)].
Definition demo_names : list string := map fst demo_decl.

(** ** C44 Pretty table names are always found again *)

Theorem C44_csv_files : forall decl asked listing others t,
  decl_ok decl = true -> In t (map fst decl) ->
  Permutation listing (map (fun t => (csv_name asked (map fst decl) t, true)) (map fst decl) ++ others)%list ->
  (forall f t', In (f, true) others -> In t' (map fst decl) -> unspace f <> lower t' ++ ".csv") ->
  get_file_path listing t = Ret (Some (csv_name asked (map fst decl) t)).
Proof. intros. eapply get_file_path_own; eauto using decl_ok_legal. Qed.
Print Assumptions C44_csv_files.

Example C44_csv_files_ex :
  let others := [("notes.txt", true); ("food_groups.csv", false)] in
  let written := [("Food Groups.csv", true); ("Nutrition  Facts.csv", true); ("X.csv", true)] in
  let listing := rev (written ++ others) in
  decl_ok demo_decl = true /\
  map (fun t => (csv_name true demo_names t, true)) demo_names = written /\
  Permutation listing (written ++ others) /\
  (forall f t', In (f, true) others -> In t' demo_names -> unspace f <> lower t' ++ ".csv") /\
  get_file_path listing "Nutrition__Facts" = Ret (Some "Nutrition  Facts.csv").
Proof.
  intros others written listing. split; [reflexivity|]. split; [reflexivity|].
  split; [apply Permutation_sym, Permutation_rev|]. split; [|reflexivity].
  intros f t' Hf Ht'. simpl in Hf, Ht'. destruct Hf as [E|[E|[]]]; inversion E; subst.
  destruct Ht' as [<-|[<-|[<-|[]]]]; discriminate.
Qed.

(** A written file is taken for no other table, whatever else the directory
    holds. *)
Theorem C44_no_other_table : forall decl asked listing t t',
  decl_ok decl = true -> In t (map fst decl) -> In t' (map fst decl) -> t' <> t ->
  get_file_path listing t' <> Ret (Some (csv_name asked (map fst decl) t)).
Proof.
  intros decl asked listing t t' Hd Ht Ht' Hne E. apply Hne.
  apply (csv_match_own asked (map fst decl)); auto using decl_ok_legal.
  apply get_file_path_match in E. exact E.
Qed.
Print Assumptions C44_no_other_table.

Example C44_no_other_table_ex :
  decl_ok demo_decl = true /\
  get_file_path [(csv_name true demo_names "food_groups", true)] "food_groups" = Ret (Some "Food Groups.csv") /\
  get_file_path [(csv_name true demo_names "food_groups", true)] "x" = Ret None.
Proof. repeat split. Qed.

(** No two tables are written under one name, however the tables are called. *)
Theorem C44_written_names_differ : forall asked tables, NoDup tables -> NoDup (map (out_name asked tables) tables).
Proof. exact out_names_differ. Qed.
Print Assumptions C44_written_names_differ.

Example C44_written_names_differ_ex :
  map (out_name true ["a_b"; "a_B"; "c_d"]) ["a_b"; "a_B"; "c_d"] = ["a_b"; "a_B"; "c_d"] /\
  map pretty ["a_b"; "a_B"; "c_d"] = ["A B"; "A B"; "C D"] /\
  map (out_name true ["a_b"; "c_d"]) ["a_b"; "c_d"] = ["A B"; "C D"].
Proof. repeat split. Qed.

Theorem C44_json_keys : forall decl asked keys others t,
  decl_ok decl = true -> In t (map fst decl) ->
  Permutation keys (map (out_name asked (map fst decl)) (map fst decl) ++ others)%list ->
  (forall k t', In k others -> In t' (map fst decl) -> unspace k <> lower t') ->
  get_json_key keys t = Ret (Some (out_name asked (map fst decl) t)).
Proof. intros. eapply get_json_key_own; eauto using decl_ok_legal. Qed.
Print Assumptions C44_json_keys.

Example C44_json_keys_ex :
  decl_ok demo_decl = true /\
  get_json_key ["X"; "other"; "Nutrition  Facts"; "Food Groups"] "food_groups" = Ret (Some "Food Groups") /\
  out_name true demo_names "food_groups" = "Food Groups".
Proof. repeat split. Qed.

(** SQLite and Access: one candidate name denotes a table of the database, and
    it denotes the table written. *)
Theorem C44_database_tables : forall decl asked db others t,
  decl_ok decl = true -> In t (map fst decl) ->
  (forall n, In n db <-> In n (map (out_name asked (map fst decl)) (map fst decl) ++ others)%list) ->
  (forall n t', In n others -> In t' (map fst decl) -> unspace n <> lower t') ->
  exists n, get_db_table db t = Ret (Some n) /\ lower n = lower (out_name asked (map fst decl) t).
Proof. intros. eapply get_db_table_own; eauto using decl_ok_legal. Qed.
Print Assumptions C44_database_tables.

Example C44_database_tables_ex :
  decl_ok demo_decl = true /\
  get_db_table ["X"; "other"; "Nutrition  Facts"; "Food Groups"] "Nutrition__Facts" = Ret (Some "Nutrition  Facts") /\
  get_db_table ["x"; "Nutrition__Facts"; "food_groups"] "Nutrition__Facts" = Ret (Some "Nutrition__Facts").
Proof. repeat split. Qed.

(** What each lookup finds: nothing exactly when no name matches, the only match, and an exception
    otherwise; a name matches when it is the table's up to case and spaces for underscores. *)
Theorem C44_lookup : forall listing sheets keys t,
  (get_file_path listing t = Ret None <-> forall n, In (n, true) listing -> unspace n <> lower t ++ ".csv") /\
  (forall n, get_file_path listing t = Ret (Some n) <-> exists l1 l2, listing = (l1 ++ (n, true) :: l2)%list /\ unspace n = lower t ++ ".csv" /\
     forall n', In (n', true) (l1 ++ l2)%list -> unspace n' <> lower t ++ ".csv") /\
  (get_sheet sheets t = Ret None <-> forall n, In n sheets -> stake 30 (unspace n) <> stake 30 (lower t)) /\
  (forall n, get_sheet sheets t = Ret (Some n) <-> exists l1 l2, sheets = (l1 ++ n :: l2)%list /\ stake 30 (unspace n) = stake 30 (lower t) /\
     forall n', In n' (l1 ++ l2)%list -> stake 30 (unspace n') <> stake 30 (lower t)) /\
  (get_json_key keys t = Ret None <-> forall n, In n keys -> unspace n <> lower t) /\
  (forall n, get_json_key keys t = Ret (Some n) <-> exists l1 l2, keys = (l1 ++ n :: l2)%list /\ unspace n = lower t /\
     forall n', In n' (l1 ++ l2)%list -> unspace n' <> lower t).
Proof. exact lookup_cases. Qed.
Print Assumptions C44_lookup.

(** SQLite and Access, where names differing in case only are one table. *)
Theorem C44_database_lookup : forall decl db t, decl_ok decl = true -> In t (map fst decl) ->
  (get_db_table db t = Ret None <-> forall n, In n db -> unspace n <> lower t) /\
  (forall v, get_db_table db t = Ret (Some v) -> exists n, In n db /\ lower v = lower n /\ unspace n = lower t) /\
  (get_db_table db t = Raise <-> exists n n', In n db /\ In n' db /\ lower n <> lower n' /\ unspace n = lower t /\ unspace n' = lower t).
Proof. intros decl db t Hd Ht. apply db_table_cases. now apply (decl_ok_legal decl Hd). Qed.
Print Assumptions C44_database_lookup.

Example C44_lookup_ex :
  get_json_key ["a B"; "A_b"] "a_b" = Raise /\ get_sheet ["a B"; "c"] "A_b" = Ret (Some "a B") /\
  get_file_path [("A b.csv", true); ("a_b.csv", false)] "a_b" = Ret (Some "A b.csv") /\
  get_db_table ["food groups"; "Food_Groups"] "food_groups" = Raise /\ get_db_table ["food-groups"] "food_groups" = Ret None.
Proof. repeat split. Qed.

(** ** C45 Underscore replacements are exactly the space variants *)

Theorem C45_exactly_the_variants : forall s s',
  In s' (all_underscore_replacements s) <->
  String.length s' = String.length s /\
  forall p c c', String.get p s = Some c -> String.get p s' = Some c' ->
    c' = c \/ (c = "_"%char /\ c' = " "%char).
Proof. exact replacements_iff. Qed.
Print Assumptions C45_exactly_the_variants.

Theorem C45_each_once : forall s, NoDup (all_underscore_replacements s).
Proof. exact replacements_NoDup. Qed.
Print Assumptions C45_each_once.

Theorem C45_name_first : forall s, hd_error (all_underscore_replacements s) = Some s.
Proof. exact replacements_first. Qed.
Print Assumptions C45_name_first.

(** Names with fewer spaces are tried before names with more. *)
Theorem C45_fewest_spaces_first : forall s i j a b,
  nth_error (all_underscore_replacements s) i = Some a ->
  nth_error (all_underscore_replacements s) j = Some b -> i <= j -> count_char " " a <= count_char " " b.
Proof. exact replacements_sorted. Qed.
Print Assumptions C45_fewest_spaces_first.

Example C45_ex : all_underscore_replacements "a_b__c" =
  ["a_b__c"; "a b__c"; "a_b _c"; "a_b_ c"; "a b _c"; "a b_ c"; "a_b  c"; "a b  c"].
Proof. reflexivity. Qed.

(** ** C46 Excel sheet names cannot be confused *)

Theorem C46_sheet_read_for_its_table : forall decl order asked names sheets others t,
  decl_ok decl = true -> Permutation order (map fst decl) ->
  write_sheets asked order = Ret names -> In t order ->
  Permutation sheets (names ++ others)%list ->
  (forall s t', In s others -> In t' order -> stake 30 (unspace s) <> stake 30 (lower t')) ->
  get_sheet sheets t = Ret (Some (sheet_name asked order t)).
Proof.
  intros. eapply get_sheet_own; eauto. eapply legal_names_perm; [|apply Permutation_sym; eassumption].
  now apply decl_ok_legal.
Qed.
Print Assumptions C46_sheet_read_for_its_table.

Theorem C46_no_other_table : forall decl order asked names sheets t t',
  decl_ok decl = true -> Permutation order (map fst decl) ->
  write_sheets asked order = Ret names -> In t order -> In t' order -> t' <> t ->
  get_sheet sheets t' <> Ret (Some (sheet_name asked order t)).
Proof.
  intros decl order asked names sheets t t' Hd P W Ht Ht' Hne E. apply Hne.
  apply get_sheet_match in E. eapply sheet_match_own; eauto.
  eapply legal_names_perm; [|apply Permutation_sym; eassumption]. now apply decl_ok_legal.
Qed.
Print Assumptions C46_no_other_table.

Definition long_decl : list (string * tdecl) :=
  [("quantities_of_everything_in_store", Fields (mkT ["a"] []));
   ("quantities_of_Everything_in_the_kitchen", Fields (mkT ["a"] []))].

Example C46_ex :
  decl_ok long_decl = true /\
  write_sheets true (map fst long_decl) =
    Ret ["Quantities Of Everything In St"; "Quantities Of Everything In Th"] /\
  get_sheet ["Notes"; "Quantities Of Everything In Th"; "Quantities Of Everything In St"]
    "quantities_of_everything_in_store" = Ret (Some "Quantities Of Everything In St").
Proof. repeat split. Qed.

(** The check in [_verify_differentiable_sheet_names] alone is case-sensitive,
    the matching is not: a file with a single sheet is read for two tables. *)
Theorem C46_name_check_refuted : exists decl sheet t t',
  decl_ok decl = true /\ sheets_differ (map fst decl) = true /\
  In t (map fst decl) /\ In t' (map fst decl) /\ t <> t' /\
  get_sheet [sheet] t = Ret (Some sheet) /\ get_sheet [sheet] t' = Ret (Some sheet).
Proof.
  exists [("quantities_of_everything_in_th_kitchen", Fields (mkT ["a"] []));
          ("quantities_of_Everything_in_th_store", Fields (mkT ["a"] []))],
         "quantities_of_everything_in_th",
         "quantities_of_everything_in_th_kitchen", "quantities_of_Everything_in_th_store".
  repeat split; simpl; auto. discriminate.
Qed.
Print Assumptions C46_name_check_refuted.

(** ** C43 csv.write_directory never overwrites without permission *)

Theorem C43_overwrites_refuted : exists decl existing files f,
  decl_ok decl = true /\ write_directory existing false true (map fst decl) = Ret files /\
  In f files /\ In f existing.
Proof.
  exists demo_decl, ["Food Groups.csv"], ["Food Groups.csv"; "Nutrition  Facts.csv"; "X.csv"], "Food Groups.csv".
  repeat split; simpl; auto.
Qed.
Print Assumptions C43_overwrites_refuted.

Theorem C43_plain_names : forall existing tables files f,
  write_directory existing false false tables = Ret files -> In f files -> ~ In f existing.
Proof. exact write_directory_plain. Qed.
Print Assumptions C43_plain_names.

(** The call is refused exactly when overwriting is not allowed and the plain file of a
    table exists. *)
Theorem C43_refused : forall existing allow asked tables,
  write_directory existing allow asked tables = Raise <->
  allow = false /\ exists t, In t tables /\ In (t ++ ".csv") existing.
Proof.
  intros existing allow asked tables. unfold write_directory. destruct (negb allow && existsb _ tables) eqn:E; split; intros H; try discriminate H; try reflexivity.
  - apply andb_true_iff in E as [E1 E2]. split; [now destruct allow |]. apply existsb_exists in E2 as (t & Ht & E2). exists t. split; auto. now apply mem_str_iff.
  - exfalso. destruct H as (-> & t & Ht & H). cbn [negb andb] in E. apply not_true_iff_false in E. apply E. apply existsb_exists. exists t. split; auto. now apply mem_str_iff.
Qed.
Print Assumptions C43_refused.

(** With pretty names the property needs a directory without files that a
    table's file could be confused with. *)
Theorem C43_no_similar_files : forall decl existing allow asked files f,
  decl_ok decl = true ->
  (forall g t, In g existing -> In t (map fst decl) -> unspace g <> lower t ++ ".csv") ->
  write_directory existing allow asked (map fst decl) = Ret files -> In f files -> ~ In f existing.
Proof. exact write_directory_similar. Qed.
Print Assumptions C43_no_similar_files.

Example C43_ex :
  write_directory ["notes.txt"] false false demo_names = Ret ["food_groups.csv"; "Nutrition__Facts.csv"; "x.csv"] /\
  write_directory ["x.csv"] false false demo_names = Raise /\
  write_directory ["notes.txt"] false true demo_names = Ret ["Food Groups.csv"; "Nutrition  Facts.csv"; "X.csv"] /\
  (forall g t, In g ["notes.txt"] -> In t demo_names -> unspace g <> lower t ++ ".csv").
Proof.
  split; [reflexivity|]. split; [reflexivity|]. split; [reflexivity|].
  intros g t [<-|[]] [<-|[<-|[<-|[]]]]; discriminate.
Qed.

(** ** C57 Postgres name normalisation is stable *)

Theorem C57_fixed_point : forall s, pg_name (pg_name s) = pg_name s.
Proof. exact pg_name_fixed. Qed.
Print Assumptions C57_fixed_point.

(** Codes 97-122 are a-z, 48-57 are 0-9 and 95 is the underscore. *)
Theorem C57_characters : forall s p c, String.get p (pg_name s) = Some c ->
  let n := nat_of_ascii c in
  (97 <= n <= 122 \/ 48 <= n <= 57 \/ n = 95) /\ (p = 0 -> ~ 48 <= n <= 57).
Proof. exact pg_name_chars. Qed.
Print Assumptions C57_characters.

(** Character by character: letters and digits survive in lower case, except a
    leading digit; anything else becomes an underscore. *)
Theorem C57_each_character : forall s p c, String.get p s = Some c ->
  exists c', String.get p (pg_name s) = Some c' /\
  let n := nat_of_ascii c in
  (97 <= n <= 122 -> c' = c) /\
  (65 <= n <= 90 -> nat_of_ascii c' = n + 32) /\
  (48 <= n <= 57 -> p <> 0 -> c' = c) /\
  (48 <= n <= 57 -> p = 0 -> c' = "_"%char) /\
  (~ 97 <= n <= 122 -> ~ 65 <= n <= 90 -> ~ 48 <= n <= 57 -> c' = "_"%char).
Proof. exact pg_name_each. Qed.
Print Assumptions C57_each_character.

Theorem C57_no_shared_names : forall sch t fields a b,
  pg_compatible sch = true -> In (t, fields) sch -> NoDup fields ->
  In a fields -> In b fields -> pg_name a = pg_name b -> a = b.
Proof. exact pg_compatible_inj. Qed.
Print Assumptions C57_no_shared_names.

Theorem C57_tables_unchanged : forall sch t fields,
  pg_compatible sch = true -> In (t, fields) sch -> pg_name t = t.
Proof. exact pg_compatible_table. Qed.
Print Assumptions C57_tables_unchanged.

Example C57_ex :
  pg_name "2nd Food-Group" = "_nd_food_group" /\
  pg_compatible [("foods", ["Name"; "Food Group"; "2nd Group"])] = true /\
  pg_compatible [("foods", ["Food Group"; "food_group"])] = false /\
  pg_compatible [("Foods", ["Name"])] = false.
Proof. repeat split. Qed.

(** ** C73 Postgres columns never get a reserved name *)

Theorem C73_reserved_column_refuted : exists sch t fields x,
  pg_compatible sch = true /\ In (t, fields) sch /\ In x fields /\ In (pg_name x) pg_reserved.
Proof.
  exists [("foods", ["Name"; "Current Date"])], "foods", ["Name"; "Current Date"], "Current Date".
  split; [reflexivity|]. split; [simpl; auto|]. split; [simpl; auto|].
  apply mem_str_iff. reflexivity.
Qed.
Print Assumptions C73_reserved_column_refuted.

(** True for field names made of letters, digits and underscores. *)
Theorem C73_plain_fields : forall sch t fields x,
  pg_compatible sch = true -> In (t, fields) sch -> In x fields ->
  (forall p c, String.get p x = Some c -> is_alnum c = true \/ c = "_"%char) ->
  ~ In (pg_name x) pg_reserved.
Proof. exact pg_compatible_reserved. Qed.
Print Assumptions C73_plain_fields.

Example C73_ex :
  pg_compatible [("foods", ["Name"; "Order_"])] = true /\ pg_name "Order_" = "order_" /\
  pg_compatible [("foods", ["Name"; "Order"])] = false.
Proof. repeat split. Qed.
