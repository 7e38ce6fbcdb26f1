(** * Property theorems: C42, C81, C83, C85 and more of C43 (CSV and the readers' caches). *)
From Coq Require Import ZArith Bool List String Ascii Permutation.
From Verif Require Import PyVal PyValFacts PyDict PyStr TypeDict Data FindTypes Obj ObjFacts ObjMore Factory FactoryFacts InfIO InfIOFacts Params Names NamesFacts
  Json JsonDups ObjRows TripFacts Csv CsvFacts CsvRows CsvTrip CsvMore CsvCells XlsBlank CsvWitness InfWitness JsonWitness SqlWitness.
Import ListNotations.
Local Open Scope string_scope.
Local Open Scope list_scope.

(** ** C42 Current settings *)

(** Text only, or any of these with None. *)
Definition w42_text : dtargs := mkArgs false true true (VNum NInf) (VNum PInf) false AStar false false.
Definition w42_null : dtargs := mkArgs true true true (VNum NInf) (VNum PInf) false AStar true false.

(** A first pass over the files, as [find_duplicates] makes it, then
    [set_data_type]: the next cell is converted according to the old settings,
    by either reader. *)
Theorem C42_refuted : exists date_of float_of f,
  (exists h t x v, let s := rrun date_of float_of (fresh f) h in
     fst (csv_read date_of float_of (r_fac s) (r_csv s) t x v) = Ret (int 7) /\
     csv_cell date_of float_of (r_fac s) t x v = Ret (VStr "7")) /\
  (exists h t x v, let s := rrun date_of float_of (fresh f) h in
     fst (xls_read date_of float_of (r_fac s) (r_xls s) None true t x v) = Ret (VStr "") /\
     xls_with date_of float_of (r_fac s) (dv_dt (r_fac s) t x) None true t x v = Ret VNone).
Proof.
  exists wi_date, wc_float, wc_one. split.
  - exists [RCsv "items" "Cost" (VStr "3"); RFac (OSetType "items" "Cost" w42_text)], "items", "Cost", (VStr "7").
    split; vm_compute; reflexivity.
  - exists [RXls None true "items" "Cost" (int 3); RFac (OSetType "items" "Cost" w42_null)], "items", "Cost", (VStr "").
    split; vm_compute; reflexivity.
Qed.
Print Assumptions C42_refuted.

(** The settings that count are those in force when the field was first read by
    that reader, whatever happened before and since ... *)
Theorem C42_first_read_csv : forall date_of float_of f h1 v0 h2 t x v,
  let s1 := rrun date_of float_of (fresh f) h1 in let s := rrun date_of float_of s1 (RCsv t x v0 :: h2) in
  (forall o, In o h1 -> ~ csv_reads t x o) -> treats_params (r_fac s1) t = false ->
  fst (csv_read date_of float_of (r_fac s) (r_csv s) t x v) = csv_with date_of float_of (r_fac s) (dv_dt (r_fac s1) t x) t x v.
Proof. exact csv_first. Qed.
Print Assumptions C42_first_read_csv.

Theorem C42_first_read_xls : forall date_of float_of f h1 g0 i0 v0 h2 g i t x v,
  let s1 := rrun date_of float_of (fresh f) h1 in let s := rrun date_of float_of s1 (RXls g0 i0 t x v0 :: h2) in
  (forall o, In o h1 -> ~ xls_reads t x o) ->
  fst (xls_read date_of float_of (r_fac s) (r_xls s) g i t x v) = xls_with date_of float_of (r_fac s) (dv_dt (r_fac s1) t x) g i t x v.
Proof. exact xls_first. Qed.
Print Assumptions C42_first_read_xls.

(** ... so the current ones count exactly as long as they were the same at every
    earlier read of the field, in particular if there was none. *)
Theorem C42_current_csv : forall date_of float_of f h t x v, let s := rrun date_of float_of (fresh f) h in
  (forall h1 v0 h2, h = h1 ++ RCsv t x v0 :: h2 -> treats_params (r_fac (rrun date_of float_of (fresh f) h1)) t = false /\
     dv_dt (r_fac (rrun date_of float_of (fresh f) h1)) t x = dv_dt (r_fac s) t x) ->
  fst (csv_read date_of float_of (r_fac s) (r_csv s) t x v) = csv_cell date_of float_of (r_fac s) t x v.
Proof. exact csv_current. Qed.
Print Assumptions C42_current_csv.

Theorem C42_current_xls : forall date_of float_of f h g i t x v, let s := rrun date_of float_of (fresh f) h in
  (forall h1 g0 i0 v0 h2, h = h1 ++ RXls g0 i0 t x v0 :: h2 ->
     dv_dt (r_fac (rrun date_of float_of (fresh f) h1)) t x = dv_dt (r_fac s) t x) ->
  fst (xls_read date_of float_of (r_fac s) (r_xls s) g i t x v) = xls_with date_of float_of (r_fac s) (dv_dt (r_fac s) t x) g i t x v.
Proof. exact xls_current. Qed.
Print Assumptions C42_current_xls.

(** The type is set between reads of other fields, and by the other reader. *)
Example C42_ex : let h := [RCsv "items" "Name" (VStr "7"); RXls None true "items" "Cost" (int 3); RFac (OSetType "items" "Cost" w42_text)] in
  let s := rrun wi_date wc_float (fresh wc_one) h in
  (forall o, In o h -> ~ csv_reads "items" "Cost" o) /\
  fst (csv_read wi_date wc_float (r_fac s) (r_csv s) "items" "Cost" (VStr "7")) = Ret (VStr "7").
Proof.
  split; [| vm_compute; reflexivity]. intros o [<- | [<- | [<- | []]]] [v E]; discriminate.
Qed.

(** ** C81 Columns of CSV files *)

(** Two columns spelled alike are not noticed, the second one counts; and without
    rows neither missing nor duplicated columns are. *)
Theorem C81_refuted : exists date_of float_of f ts,
  csv_rows date_of float_of f true "items" ts [["Name"; "Cost"; "Cost"]; ["a"; "1"; "2"]] = Ret [[VStr "a"; int 2]] /\
  csv_rows date_of float_of f true "items" ts [["Name"; "Price"; "price"]] = Ret [] /\
  ts = mkT ["Name"] ["Cost"].
Proof. exists wi_date, wc_float, wc_one, (mkT ["Name"] ["Cost"]). split; [| split]; vm_compute; reflexivity. Qed.
Print Assumptions C81_refuted.

(** If exactly one column belongs to each field, up to case, the rows are those
    the lines show under these columns: the order of the columns, the case of the
    header and further columns make no difference. *)
Theorem C81_columns : forall date_of float_of f t ts h body rs, (forall x, In x (tfields ts) -> one_column h x) ->
  Forall2 (line_shows ts h) (filter nonblank body) rs ->
  csv_rows date_of float_of f true t ts (h :: body) =
  mapO (fun r => mapO (fun xv => csv_cell date_of float_of f t (fst xv) (snd xv)) (combine (tfields ts) r)) rs.
Proof. exact rows_found. Qed.
Print Assumptions C81_columns.

(** With any nonempty line in it, a file is refused if some field has no column, or
    columns spelled in two ways, or if the line is longer than the header. *)
Theorem C81_refused : forall date_of float_of f t ts h body line, In line body -> line <> [] ->
  (exists x, In x (tfields ts) /\
     ((forall k, In k h -> lower k <> lower x) \/ exists k k', In k h /\ In k' h /\ k <> k' /\ lower k = lower x /\ lower k' = lower x)) \/
  List.length h < List.length line ->
  csv_rows date_of float_of f true t ts (h :: body) = Raise.
Proof.
  intros date_of float_of f t ts h body line Hl Hne [(x & Hx & H) | H]; [eapply rows_refused; eauto | eapply header_refused; eauto].
Qed.
Print Assumptions C81_refused.

(** Without header the cells are taken in the order of the fields; missing cells
    are None. *)
Theorem C81_no_header : forall date_of float_of f t ts body,
  (forall line, In line body -> line <> [] -> List.length line <= List.length (tfields ts)) ->
  csv_rows date_of float_of f false t ts body =
  mapO (fun line => mapO (fun xv => csv_cell date_of float_of f t (fst xv) (snd xv))
                      (combine (tfields ts) (map VStr line ++ repeat VNone (List.length (tfields ts) - List.length line)))) (filter nonblank body).
Proof. exact plain_found. Qed.
Print Assumptions C81_no_header.

Theorem C81_no_header_refused : forall date_of float_of f t ts body line, In line body -> List.length (tfields ts) < List.length line ->
  csv_rows date_of float_of f false t ts body = Raise.
Proof. exact plain_refused. Qed.
Print Assumptions C81_no_header_refused.

Example C81_ex : let ts := mkT ["Name"] ["Cost"] in let h := ["note"; "COST"; "name"] in
  (forall x, In x (tfields ts) -> one_column h x) /\
  Forall2 (line_shows ts h) (filter nonblank [["?"; "3"; "a"]; []; ["!"; "7"]]) [[VStr "a"; VStr "3"]; [VNone; VStr "7"]] /\
  csv_rows wi_date wc_float wc_one true "items" ts [h; ["?"; "3"; "a"]; []; ["!"; "7"]] = Ret [[VStr "a"; int 3]; [VNone; int 7]] /\
  csv_rows wi_date wc_float wc_one true "items" ts [["Name"; "Cost"; "cost"]; ["a"; "1"; "2"]] = Raise.
Proof.
  split; [| split; [| split]]; [| | vm_compute; reflexivity | vm_compute; reflexivity].
  - intros x [<- | [<- | []]]; [exists 2, "name" | exists 1, "COST"]; (split; [reflexivity |]; split; [reflexivity |]);
      intros [| [| [| j]]] k E; cbn in E; try (injection E as <-); try discriminate; cbn; intros; try reflexivity; try discriminate; destruct j; discriminate.
  - cbn [filter nonblank]. constructor; [| constructor; [| constructor]]; (split; [cbn; repeat constructor |]; split; [reflexivity |]);
      intros [| [| [| i]]] x [| [| [| j]]] k E E' El; cbn in E, E'; try (injection E as <-); try (injection E' as <-); try discriminate; try reflexivity;
      try (destruct i; discriminate); try (destruct j; discriminate).
Qed.

(** ** C83 Round trip *)

(** Without data types, a numeric key comes back as text, True as text, and a
    string in a data field comes back as a number if it looks like one. *)
Theorem C83_refuted : exists date_of float_of show_num show_date f (d : obj) dir e,
  decl_ok (f_decl f) = true /\ obj_ok (plain_schema f) d /\
  csv_write date_of show_num show_date f true false d = Ret dir /\ csv_create date_of float_of f true dir = Ret e /\
  d "items" = OKeyed [(KAtom (int 1), [VStr "7"]); (KAtom (VStr "a"), [VBool true])] /\
  e "items" = OKeyed [(KAtom (VStr "1"), [int 7]); (KAtom (VStr "a"), [VStr "True"])].
Proof.
  exists wi_date, wc_float, wc_num, wc_show, wc_one, (fun _ => OKeyed [(KAtom (int 1), [VStr "7"]); (KAtom (VStr "a"), [VBool true])]). eexists. eexists.
  refine (conj _ (conj _ (conj _ (conj _ (conj _ _))))); [vm_compute; reflexivity | | vm_compute; reflexivity | vm_compute; reflexivity | reflexivity | vm_compute; reflexivity].
  intros t ts H. vm_compute in H. destruct H as [E | []]. injection E as <- <-. unfold table_ok. simpl.
  intros k r [E | [E | []]]; injection E as <- <-; simpl; auto.
Qed.
Print Assumptions C83_refuted.

(** If every cell comes back ([csv_trip]: converted, written as text, read) then
    so does the object, from the directory alone or with other files beside
    ([unrelated]: not for any table), listed in any order; with or without a
    header, with or without prettified names. *)
Theorem C83_round_trip : forall date_of float_of show_num show_date f hdr pretty d, decl_ok (f_decl f) = true -> all_plain f ->
  obj_ok (plain_schema f) d -> obj_keys (plain_schema f) d -> proper_keys (plain_schema f) d ->
  cells_kept f (csv_trip date_of float_of show_num show_date f) d ->
  params_kept date_of float_of f (csv_trip date_of float_of show_num show_date f) d ->
  exists dir, csv_write date_of show_num show_date f hdr pretty d = Ret dir /\
    forall dir' others, Permutation dir' (dir ++ others) -> unrelated f others ->
      exists e, csv_create date_of float_of f hdr dir' = Ret e /\ forall t ts, In (t, ts) (plain_schema f) -> e t = d t.
Proof. exact csv_round_trip. Qed.
Print Assumptions C83_round_trip.

(** The cells that come back: what is written must be told from its text
    ([told_apart]: numbers where numbers are tried, other strings than numbers
    there, no empty strings, None where the empty string means None) and come back
    through the infinity flag (C34). *)
Theorem C83_cells : forall date_of float_of show_num show_date f t ts x v u, t <> "parameters" \/ f_params f = [] ->
  fst (write_cell date_of (mkIO f []) t x v) = Ret u -> told_apart date_of float_of show_num f t x u ->
  fst (read_cell date_of float_of (mkIO f []) t x u) = Ret v -> csv_trip date_of float_of show_num show_date f t ts x v v.
Proof.
  intros date_of float_of show_num show_date f t ts x v u Hp Hw Ht Hr. apply not_params in Hp. exists u. split; auto. now rewrite cell_told_apart.
Qed.
Print Assumptions C83_cells.

Theorem C83_dates : forall date_of float_of show_num show_date f t x d dt, t <> "parameters" -> is_table f t = true ->
  field_type f t x = Some dt -> datetime dt = true -> number_allowed dt = false ->
  show_date d <> "" -> date_of (VStr (show_date d)) = Some d ->
  csv_cell date_of float_of f t x (VStr (csv_text show_num show_date (VDate d))) = Ret (VDate d).
Proof. intros. apply cell_date with (dt := dt); auto. apply not_params. now left. Qed.
Print Assumptions C83_dates.

(** What does not: anything but a string in a field where no numbers or datetimes
    are tried, and the empty string where None is allowed. *)
Theorem C83_lost : forall date_of float_of show_num show_date f t ts x v, t <> "parameters" ->
  try_float (dv_dt f t x) = false ->
  (forall dt, field_type f t x = Some dt -> datetime dt = false /\ number_allowed dt = false) ->
  (forall u, fst (write_cell date_of (mkIO f []) t x v) = Ret u -> csv_text show_num show_date u <> "") ->
  (forall y, v <> VStr y) -> ~ csv_trip date_of float_of show_num show_date f t ts x v v.
Proof.
  intros date_of float_of show_num show_date f t ts x v Ht Hf Hdt Hne Hv (u & A & B). assert (treats_params f t = false) as Hp by (apply not_params; now left). apply (Hv (csv_text show_num show_date u)).
  eapply cell_string; eauto.
Qed.
Print Assumptions C83_lost.

Theorem C83_empty_string : forall date_of float_of f t x dt, t <> "parameters" \/ f_params f = [] -> field_type f t x = Some dt -> nullable dt = true ->
  csv_cell date_of float_of f t x (VStr "") = fst (read_cell date_of float_of (mkIO f []) t x VNone).
Proof. intros date_of float_of f t x dt Hp. apply cell_blank. now apply not_params. Qed.
Print Assumptions C83_empty_string.

(** How texts are read, by the settings of the field: empty cells are None exactly
    in fields that take None, numeric texts are numbers exactly in fields for numbers. *)
Theorem C83_texts : forall date_of float_of f t x y, t <> "parameters" -> is_table f t = true -> f_flag f = VStr "N/A" ->
  (forall dt, shown_type f t x = Some dt -> datetime dt = false) -> float_of (VStr "") = None ->
  (y = "" -> blank_field f t x -> csv_cell date_of float_of f t x (VStr y) = Ret VNone) /\
  (y = "" -> ~ blank_field f t x -> csv_cell date_of float_of f t x (VStr y) = Ret (VStr "")) /\
  (forall w, number_field f t x -> float_of (VStr y) = Some w -> is_number w = true -> float_of w = Some w ->
     csv_cell date_of float_of f t x (VStr y) = Ret w) /\
  (y <> "" -> ~ number_field f t x \/ float_of (VStr y) = None -> csv_cell date_of float_of f t x (VStr y) = Ret (VStr y)).
Proof. exact cell_texts. Qed.
Print Assumptions C83_texts.

(** If None stands for infinity, blanks of a field that takes exactly one infinity
    and no None are read as that infinity. *)
Theorem C83_blank_infinity : forall date_of float_of f t x b, t <> "parameters" -> f_flag f = VNone -> is_table f t = true ->
  one_infinity date_of f t x b -> csv_cell date_of float_of f t x (VStr "") = Ret (inf_of b).
Proof. exact csv_blank. Qed.
Print Assumptions C83_blank_infinity.

Example C83_blank_infinity_ex : f_flag (wi_fac VNone) = VNone /\ is_table (wi_fac VNone) "items" = true /\
  one_infinity wi_date (wi_fac VNone) "items" "Cap" true /\
  csv_cell wi_date wc_float (wi_fac VNone) "items" "Cap" (VStr "") = Ret (VNum PInf).
Proof.
  split; [reflexivity |]. split; [reflexivity |]. split; [| vm_compute; reflexivity].
  eexists. split; [vm_compute; reflexivity |]. split; [reflexivity |]. split; [reflexivity |]. split; vm_compute; reflexivity.
Qed.

Example C83_texts_ex : f_flag wc_one = VStr "N/A" /\ wc_float (VStr "") = None /\ wc_float (int 7) = Some (int 7) /\
  number_field wc_one "items" "Cost" /\ ~ blank_field wc_one "items" "Cost" /\
  map (fun y => csv_cell wi_date wc_float wc_one "items" "Cost" (VStr y)) [""; "7"; "x"] =
    [Ret (VStr ""); Ret (int 7); Ret (VStr "x")].
Proof.
  split; [reflexivity |]. split; [reflexivity |]. split; [vm_compute; reflexivity |].
  split; [apply number_field_iff; vm_compute; reflexivity |].
  split; [rewrite <- blank_field_iff; vm_compute; discriminate | vm_compute; reflexivity].
Qed.

Example C83_ex : decl_ok (f_decl wc_fac) = true /\ all_plain wc_fac /\ (obj_ok (plain_schema wc_fac) wc_obj /\ obj_keys (plain_schema wc_fac) wc_obj /\ proper_keys (plain_schema wc_fac) wc_obj) /\
  cells_kept wc_fac (csv_trip wi_date wc_float wc_num wc_show wc_fac) wc_obj /\
  params_kept wi_date wc_float wc_fac (csv_trip wi_date wc_float wc_num wc_show wc_fac) wc_obj /\
  csv_write wi_date wc_num wc_show wc_fac true true wc_obj =
    Ret [("Parameters.csv", true, [["Key"; "Value"]; ["Big"; "7"]]);
         ("Items.csv", true, [["Name"; "Cost"; "Cap"; "Day"]; ["b"; "3"; "1000"; "2020-01-01"]; ["7"; "x"; "999"; "2020-01-01"]]);
         ("Log.csv", true, [["What"; "Amount"]; ["it's"; "1"]; ["7"; "seven"]])] /\
  unrelated wc_fac [("notes.csv", true, [["?"]]); ("items.csv", false, [])] /\
  told_apart wi_date wc_float wc_num wc_fac "items" "Cost" (int 3) /\ told_apart wi_date wc_float wc_num wc_fac "items" "Name" (VStr "7").
Proof.
  refine (conj _ (conj wc_all_plain (conj wc_obj_ok (conj wc_cells (conj wc_params (conj _ (conj _ (conj _ _)))))))); [vm_compute; reflexivity | vm_compute; reflexivity | | |].
  - intros name file t [E | [E | []]] Ht; [injection E as <- <- | discriminate]. vm_compute in Ht. destruct Ht as [<- | [<- | [<- | []]]]; vm_compute; discriminate.
  - unfold told_apart. refine (conj _ (conj _ _)); vm_compute; congruence.
  - unfold told_apart. split; [discriminate | left; vm_compute; reflexivity].
Qed.

(** ** C85 Rows with equal keys *)

(** A factory told to assert that no rows are lost loses one of two. *)
Theorem C85_csv_refuted : exists date_of float_of f dir e,
  decl_ok (f_decl f) = true /\ f_dup f = VStr "assert" /\
  dir = [("items.csv", true, [["Name"; "Cost"]; ["a"; "1"]; ["a"; "2"]])] /\
  csv_create date_of float_of f true dir = Ret e /\ e "items" = OKeyed [(KAtom (VStr "a"), [int 2])].
Proof.
  exists wi_date, wc_float, wc_strict, [("items.csv", true, [["Name"; "Cost"]; ["a"; "1"]; ["a"; "2"]])]. eexists.
  refine (conj _ (conj _ (conj eq_refl (conj _ _)))); vm_compute; reflexivity.
Qed.
Print Assumptions C85_csv_refuted.

(** Whatever the setting, if the files can be read the object is created from
    the rows ([rows t]), ... *)
Theorem C85_csv_created : forall date_of float_of f hdr dir (rows : string -> list (list value)), decl_ok (f_decl f) = true ->
  (forall t ts, In (t, ts) (plain_schema f) -> table_rows date_of float_of f hdr dir t ts (rows t)) ->
  exists e, csv_create date_of float_of f hdr dir = Ret e /\
    forall t ts, In (t, ts) (plain_schema f) -> t <> "parameters" \/ f_params f = [] -> e t = rows_table ts (rows t).
Proof.
  intros date_of float_of f hdr dir rows Hd H. destruct (csv_created date_of float_of f hdr dir rows Hd H) as (e & A & B). exists e. split; [exact A |].
  intros t ts Hin Hp. apply B; [exact Hin | now apply not_params].
Qed.
Print Assumptions C85_csv_created.

(** ... where the last row of each key is the one that stays, and none is lost
    exactly if no key is counted twice. *)
Theorem C85_rows_kept : forall ts rs, tpk ts <> [] -> exists l, rows_table ts rs = OKeyed l /\
  no_equal_keys (map fst l) /\
  (forall i r, nth_error rs i = Some r ->
     (forall j r', i < j -> nth_error rs j = Some r' -> pkey_eqb (key_of ts r) (key_of ts r') = false) ->
     exists k, In (k, skipn (List.length (tpk ts)) r) l /\ pkey_eqb k (key_of ts r) = true) /\
  (forall k r, In (k, r) l -> exists i r0, nth_error rs i = Some r0 /\ r = skipn (List.length (tpk ts)) r0 /\ pkey_eqb k (key_of ts r0) = true /\
     forall j r', i < j -> nth_error rs j = Some r' -> pkey_eqb (key_of ts r0) (key_of ts r') = false) /\
  (List.length l = List.length rs <-> counted (map (key_of ts) rs) = []).
Proof. exact rows_table_keyed. Qed.
Print Assumptions C85_rows_kept.

(** [find_duplicates] reports those counts, ... *)
Theorem C85_csv_report : forall date_of float_of f hdr dir (rows : string -> list (list value)), decl_ok (f_decl f) = true ->
  (forall t ts, In (t, ts) (plain_schema f) -> tpk ts <> [] -> table_rows date_of float_of f hdr dir t ts (rows t)) ->
  exists rep, csv_duplicates date_of float_of f hdr dir = Ret rep /\
    forall t l, In (t, l) rep <-> exists ts, In (t, ts) (plain_schema f) /\ tpk ts <> [] /\ l = counted (map (key_of ts) (rows t)) /\ l <> [].
Proof. exact csv_report. Qed.
Print Assumptions C85_csv_report.

(** ... which are right. *)
Theorem C85_counts : forall ks,
  (forall k n, In (k, n) (counted ks) -> In k ks /\ n = times k ks /\ 1 < n) /\
  (forall k, In k ks -> 1 < times k ks -> exists k', In (k', times k ks) (counted ks) /\ pkey_eqb k' k = true) /\
  no_equal_keys (map fst (counted ks)).
Proof. exact counted_exact. Qed.
Print Assumptions C85_counts.

Example C85_csv_ex : let dir := [("items.csv", true, [["Name"; "Cost"]; ["a"; "1"]; ["b"; "7"]; ["a"; "2"]])] in
  table_rows wi_date wc_float wc_strict true dir "items" (mkT ["Name"] ["Cost"]) [[VStr "a"; int 1]; [VStr "b"; int 7]; [VStr "a"; int 2]] /\
  csv_duplicates wi_date wc_float wc_strict true dir = Ret [("items", [(KAtom (VStr "a"), 2)])] /\
  rows_table (mkT ["Name"] ["Cost"]) [[VStr "a"; int 1]; [VStr "b"; int 7]; [VStr "a"; int 2]] =
    OKeyed [(KAtom (VStr "a"), [int 2]); (KAtom (VStr "b"), [int 7])].
Proof.
  split; [| split]; [| vm_compute; reflexivity | vm_compute; reflexivity]. right. eexists. split; [vm_compute; reflexivity |]. vm_compute; reflexivity.
Qed.

(** ** C43 Existing files *)

(** What a call that succeeds leaves of the other files: everything under other
    names, and everything at all if overwriting is not allowed and the tables keep
    their names. *)
Theorem C43_other_files_stay : forall date_of show_num show_date f hdr pretty allow dir d dir' e,
  csv_save date_of show_num show_date f hdr pretty allow dir d = Ret dir' -> In e dir ->
  (forall t, In t (map fst (f_decl f)) -> fst (fst e) <> csv_name pretty (map fst (f_decl f)) t) -> In e dir'.
Proof. exact others_stay. Qed.
Print Assumptions C43_other_files_stay.

Theorem C43_files_stay : forall date_of show_num show_date f hdr dir d dir' e,
  csv_save date_of show_num show_date f hdr false false dir d = Ret dir' -> In e dir -> In e dir'.
Proof.
  intros date_of show_num show_date f hdr dir d dir' e. apply nothing_overwritten. intros t Ht. unfold csv_name, out_name, use_pretty. reflexivity.
Qed.
Print Assumptions C43_files_stay.

Example C43_files_ex : let dir := [("notes.txt", true, [["?"]]); ("Items.csv", true, [["mine"]])] in
  csv_save wi_date wc_num wc_show wc_one true false false dir (fun _ => OKeyed []) = Ret (dir ++ [("items.csv", true, [["Name"; "Cost"]])]) /\
  csv_save wi_date wc_num wc_show wc_one true true false dir (fun _ => OKeyed []) = Ret [("notes.txt", true, [["?"]]); ("Items.csv", true, [["Name"; "Cost"]])].
Proof. split; vm_compute; reflexivity. Qed.
