(** * Property theorems: C82, C84 and the rest of C85 (Excel). *)
From Coq Require Import ZArith Bool List String Ascii Arith Lia Permutation.
From Verif Require Import PyVal PyValFacts PyDict PyStr TypeDict Data FindTypes Obj ObjFacts ObjMore Factory InfIO InfIOFacts Params Names NamesFacts
  Utils Json JsonDups ObjRows TripFacts Csv CsvTrip CsvMore Xls XlsFacts XlsMore XlsCells XlsBlank CsvWitness InfWitness JsonWitness SqlWitness.
From Verif Require PanFilesTrip CsvCells ListFacts UtilsMore.
Import ListNotations.
Local Open Scope string_scope.
Local Open Scope list_scope.

(** ** C46 Tables that would share a sheet *)

(** Tables whose names agree in the first 30 characters are refused before anything is read or
    looked at; the sheets a writer makes for the others have different names. *)
Theorem C46_shared_refused : forall date_of float_of f b headers inf offsets t t',
  In t (map fst (f_decl f)) -> In t' (map fst (f_decl f)) -> t <> t' -> stake 30 t = stake 30 t' ->
  xls_create date_of float_of f b headers inf offsets = Raise /\
  xls_duplicates date_of float_of f b headers offsets = Raise /\
  forall asked, write_sheets asked (map fst (f_decl f)) = Raise.
Proof.
  intros date_of float_of f b headers inf offsets t t' H H' N E. unfold xls_create, xls_duplicates, write_sheets.
  assert (sheets_differ (map fst (f_decl f)) = false) as ->; [| repeat split].
  apply PanFilesTrip.sheets_differ_false. now exists t, t'.
Qed.
Print Assumptions C46_shared_refused.

(** Tables whose names differ within 30 characters, whatever the case, are all written, in the order asked for. *)
Theorem C46_written : forall decl order asked, decl_ok decl = true -> Permutation order (map fst decl) ->
  NoDup (map (fun t => stake 30 (lower t)) order) ->
  exists names, write_sheets asked order = Ret names /\ Forall2 (fun t s => stake 30 (unspace s) = stake 30 (lower t)) order names.
Proof.
  intros decl order asked Hd P N. pose proof (legal_names_perm _ _ (decl_ok_legal _ Hd) (Permutation_sym P)) as L.
  assert (forall t, In t order -> stake 30 (unspace (sheet_name asked order t)) = stake 30 (lower t)) as Hs.
  { intros t Ht. symmetry. apply String.eqb_eq. apply (sheet_match_iff asked order t t); [now apply L | reflexivity]. }
  exists (map (sheet_name asked order) order). split.
  - apply write_sheets_written.
    + destruct (sheets_differ order) eqn:E; [reflexivity | exfalso]. apply PanFilesTrip.sheets_differ_false in E as (t & t' & Ht & Ht' & Hne & E).
      apply Hne. apply (ListFacts.NoDup_map_inj_in _ _ _ _ N); auto. change (stake longest_sheet (lower t) = stake longest_sheet (lower t')).
      rewrite !stake_lower. now rewrite E.
    + assert (forall a b, In a order -> In b order -> lower (sheet_name asked order a) = lower (sheet_name asked order b) -> a = b) as Hi.
      { intros x y Hx Hy E. apply (ListFacts.NoDup_map_inj_in _ _ _ _ N); auto. rewrite <- (Hs x Hx), <- (Hs y Hy). unfold unspace. now rewrite E. }
      apply NoDup_map_inv in N. revert Hi.
      set (g := fun t => lower (sheet_name asked order t)). change ((forall a b, In a order -> In b order -> g a = g b -> a = b) -> NoDup (map g order)).
      clearbody g. clear -N. induction order as [| t l IH]; intros Hi; [constructor |].
      inversion N as [| ? ? N1 N2]; subst. cbn [map]. constructor; [| apply IH; auto; intros; apply Hi; simpl; auto].
      intros Hin. apply in_map_iff in Hin as (t' & E & Ht'). apply N1. replace t with t'; auto. apply Hi; simpl; auto.
  - revert Hs. generalize (sheet_name asked order). intros g Hs. clear -Hs. induction order as [| t l IH]; constructor; [apply Hs; now left |].
    apply IH. intros; apply Hs; now right.
Qed.
Print Assumptions C46_written.

Definition w46_fac : factory :=
  match init [("quantities_of_everything_in_th_kitchen", Fields (mkT ["a"] [])); ("quantities_of_everything_in_th_store", Fields (mkT ["a"] []))] with
  | Some f => f | None => wi_f0 end.
Example C46_shared_ex : map fst (f_decl w46_fac) = ["quantities_of_everything_in_th_kitchen"; "quantities_of_everything_in_th_store"] /\
  stake 30 "quantities_of_everything_in_th_kitchen" = stake 30 "quantities_of_everything_in_th_store" /\
  sheets_differ ["quantities_of_everything_kitchen"; "quantities_of_everything_store"] = true.
Proof. repeat split. Qed.

(** ** C82 Columns of sheets *)

(** An .xlsx sheet whose rows begin after two empty ones, with the offset that
    leads to its header: [nrows] counts the rows from the first one that is used,
    so the offset seems to be beyond the end. *)
Definition w82_sheet : sheet := mkSheet 3 [[VNone; VNone]; [VNone; VNone]; [VStr "Name"; VStr "Cost"]; [VStr "a"; int 1]].
Theorem C82_refuted : exists date_of float_of f ts,
  (forall x, In x (tfields ts) -> exists j, one_header (nth 2 (sh_rows w82_sheet) []) x j) /\
  xls_rows date_of float_of f (mkBook None []) true true 2 "items" ts w82_sheet = Raise /\
  xls_rows date_of float_of f (mkBook (Some (fun _ => None)) []) true true 2 "items" ts w82_sheet = Ret [[VStr "a"; int 1]] /\
  xls_rows date_of float_of f (mkBook None []) true true 2 "items" ts (mkSheet 1 (sh_rows w82_sheet)) = Ret [[VStr "a"; int 1]].
Proof.
  exists wi_date, wc_float, wc_one, (mkT ["Name"] ["Cost"]).
  refine (conj _ (conj _ (conj _ _))); [| vm_compute; reflexivity | vm_compute; reflexivity | vm_compute; reflexivity].
  intros x [<- | [<- | []]]; [exists 0 | exists 1]; (split; [eexists; split; reflexivity |]);
    intros [| [| j]] (k & E & El); cbn in E; try reflexivity; try discriminate; try (injection E as <-; discriminate El); destruct j; discriminate.
Qed.
Print Assumptions C82_refuted.

(** If the row at the offset is not beyond [book_nrows] and has exactly one cell for
    each field, up to case, the rows are those the lines after it show in these
    columns: their order, the case of the header and further columns, empty headers
    and headers that are no text make no difference. *)
Theorem C82_columns : forall date_of float_of f b inf t ts s offset rs, offset < book_nrows b s ->
  (forall x, In x (tfields ts) -> exists j, one_header (nth offset (sh_rows s) []) x j) ->
  Forall2 (cells_of ts (nth offset (sh_rows s) [])) (data_lines f b true offset s) rs ->
  xls_rows date_of float_of f b true inf offset t ts s =
  mapO (fun r => mapO (fun xv => xls_cell date_of float_of f b inf t (fst xv) (snd xv)) (combine (tfields ts) r)) rs.
Proof. exact xls_found. Qed.
Print Assumptions C82_columns.

(** [book_nrows] is right if the sheet begins in its first row, or for .xls. *)
Theorem C82_offset : forall b s, is_xls b = true \/ sh_min s = 1 -> sh_rows s <> [] -> book_nrows b s = List.length (sh_rows s).
Proof.
  intros b s H Hne. unfold book_nrows. destruct (is_xls b); auto. destruct H as [H | H]; [discriminate |]. unfold nrows. rewrite H.
  destruct (sh_rows s); [contradiction | simpl; lia].
Qed.
Print Assumptions C82_offset.

(** Otherwise the sheet is refused, even if it has no lines. *)
Theorem C82_refused : forall date_of float_of f b inf t ts s offset x, In x (tfields ts) ->
  (book_nrows b s <= offset \/ (forall j, ~ header_at (nth offset (sh_rows s) []) x j) \/
   exists j j', j <> j' /\ header_at (nth offset (sh_rows s) []) x j /\ header_at (nth offset (sh_rows s) []) x j') ->
  xls_rows date_of float_of f b true inf offset t ts s = Raise.
Proof. exact xls_refused. Qed.
Print Assumptions C82_refused.

(** Without header the cells are taken in the order of the fields. *)
Theorem C82_no_header : forall date_of float_of f b inf t ts s offset,
  (forall r, In r (sh_rows s) -> List.length (tfields ts) <= List.length r) -> offset < List.length (sh_rows s) ->
  xls_rows date_of float_of f b false inf offset t ts s =
  mapO (fun line => mapO (fun xv => xls_cell date_of float_of f b inf t (fst xv) (snd xv)) (combine (tfields ts) (firstn (List.length (tfields ts)) line)))
    (data_lines f b false offset s).
Proof. exact xls_plain_found. Qed.
Print Assumptions C82_no_header.

(** The lines read: for .xlsx files and a factory told to prune, those up to the last
    one that is not blank (of a sheet that begins in its first row, cf. C47); with any
    other setting, and for .xls files, all of them. *)
Theorem C82_lines_pruned : forall f sheets s, f_xlsx f = VStr "prune" -> sh_min s = 1 -> exists kept dropped,
  sh_rows s = kept ++ dropped /\
  (forall headers offset, data_lines f (mkBook None sheets) headers offset s = skipn (offset + if headers then 1 else 0) kept) /\
  (forall r v, In r dropped -> In v r -> v = VNone) /\
  (kept = [] \/ exists front r v, kept = front ++ [r] /\ In v r /\ v <> VNone).
Proof.
  intros f sheets s Hf Hs. destruct (UtilsMore.sheet_prune_exact s Hs) as (kept & dropped & A & B & C & K). exists kept, dropped.
  split; [exact A |]. split. { intros headers offset. unfold data_lines, pruned. rewrite Hf. apply B. } split.
  - intros r v Hr. now apply UtilsMore.empty_row_iff, C.
  - destruct K as [K | (front & r & -> & K)]; [now left | right]. apply UtilsMore.nonempty_row_iff in K as (v & Hv & Hn). exists front, r, v. auto.
Qed.
Print Assumptions C82_lines_pruned.

Theorem C82_lines_kept : forall f b s headers offset, f_xlsx f <> VStr "prune" \/ bk_xldate b <> None ->
  data_lines f b headers offset s = skipn (offset + if headers then 1 else 0) (sh_rows s).
Proof.
  intros f b s headers offset H. unfold data_lines. replace (pruned f b) with false; [unfold rows_read, wrapped_max_row; now rewrite firstn_all |].
  symmetry. unfold pruned, is_xls. destruct H as [H | H]; [| destruct (bk_xldate b); [reflexivity | contradiction]].
  apply andb_false_intro2. destruct (value_eqb (f_xlsx f) (VStr "prune")) eqn:E; [| reflexivity]. apply value_eqb_eq in E. contradiction.
Qed.
Print Assumptions C82_lines_kept.

Definition w82_tail : sheet := mkSheet 1 [[VStr "Name"; VStr "Cost"]; [VStr "a"; int 3]; [VNone; VNone]; [VStr "b"; int 4]; [VNone; VNone]].
Example C82_lines_ex : f_xlsx wc_one = VStr "prune" /\
  data_lines wc_one (mkBook None []) true 0 w82_tail = [[VStr "a"; int 3]; [VNone; VNone]; [VStr "b"; int 4]] /\
  data_lines wc_one (mkBook (Some (fun _ => None)) []) true 0 w82_tail = skipn 1 (sh_rows w82_tail).
Proof. refine (conj _ (conj _ _)); vm_compute; reflexivity. Qed.

Definition w82_good : sheet :=
  mkSheet 1 [[VStr "title"; VNone; VNone; VNone]; [VStr "COST"; VNone; int 3; VStr "name"]; [int 3; VNone; VStr "?"; VStr "a"]; [int 7; VNone; VNone; VStr ""]].
Example C82_ex : let ts := mkT ["Name"] ["Cost"] in let b := mkBook None [] in
  1 < book_nrows b w82_good /\ (forall x, In x (tfields ts) -> exists j, one_header (nth 1 (sh_rows w82_good) []) x j) /\
  Forall2 (cells_of ts (nth 1 (sh_rows w82_good) [])) (data_lines wc_one b true 1 w82_good) [[VStr "a"; int 3]; [VStr ""; int 7]] /\
  xls_rows wi_date wc_float wc_one b true true 1 "items" ts w82_good = Ret [[VStr "a"; int 3]; [VStr ""; int 7]] /\
  xls_rows wi_date wc_float wc_one b true true 0 "items" ts w82_good = Raise /\
  xls_rows wi_date wc_float wc_one b true true 0 "items" ts (mkSheet 1 [[VStr "Name"; VStr "Cost"; VStr "NAME"]]) = Raise.
Proof.
  refine (conj _ (conj _ (conj _ (conj _ (conj _ _))))); [vm_compute; lia | | | vm_compute; reflexivity | vm_compute; reflexivity | vm_compute; reflexivity].
  - intros x [<- | [<- | []]]; [exists 3 | exists 0]; (split; [eexists; split; reflexivity |]);
      intros [| [| [| [| j]]]] (k & E & El); cbn in E; try reflexivity; try discriminate; try (injection E as <-; discriminate El); destruct j; discriminate.
  - vm_compute (data_lines _ _ _ _ _). constructor; [| constructor; [| constructor]]; (split; [reflexivity |]);
      intros [| [| i]] x [| [| [| [| j]]]] E (k & E' & El); cbn in E, E'; try (injection E as <-); try (injection E' as <-); try discriminate; try reflexivity;
      try (destruct i; discriminate); try (destruct j; discriminate).
Qed.

(** ** C84 Round trip *)

(** With default settings the name Inf comes back as a number. *)
Theorem C84_refuted : exists date_of float_of show_date saved f (d : obj) sheets e,
  decl_ok (f_decl f) = true /\ obj_ok (plain_schema f) d /\
  xls_write date_of show_date saved f false false d = Ret sheets /\
  xls_create date_of float_of f (mkBook None sheets) true true (fun _ => 0) = Ret e /\
  d "items" = OKeyed [(KAtom (VStr "Inf"), [int 1])] /\ e "items" = OKeyed [(KAtom (VNum PInf), [int 1])].
Proof.
  exists wi_date, wc_float, wc_show, wx_saved, wc_one, (fun _ => OKeyed [(KAtom (VStr "Inf"), [int 1])]). eexists. eexists.
  refine (conj _ (conj _ (conj _ (conj _ (conj _ _))))); [vm_compute; reflexivity | | vm_compute; reflexivity | vm_compute; reflexivity | reflexivity | vm_compute; reflexivity].
  intros t ts H. vm_compute in H. destruct H as [E | []]. injection E as <- <-. unfold table_ok. simpl.
  intros k r [E | []]; injection E as <- <-; simpl; auto.
Qed.
Print Assumptions C84_refuted.

(** If every cell comes back ([xls_trip]: prepared, kept by the libraries, read) and
    no row is found entirely empty, then the object comes back, from the workbook
    written or one with further sheets ([unrelated_sheets]: not for any table), in
    any order; .xls or .xlsx, with or without prettified names. *)
Theorem C84_round_trip : forall date_of float_of show_date saved f xldate pretty inf d names, decl_ok (f_decl f) = true -> all_plain f ->
  write_sheets pretty (map fst (f_decl f)) = Ret names ->
  obj_ok (plain_schema f) d -> obj_keys (plain_schema f) d -> proper_keys (plain_schema f) d ->
  cells_kept f (xls_trip date_of float_of show_date saved f xldate inf) d ->
  params_kept date_of float_of f (xls_trip date_of float_of show_date saved f xldate inf) d ->
  rows_visible date_of show_date saved f xldate d ->
  exists sheets, xls_write date_of show_date saved f (match xldate with Some _ => true | None => false end) pretty d = Ret sheets /\
    forall sheets' others, Permutation sheets' (sheets ++ others) -> NoDup (map fst sheets') -> unrelated_sheets f others ->
      exists e, xls_create date_of float_of f (mkBook xldate sheets') true inf (fun _ => 0) = Ret e /\
        forall t ts, In (t, ts) (plain_schema f) -> e t = d t.
Proof. exact xls_round_trip. Qed.
Print Assumptions C84_round_trip.

(** The cells that come back: those that come back through the infinity flag (C34),
    if the libraries keep them and they are not empty strings, the words for
    infinity, or numbers in datetime fields ([ordinary]); ... *)
Theorem C84_cells : forall date_of float_of show_date saved f xldate inf t ts x v u,
  clean_for_write date_of show_date f (match xldate with Some _ => true | None => false end) t x v = Ret u -> saved u = Ret u ->
  ordinary f xldate inf t x u -> fst (read_cell date_of float_of (mkIO f []) t x u) = Ret v ->
  xls_trip date_of float_of show_date saved f xldate inf t ts x v v.
Proof. exact xls_cell_kept. Qed.
Print Assumptions C84_cells.

(** ... and infinities and datetimes, which are written as text. *)
Theorem C84_infinity : forall date_of float_of show_date saved f t ts x n, f_flag f = VStr "N/A" -> t <> "parameters" \/ f_params f = [] ->
  n = PInf \/ n = NInf -> (forall y, y = "inf" \/ y = "-inf" -> saved (VStr y) = Ret (VStr y)) ->
  xls_trip date_of float_of show_date saved f None true t ts x (VNum n) (VNum n).
Proof. intros date_of float_of show_date saved f t ts x n Hf Hp. apply CsvCells.not_params in Hp. intros. now apply xlsx_infinity. Qed.
Print Assumptions C84_infinity.

Theorem C84_dates : forall date_of float_of show_date saved f xldate inf t ts x d dt, t <> "parameters" -> is_table f t = true ->
  field_type f t x = Some dt -> datetime dt = true -> f_flag f <> VNone ->
  show_date d <> "" -> lower (show_date d) <> "inf" -> lower (show_date d) <> "-inf" ->
  saved (VStr (show_date d)) = Ret (VStr (show_date d)) -> date_of (VStr (show_date d)) = Some d ->
  xls_trip date_of float_of show_date saved f xldate inf t ts x (VDate d) (VDate d).
Proof. intros. apply xls_date with (dt := dt); auto. apply CsvCells.not_params. now left. Qed.
Print Assumptions C84_dates.

(** If None stands for infinity, the infinity of a field that takes exactly one and
    no None comes back, whether the library shows blank cells as None or as empty
    strings. *)
Theorem C84_none_flag : forall date_of float_of show_date saved f xldate inf t ts x b, t <> "parameters" -> f_flag f = VNone -> is_table f t = true ->
  one_infinity date_of f t x b -> saved VNone = Ret VNone \/ saved VNone = Ret (VStr "") ->
  xls_trip date_of float_of show_date saved f xldate inf t ts x (inf_of b) (inf_of b).
Proof. exact xls_none_trip. Qed.
Print Assumptions C84_none_flag.

Example C84_none_flag_ex : f_flag (wi_fac VNone) = VNone /\ is_table (wi_fac VNone) "items" = true /\ one_infinity wi_date (wi_fac VNone) "items" "Cap" true /\
  xls_cell wi_date wc_float (wi_fac VNone) (mkBook None []) true "items" "Cap" (VStr "") = Ret (VNum PInf) /\
  xls_cell wi_date wc_float (wi_fac VNone) (mkBook None []) true "items" "Cost" (VStr "") = Ret (VStr "").
Proof.
  split; [reflexivity |]. split; [reflexivity |]. split; [| split; vm_compute; reflexivity].
  eexists. split; [vm_compute; reflexivity |]. split; [reflexivity |]. split; [reflexivity |]. split; vm_compute; reflexivity.
Qed.

Example C84_ex : decl_ok (f_decl wc_fac) = true /\ all_plain wc_fac /\ write_sheets true (map fst (f_decl wc_fac)) = Ret ["Parameters"; "Items"; "Log"] /\
  (obj_ok (plain_schema wc_fac) wc_obj /\ obj_keys (plain_schema wc_fac) wc_obj /\ proper_keys (plain_schema wc_fac) wc_obj) /\
  cells_kept wc_fac (xls_trip wi_date wc_float wc_show wx_saved wc_fac None true) wc_obj /\
  params_kept wi_date wc_float wc_fac (xls_trip wi_date wc_float wc_show wx_saved wc_fac None true) wc_obj /\
  rows_visible wi_date wc_show wx_saved wc_fac None wc_obj /\
  unrelated_sheets wc_fac [("notes", mkSheet 1 [])] /\
  ordinary wc_fac None true "items" "Name" (VStr "inf") /\
  xls_trip wi_date wc_float wc_show wx_saved wc_one None true "items" (mkT ["Name"] ["Cost"]) "Cost" (VNum PInf) (VNum PInf).
Proof.
  refine (conj _ (conj wc_all_plain (conj _ (conj wc_obj_ok (conj wx_cells (conj wx_params (conj wx_visible (conj _ (conj _ _))))))))).
  - vm_compute; reflexivity.
  - vm_compute; reflexivity.
  - intros name s t [E | []] Ht. injection E as <- <-. vm_compute in Ht. destruct Ht as [<- | [<- | [<- | []]]]; vm_compute; discriminate.
  - split; [discriminate | intros _; right; left; vm_compute; discriminate].
  - apply C84_infinity; auto. intros y [-> | ->]; reflexivity.
Qed.

(** ** C85 Rows with equal keys *)

Theorem C85_xls_refuted : exists date_of float_of f b e,
  decl_ok (f_decl f) = true /\ f_dup f = VStr "assert" /\
  b = mkBook None [("items", mkSheet 1 [[VStr "Name"; VStr "Cost"]; [VStr "a"; int 1]; [VStr "a"; int 2]])] /\
  xls_create date_of float_of f b true true (fun _ => 0) = Ret e /\ e "items" = OKeyed [(KAtom (VStr "a"), [int 2])].
Proof.
  exists wi_date, wc_float, wc_strict, (mkBook None [("items", mkSheet 1 [[VStr "Name"; VStr "Cost"]; [VStr "a"; int 1]; [VStr "a"; int 2]])]). eexists.
  refine (conj _ (conj _ (conj eq_refl (conj _ _)))); vm_compute; reflexivity.
Qed.
Print Assumptions C85_xls_refuted.

(** As for CSV files. *)
Theorem C85_xls_created : forall date_of float_of f b hdr inf offsets (rows : string -> list (list value)), decl_ok (f_decl f) = true ->
  sheets_differ (map fst (f_decl f)) = true ->
  (forall t ts, In (t, ts) (plain_schema f) -> sheet_rows date_of float_of f b hdr inf offsets t ts (rows t)) ->
  exists e, xls_create date_of float_of f b hdr inf offsets = Ret e /\
    forall t ts, In (t, ts) (plain_schema f) -> t <> "parameters" \/ f_params f = [] -> e t = rows_table ts (rows t).
Proof.
  intros date_of float_of f b hdr inf offsets rows Hd Hs H. destruct (xls_created date_of float_of f b hdr inf offsets rows Hd Hs H) as (e & A & B). exists e. split; [exact A |].
  intros t ts Hin Hp. apply B; [exact Hin | now apply CsvCells.not_params].
Qed.
Print Assumptions C85_xls_created.

(** The rows compared are those that would be read with [treat_inf_as_infinity]. *)
Theorem C85_xls_report : forall date_of float_of f b hdr offsets (rows : string -> list (list value)), decl_ok (f_decl f) = true ->
  sheets_differ (map fst (f_decl f)) = true ->
  (forall t ts, In (t, ts) (plain_schema f) -> tpk ts <> [] -> sheet_rows date_of float_of f b hdr true offsets t ts (rows t)) ->
  exists rep, xls_duplicates date_of float_of f b hdr offsets = Ret rep /\
    forall t l, In (t, l) rep <-> exists ts, In (t, ts) (plain_schema f) /\ tpk ts <> [] /\ l = counted (map (key_of ts) (rows t)) /\ l <> [].
Proof. exact xls_report. Qed.
Print Assumptions C85_xls_report.

(** Hence it is wrong about a file read without: Inf and inf are different names
    there. *)
Theorem C85_xls_inf_refuted : exists date_of float_of f b e,
  b = mkBook None [("Items", mkSheet 1 [[VStr "Name"; VStr "Cost"]; [VStr "inf"; int 1]; [VStr "Inf"; int 2]])] /\
  xls_create date_of float_of f b true false (fun _ => 0) = Ret e /\
  e "items" = OKeyed [(KAtom (VStr "inf"), [int 1]); (KAtom (VStr "Inf"), [int 2])] /\
  xls_duplicates date_of float_of f b true (fun _ => 0) = Ret [("items", [(KAtom (VNum PInf), 2)])].
Proof.
  exists wi_date, wc_float, wc_one. eexists. eexists. split; [reflexivity |]. split; [vm_compute; reflexivity |]. split; vm_compute; reflexivity.
Qed.
Print Assumptions C85_xls_inf_refuted.

Example C85_xls_ex :
  let b := mkBook None [("Items", mkSheet 1 [[VStr "Name"; VStr "Cost"]; [VStr "a"; int 1]; [VStr "b"; int 7]; [VStr "a"; int 2]])] in
  sheets_differ (map fst (f_decl wc_strict)) = true /\
  sheet_rows wi_date wc_float wc_strict b true true (fun _ => 0) "items" (mkT ["Name"] ["Cost"]) [[VStr "a"; int 1]; [VStr "b"; int 7]; [VStr "a"; int 2]] /\
  xls_duplicates wi_date wc_float wc_strict b true (fun _ => 0) = Ret [("items", [(KAtom (VStr "a"), 2)])].
Proof.
  split; [| split]; [vm_compute; reflexivity | | vm_compute; reflexivity]. right. eexists. split; [vm_compute; reflexivity |]. vm_compute; reflexivity.
Qed.
