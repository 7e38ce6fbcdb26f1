(** * Properties of PanDat files: C135-C139 *)
From Coq Require Import ZArith Bool List String Arith Lia Permutation.
From Verif Require Import PyVal PyValFacts PyDict PyDictFacts PyStr TypeDict Data FindTypes FK Obj Factory InfIO InfIOFacts PanIOFacts Params ParamsFacts Names Utils Json JsonWitness ObjRows
  Frames FramesFacts FramesPan PanIO PanRead PanJson PanMore PanIOWitness PanFiles PanFilesFacts PanFilesTrip PanFilesWitness.
Import ListNotations.
Local Open Scope string_scope.
Local Open Scope list_scope.

(** ** C135: a directory of CSV files.  The tables come back, None and NaN apart; nothing else in the directory changes;
    generic tables are written as they are. *)
Theorem C135_csv : forall date_of float_of settle show_date show_num str_of readable load fill f asked d g dir dir',
  loads show_date show_num readable load ->
  decl_ok (f_decl f) = true -> good_flag (f_flag f) = true -> params_shape f ->
  (forall t ts r, In (t, ts) (plain_schema f) -> In r (d t) -> file_row_ok date_of float_of show_date show_num false f t ts r) ->
  NoDup (map fst dir) ->
  (forall n t, In n (map fst dir) -> In t (map fst (f_decl f)) -> unspace n = append (lower t) ".csv" -> n = csv_name asked (map fst (f_decl f)) t) ->
  csv_write date_of f asked d g dir = Ret dir' ->
  fit readable f (text_field f) (fun t => dget String.eqb dir' (csv_name asked (map fst (f_decl f)) t)) ->
  (exists d', csv_read date_of float_of settle str_of load fill f dir' = Ret d' /\
    forall t ts, In (t, ts) (plain_schema f) -> Forall2 (Forall2 alike) (d t) (d' t)) /\
  (forall n, ~ In n (map (csv_name asked (map fst (f_decl f))) (map fst (f_decl f))) -> dget String.eqb dir' n = dget String.eqb dir n) /\
  (forall t, In (t, Generic) (f_decl f) -> dget String.eqb dir' (csv_name asked (map fst (f_decl f)) t) = Some (g t)).
Proof. intros. eapply csv_trip; eauto. split; auto. Qed.
Print Assumptions C135_csv.

(** Booleans among the parameters come back as text, since the whole column is read as text. *)
Theorem C135_bool_parameter_refuted : exists f d dir' d', decl_ok (f_decl f) = true /\ params_shape f /\
  d "parameters" = [[VStr "free"; VBool false]] /\
  (forall k v, In [k; v] (d "parameters") -> forall dt, param_type f k = Some dt -> valid_data (is_date wq_date) dt v = true) /\
  csv_write wq_date f false d wp_notes [] = Ret dir' /\
  csv_read wq_date wq_float wq_settle wq_str wp_load false f dir' = Ret d' /\
  d' "parameters" = [[VStr "free"; VStr "False"]].
Proof.
  exists wp_fac, (fun t => if String.eqb t "parameters" then [[VStr "free"; VBool false]] else []). eexists. eexists.
  split; [reflexivity |]. split; [apply wp_shape |]. split; [reflexivity |]. split.
  { intros k v [E | []]. injection E as <- <-. intros dt H. discriminate H. }
  split; [reflexivity |]. split; reflexivity.
Qed.
Print Assumptions C135_bool_parameter_refuted.

Example C135_ex :
  loads wq_show wp_shown wp_readable wp_load /\ decl_ok (f_decl wp_fac) = true /\ good_flag (f_flag wp_fac) = true /\ params_shape wp_fac /\
  (forall t ts r, In (t, ts) (plain_schema wp_fac) -> In r (wp_dat t) -> file_row_ok wq_date wq_float wq_show wp_shown false wp_fac t ts r) /\
  exists dir', csv_write wq_date wp_fac true wp_dat wp_notes [("other.txt", mkFr [] [] [])] = Ret dir' /\
    map fst dir' = ["other.txt"; "Items.csv"; "Notes.csv"; "Parameters.csv"] /\
    dget String.eqb dir' "Items.csv" = Some (mkFr [] (map CName ["Name"; "Cost"; "Day"; "Note"])
      [([], [VStr "a"; int 1000; VDate 5; VStr "7"]); ([], [VStr "b"; int 3; VNone; VNaN]); ([], [VNone; VNaN; VNaN; VNone])]) /\
    fit wp_readable wp_fac (text_field wp_fac) (fun t => dget String.eqb dir' (csv_name true (map fst (f_decl wp_fac)) t)) /\
    exists d', csv_read wq_date wq_float wq_settle wq_str wp_load false wp_fac dir' = Ret d' /\
      d' "items" = [[VStr "a"; VNum PInf; VDate 5; VStr "7"]; [VStr "b"; int 3; VNaN; VNaN]; [VNaN; VNaN; VNaN; VNaN]] /\
      d' "parameters" = wp_dat "parameters".
Proof.
  split; [apply wp_loads |]. split; [reflexivity |]. split; [reflexivity |]. split; [apply wp_shape |]. split; [apply wp_rows |].
  eexists. split; [reflexivity |]. split; [reflexivity |]. split; [reflexivity |]. split.
  { intros t ts fr text [E | [E | []]] Hf Ht; injection E as <- <-; injection Hf as <-; intros r c v Hr Hc.
    - assert (text "Note" = true) as Hn by (apply Ht; [simpl; auto | apply wp_text_iff; auto]). cbn [fr_rows fr_cols frame_of] in Hr, Hc.
      destruct Hr as [<- | [<- | [<- | []]]]; cbn in Hc; repeat (destruct Hc as [Hc | Hc]; [injection Hc as <- <-; cbn [wp_good]; rewrite ?Hn; try reflexivity; apply orb_true_r |]); contradiction.
    - assert (text "Value" = true) as Hn by (apply Ht; [simpl; auto | apply wp_text_iff; auto]). cbn [fr_rows fr_cols frame_of] in Hr, Hc.
      destruct Hr as [<- | [<- | [<- | []]]]; cbn in Hc; repeat (destruct Hc as [Hc | Hc]; [injection Hc as <- <-; cbn [wp_good]; rewrite ?Hn; try reflexivity; apply orb_true_r |]); contradiction. }
  eexists. split; [reflexivity |]. split; reflexivity.
Qed.

(** ** C136: an SQLite database.  pandas is not told which columns are text. *)
Theorem C136_sql : forall date_of float_of settle show_date show_num str_of readable load fill f asked d g db db',
  loads show_date show_num readable load ->
  decl_ok (f_decl f) = true -> good_flag (f_flag f) = true -> params_shape f ->
  (forall t ts r, In (t, ts) (plain_schema f) -> In r (d t) -> file_row_ok date_of float_of show_date show_num false f t ts r) ->
  NoDup (map lower (map fst db)) ->
  (forall n t, In n (map fst db) -> In t (map fst (f_decl f)) -> unspace n = lower t -> n = out_name asked (map fst (f_decl f)) t) ->
  sql_write date_of f asked d g db = Ret db' ->
  fit readable f (fun _ _ => False) (fun t => dget String.eqb db' (out_name asked (map fst (f_decl f)) t)) ->
  (exists d', sql_read date_of float_of settle str_of load fill f db' = Ret d' /\
    forall t ts, In (t, ts) (plain_schema f) -> Forall2 (Forall2 alike) (d t) (d' t)) /\
  (forall n x, ~ In n (map (out_name asked (map fst (f_decl f))) (map fst (f_decl f))) -> In (n, x) db' <-> In (n, x) db) /\
  (forall t, In (t, Generic) (f_decl f) -> In (out_name asked (map fst (f_decl f)) t, g t) db').
Proof. intros. eapply sql_trip; eauto. split; auto. Qed.
Print Assumptions C136_sql.

(** The same object, its texts changed so that none looks like a number. *)
Definition wp_dat_sql (t : string) : list (list value) :=
  if String.eqb t "items" then [[VStr "a"; VNum NInf; VDate 5; VStr "x"]; [VStr "b"; int 3; VNone; VNaN]] else wp_dat "parameters".

Example C136_ex :
  (forall t ts r, In (t, ts) (plain_schema wp_fac) -> In r (wp_dat_sql t) -> r = [VStr "a"; VNum NInf; VDate 5; VStr "x"] \/ In r (wp_dat t)) /\
  exists db', sql_write wq_date wp_fac false wp_dat_sql wp_notes [("other", mkFr [] [] [])] = Ret db' /\
    map fst db' = ["other"; "items"; "notes"; "parameters"] /\
    fit wp_readable wp_fac (fun _ _ => False) (fun t => dget String.eqb db' (out_name false (map fst (f_decl wp_fac)) t)) /\
    exists d', sql_read wq_date wq_float wq_settle wq_str wp_load false wp_fac db' = Ret d' /\
      d' "items" = [[VStr "a"; VNum NInf; VDate 5; VStr "x"]; [VStr "b"; int 3; VNaN; VNaN]] /\
      d' "parameters" = wp_dat "parameters".
Proof.
  split.
  { intros t ts r [E | [E | []]] Hr; injection E as <- <-; [destruct Hr as [<- | [<- | []]]; [left; reflexivity | right; simpl; auto] | right; exact Hr]. }
  eexists. split; [reflexivity |]. split; [reflexivity |]. split.
  { intros t ts fr text [E | [E | []]] Hf Ht; injection E as <- <-; injection Hf as <-; intros r c v Hr Hc; cbn [fr_rows fr_cols frame_of] in Hr, Hc;
      [destruct Hr as [<- | [<- | []]] | destruct Hr as [<- | [<- | [<- | []]]]]; cbn in Hc;
      repeat (destruct Hc as [Hc | Hc]; [injection Hc as <- <-; cbn [wp_good]; first [reflexivity | apply orb_true_r] |]); contradiction. }
  eexists. split; [reflexivity |]. split; reflexivity.
Qed.

(** ** C137: an Excel workbook.  If empty rows are pruned those at the end are lost and nothing else. *)
Theorem C137_xls : forall date_of float_of settle show_date show_num str_of readable load fill f asked d g book names,
  loads show_date show_num readable load ->
  decl_ok (f_decl f) = true -> good_flag (f_flag f) = true -> params_shape f ->
  (forall t ts r, In (t, ts) (plain_schema f) -> In r (d t) -> file_row_ok date_of float_of show_date show_num false f t ts r) ->
  write_sheets asked (map fst (f_decl f)) = Ret names ->
  xls_write date_of f asked d g = Ret book ->
  fit readable f (text_field f) (fun t => dget String.eqb book (sheet_name asked (map fst (f_decl f)) t)) ->
  (exists d', xls_read date_of float_of settle str_of load fill f book = Ret d' /\
    forall t ts, In (t, ts) (plain_schema f) ->
      if value_eqb (f_xlsx f) (VStr "prune")
      then exists kept dropped, d t = kept ++ dropped /\ Forall2 (Forall2 alike) kept (d' t) /\ (forall r, In r dropped -> forallb is_null r = true) /\
             (kept = [] \/ exists front r, kept = front ++ [r] /\ forallb is_null r = false)
      else Forall2 (Forall2 alike) (d t) (d' t)) /\
  (forall t, In (t, Generic) (f_decl f) -> dget String.eqb book (sheet_name asked (map fst (f_decl f)) t) = Some (g t)) /\ map fst book = names.
Proof. intros. eapply xls_trip; eauto. Qed.
Print Assumptions C137_xls.

Example C137_ex :
  write_sheets true (map fst (f_decl wp_fac)) = Ret ["Items"; "Notes"; "Parameters"] /\
  exists book, xls_write wq_date wp_fac true wp_dat wp_notes = Ret book /\
    fit wp_readable wp_fac (text_field wp_fac) (fun t => dget String.eqb book (sheet_name true (map fst (f_decl wp_fac)) t)) /\
    exists d', xls_read wq_date wq_float wq_settle wq_str wp_load false wp_fac book = Ret d' /\
      d' "items" = [[VStr "a"; VNum PInf; VDate 5; VStr "7"]; [VStr "b"; int 3; VNaN; VNaN]] /\
      d' "parameters" = wp_dat "parameters".
Proof.
  split; [reflexivity |]. eexists. split; [reflexivity |]. split.
  { intros t ts fr text [E | [E | []]] Hf Ht; injection E as <- <-; injection Hf as <-; intros r c v Hr Hc.
    - assert (text "Note" = true) as Hn by (apply Ht; [simpl; auto | apply wp_text_iff; auto]). cbn [fr_rows fr_cols frame_of] in Hr, Hc.
      destruct Hr as [<- | [<- | [<- | []]]]; cbn in Hc; repeat (destruct Hc as [Hc | Hc]; [injection Hc as <- <-; cbn [wp_good]; rewrite ?Hn; try reflexivity; apply orb_true_r |]); contradiction.
    - assert (text "Value" = true) as Hn by (apply Ht; [simpl; auto | apply wp_text_iff; auto]). cbn [fr_rows fr_cols frame_of] in Hr, Hc.
      destruct Hr as [<- | [<- | [<- | []]]]; cbn in Hc; repeat (destruct Hc as [Hc | Hc]; [injection Hc as <- <-; cbn [wp_good]; rewrite ?Hn; try reflexivity; apply orb_true_r |]); contradiction. }
  eexists. split; [reflexivity |]. split; reflexivity.
Qed.

(** ** C138: a json document of DataFrames ([write_file_pd]). *)
Theorem C138_json_pd : forall date_of float_of settle show_date show_num str_of readable load fill f asked d g doc,
  loads show_date show_num readable load ->
  decl_ok (f_decl f) = true -> good_flag (f_flag f) = true -> params_shape f ->
  (forall t ts r, In (t, ts) (plain_schema f) -> In r (d t) -> file_row_ok date_of float_of show_date show_num true f t ts r) ->
  pd_write date_of show_date f asked d g = Ret doc ->
  fit readable f (text_field f) (fun t => dget String.eqb doc (out_name asked (map fst (f_decl f)) t)) ->
  (exists d', pd_read date_of float_of settle str_of load fill f doc = Ret d' /\
    forall t ts, In (t, ts) (plain_schema f) -> Forall2 (Forall2 alike) (d t) (d' t)) /\
  map fst doc = map (out_name asked (map fst (f_decl f))) (map fst (f_decl f)).
Proof. intros. eapply pd_trip; eauto. Qed.
Print Assumptions C138_json_pd.

(** The dates that pandas is given to write are texts, in the fields for dates. *)
Theorem C138_dates : forall date_of show_date f asked d g doc t ts x fr r z,
  decl_ok (f_decl f) = true -> good_flag (f_flag f) = true ->
  (forall t ts r, In (t, ts) (plain_schema f) -> In r (d t) -> List.length r = List.length (tfields ts)) ->
  pd_write date_of show_date f asked d g = Ret doc ->
  In (t, ts) (plain_schema f) -> In (out_name asked (map fst (f_decl f)) t, fr) doc -> In r (fr_rows fr) -> In (CName x, VDate z) (combine (fr_cols fr) (snd r)) ->
  forall dt, field_type f t x = Some dt -> datetime dt = false.
Proof.
  intros date_of show_date f asked d g doc t ts x fr r z Hd G R E Hin Hdoc Hr Hc dt Hdt. unfold pd_write in E. apply bindO_ret in E as (w & Ew & E). injection E as <-.
  apply in_map_iff in Hdoc as (t' & E & Ht'). injection E as En <-. apply (NamesFacts.out_name_inj asked (map fst (f_decl f)) t' t) in En; auto;
    [subst t' | now apply NamesFacts.decl_ok_legal | apply in_plain in Hin; now apply (in_map fst) in Hin].
  unfold pd_frame in Hr, Hc. cbn [fr_rows fr_cols] in Hr, Hc. apply in_map_iff in Hr as (r0 & <- & Hr). cbn [snd] in Hc.
  assert (forall cs (l : list value), In (CName x, VDate z) (combine cs (map (fun cv : colname * value => match fst cv with CName y => pd_fix show_date f t y (snd cv) | CPos _ => snd cv end) (combine cs l))) ->
    exists v, pd_fix show_date f t x v = VDate z) as K.
  { induction cs as [| c cs IH]; intros [| v l]; simpl; try contradiction. intros [E | H]; [injection E as -> E; eauto | eauto]. }
  apply K in Hc as (v & Hv). unfold pd_fix in Hv. rewrite Hdt in Hv. destruct (datetime dt); auto. destruct v; discriminate Hv.
Qed.
Print Assumptions C138_dates.

Example C138_ex :
  exists doc, pd_write wq_date wq_show wp_fac false wp_dat wp_notes = Ret doc /\
    dget String.eqb doc "items" = Some (mkFr [] (map CName ["Name"; "Cost"; "Day"; "Note"])
      [([], [VStr "a"; int 1000; VStr "2020-01-01 00:00:00"; VStr "7"]); ([], [VStr "b"; int 3; VNone; VNaN]); ([], [VNone; VNaN; VNone; VNone])]) /\
    fit wp_readable wp_fac (text_field wp_fac) (fun t => dget String.eqb doc (out_name false (map fst (f_decl wp_fac)) t)) /\
    exists d', pd_read wq_date wq_float wq_settle wq_str wp_load false wp_fac doc = Ret d' /\
      d' "items" = [[VStr "a"; VNum PInf; VDate 5; VStr "7"]; [VStr "b"; int 3; VNaN; VNaN]; [VNaN; VNaN; VNaN; VNaN]] /\
      d' "parameters" = wp_dat "parameters".
Proof.
  eexists. split; [reflexivity |]. split; [reflexivity |]. split.
  { intros t ts fr text [E | [E | []]] Hf Ht; injection E as <- <-; injection Hf as <-; intros r c v Hr Hc.
    - assert (text "Note" = true) as Hn by (apply Ht; [simpl; auto | apply wp_text_iff; auto]). cbn in Hr.
      destruct Hr as [<- | [<- | [<- | []]]]; cbn in Hc; repeat (destruct Hc as [Hc | Hc]; [injection Hc as <- <-; cbn [wp_good]; rewrite ?Hn; try reflexivity; apply orb_true_r |]); contradiction.
    - assert (text "Value" = true) as Hn by (apply Ht; [simpl; auto | apply wp_text_iff; auto]). cbn in Hr.
      destruct Hr as [<- | [<- | [<- | []]]]; cbn in Hc; repeat (destruct Hc as [Hc | Hc]; [injection Hc as <- <-; cbn [wp_good]; rewrite ?Hn; try reflexivity; apply orb_true_r |]); contradiction. }
  eexists. split; [reflexivity |]. split; reflexivity.
Qed.

(** ** C139: the writers refuse an object exactly if None stands for infinity and a field allows both infinities but no None. *)
Definition unclear_nulls (date_of : value -> option Z) (f : factory) : Prop :=
  f_flag f = VNone /\ exists t ts x dt, In (t, Fields ts) (f_decl f) /\ t <> "parameters" /\ In x (tfields ts) /\
    field_type f t x = Some dt /\ number_allowed dt = true /\ valid_data (is_date date_of) dt VNone = false /\
    valid_data (is_date date_of) dt (VNum PInf) = true /\ valid_data (is_date date_of) dt (VNum NInf) = true.

(** Any number at all may be a cost, but no null. *)
Definition wq_both (flag : value) : factory :=
  mkF [("items", Fields wq_items)] [] [("items", [("Cost", mkDtype true true true NInf PInf false (SList []) false false)])] [] [] [] [] [] false
      flag (VStr "prune") (VStr "assert") (VBool true) false.

Lemma unclear_iff date_of f d g : frames_written date_of f d g = Raise <-> unclear_nulls date_of f.
Proof.
  rewrite written_raises. unfold unclear_nulls. split; intros (Ef & H); (split; [exact Ef |]).
  - destruct H as (t & ts & x & A & B & C & D). apply bias_raise in D as (dt & D). exists t, ts, x, dt. auto.
  - destruct H as (t & ts & x & dt & A & B & C & D). exists t, ts, x. repeat (split; auto). apply bias_raise. eauto.
Qed.

Theorem C139_written : forall date_of show_date f asked d g dir db,
  decl_ok (f_decl f) = true -> NoDup (map lower (map fst db)) ->
  (forall n t, In n (map fst db) -> In t (map fst (f_decl f)) -> unspace n = lower t -> n = out_name asked (map fst (f_decl f)) t) ->
  (csv_write date_of f asked d g dir = Raise <-> unclear_nulls date_of f) /\
  (sql_write date_of f asked d g db = Raise <-> unclear_nulls date_of f) /\
  (pd_write date_of show_date f asked d g = Raise <-> unclear_nulls date_of f) /\
  (xls_write date_of f asked d g = Raise <-> unclear_nulls date_of f \/
     exists t t', In t (map fst (f_decl f)) /\ In t' (map fst (f_decl f)) /\ t <> t' /\ stake 30 t = stake 30 t').
Proof.
  intros date_of show_date f asked d g dir db Hd N O. rewrite <- (unclear_iff date_of f d g). unfold csv_write, sql_write, pd_write, xls_write.
  pose proof (NamesFacts.decl_ok_legal _ Hd) as L.
  destruct (frames_written date_of f d g) as [w |]; cbn [bindO].
  - split; [split; discriminate |]. split.
    { destruct (sql_put_get asked (map fst (f_decl f)) w db L (conj N O)) as (db' & E & _). rewrite E. split; discriminate. }
    split; [split; discriminate |]. pose proof (sheets_differ_false (map fst (f_decl f))) as S. destruct (sheets_differ (map fst (f_decl f))).
    + split; [discriminate |]. intros [X | X]; [discriminate |]. apply S in X. discriminate.
    + split; auto. intros _. right. now apply S.
  - split; [tauto |]. split; [tauto |]. split; [tauto |]. destruct (sheets_differ (map fst (f_decl f))); tauto.
Qed.
Print Assumptions C139_written.

Example C139_ex :
  unclear_nulls wq_date (wq_both VNone) /\ ~ unclear_nulls wq_date (wq_both (int 1000)) /\
  csv_write wq_date (wq_both VNone) true (fun _ => []) wp_notes [] = Raise /\
  exists dir', csv_write wq_date (wq_both (int 1000)) true (fun _ => []) wp_notes [] = Ret dir'.
Proof.
  split.
  { split; [reflexivity |]. exists "items", wq_items, "Cost". eexists. split; [simpl; auto |]. split; [discriminate |]. split; [simpl; auto |]. split; [reflexivity |].
    split; [reflexivity |]. split; [reflexivity |]. split; reflexivity. }
  split; [intros [X _]; discriminate X |]. split; [reflexivity |]. eexists. reflexivity.
Qed.
