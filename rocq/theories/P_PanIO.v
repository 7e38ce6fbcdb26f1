(** * Properties of the PanDat readers and writers (C97-C101). *)
From Coq Require Import ZArith Bool List String Arith Lia Permutation.
From Verif Require Import PyVal PyValFacts PyDict PyDictFacts PyStr TypeDict Data FindTypes FK Obj Factory GraphFacts InfIO InfIOFacts Params ParamsFacts Names NamesFacts Utils Json JsonWitness ObjRows
  CsvMore Frames FramesFacts FramesPan PanIO PanRead PanJson PanMore PanIOWitness.
Import ListNotations.
Local Open Scope string_scope.
Local Open Scope list_scope.

(** ** C97: what is read is refused exactly if a field of a table found is missing and cannot be filled in, or if
    None stands for infinity and it is not clear which one... *)
Theorem C97_refused : forall date_of float_of settle str_of json fill f src,
  decl_ok (f_decl f) = true -> params_shape f -> src_ok f src ->
  (create_frames date_of float_of settle str_of json fill f src = Raise <->
    (exists t ts fr x, In (t, fr) src /\ In (t, ts) (plain_schema f) /\ In x (tfields ts) /\ ~ In (CName x) (fr_cols fr) /\
       ~ (fill = true /\ In x (map fst (defaults_of (f_defaults f) t)))) \/
    (f_flag f = VNone /\ exists t ts x dt, In (t, ts) (plain_schema f) /\ t <> "parameters" /\ In x (tfields ts) /\
       field_type f t x = Some dt /\ number_allowed dt = true /\ valid_data (is_date date_of) dt VNone = false /\
       valid_data (is_date date_of) dt (VNum PInf) = true /\ valid_data (is_date date_of) dt (VNum NInf) = true)).
Proof.
  intros date_of float_of settle str_of json fill f src Hd Hp Hs. rewrite (proj1 (frames_read date_of float_of settle str_of json fill f src Hd Hp Hs)).
  split; (intros [H | (Ef & H)]; [left; exact H | right; split; [exact Ef |]]).
  - destruct H as (t & ts & x & A & B & C & D). apply bias_raise in D as (dt & D). exists t, ts, x, dt. auto.
  - destruct H as (t & ts & x & dt & A & B & C & D). exists t, ts, x. repeat (split; auto). apply bias_raise. eauto.
Qed.
Print Assumptions C97_refused.

(** ...and otherwise each row read is a row of the table, in order, with the cells of the columns of these names, or the
    default where the column is missing; other columns and order do not matter; tables not found are empty. *)
Theorem C97_rows : forall date_of float_of settle str_of json fill f src d t ts,
  decl_ok (f_decl f) = true -> params_shape f -> src_ok f src ->
  create_frames date_of float_of settle str_of json fill f src = Ret d -> In (t, ts) (plain_schema f) ->
  (forall fr, In (t, fr) src ->
    Forall2 (fun r row => Forall2 (fun x w => exists v,
        (in_col fr r (CName x) v \/ (~ In (CName x) (fr_cols fr) /\ fill = true /\ dget String.eqb (defaults_of (f_defaults f) t) x = Some v)) /\
        ((t <> "parameters" /\ quiet date_of float_of json f t x v) \/ (t = "parameters" /\ (has_params f = false \/ In x (tpk ts))) -> w = v))
      (tfields ts) row) (fr_rows fr) (d t)) /\
  (~ In t (map fst src) -> d t = []).
Proof.
  intros date_of float_of settle str_of json fill f src d t ts Hd Hp Hs E Hin. exact (proj2 (frames_read date_of float_of settle str_of json fill f src Hd Hp Hs) d E t ts Hin).
Qed.
Print Assumptions C97_rows.

(** CSV: "Missing tables always throw an Exception" (288) - an empty directory is read without one, as are all other places without tables. *)
Theorem C97_missing_tables_refuted : exists f, decl_ok (f_decl f) = true /\ plain_schema f <> [] /\
  forall date_of float_of settle str_of fill, exists d,
    create_frames date_of float_of settle str_of false fill f [] = Ret d /\ forall t, In t (map fst (plain_schema f)) -> d t = [].
Proof.
  exists (wq_fac (VStr "N/A")). split; [reflexivity |]. split; [discriminate |]. intros.
  assert (src_ok (wq_fac (VStr "N/A")) []) as S by (split; [constructor | intros t fr []]).
  destruct (create_frames date_of float_of settle str_of false fill (wq_fac (VStr "N/A")) []) as [d |] eqn:E.
  - exists d. split; auto. intros t H. apply in_map_iff in H as ([t' ts] & Et & H). cbn [fst] in Et. subst t'.
    apply (C97_rows _ _ _ _ _ _ _ _ _ t ts (wq_decl _) (wq_shape _) S) in E; auto. apply E. intros [].
  - exfalso. apply C97_refused in E; auto; [| apply wq_shape]. destruct E as [(t & ts & fr & x & [] & _) | (X & _)]. discriminate.
Qed.
Print Assumptions C97_missing_tables_refuted.

Example C97_ex :
  let rows := [[int 0; VStr "a"; VStr "2020-01-01 00:00:00"; VStr "x"]; [int 0; VStr "b"; VNaN; VNone]] in
  src_ok (wq_fac (VStr "N/A")) [("items", wq_frame rows)] /\
  (exists d, create_frames wq_date wq_float wq_settle wq_str false true (wq_fac (VStr "N/A")) [("items", wq_frame rows)] = Ret d /\
     d "items" = [[VStr "a"; int 7; VDate 5; VStr "x"]; [VStr "b"; int 7; VNaN; VNone]] /\ d "parameters" = []) /\
  create_frames wq_date wq_float wq_settle wq_str false false (wq_fac (VStr "N/A")) [("items", wq_frame rows)] = Raise.
Proof.
  intros rows. split; [| split; [eexists; split; [reflexivity | split; reflexivity] | reflexivity]]. split; [repeat constructor; simpl; tauto |].
  intros t fr [E | []]. injection E as <- <-. split; [simpl; auto |]. split; [apply wq_frame_rect; simpl; intros r [<- | [<- | []]]; reflexivity | reflexivity].
Qed.

(** ** C98: json.  The table comes back, None and NaN apart, whatever the order of the keys of the document... *)
Theorem C98_round_trip : forall date_of float_of settle show_date str_of fill f d doc doc',
  decl_ok (f_decl f) = true -> all_plain f -> good_flag (f_flag f) = true -> params_shape f ->
  (forall t ts, In (t, ts) (plain_schema f) -> defaults_on_data ts (defaults_of (f_defaults f) t)) ->
  (forall t ts r, In (t, ts) (plain_schema f) -> In r (d t) -> row_ok date_of float_of show_date f t ts r) ->
  write_json date_of show_date f d = Ret doc -> Permutation doc' doc ->
  (forall t rows k, In (t, JRows rows) doc -> Forall2 alike (column rows k) (settle (column rows k))) ->
  exists d', create_json date_of float_of settle str_of fill f doc' = Ret d' /\
    forall t ts, In (t, ts) (plain_schema f) -> Forall2 (Forall2 alike) (d t) (d' t).
Proof. intros. eapply json_back; eauto. Qed.
Print Assumptions C98_round_trip.

(** ...and it can be written exactly if no table is generic and None, where it stands for infinity, has one meaning. *)
Theorem C98_written : forall date_of show_date f d,
  write_json date_of show_date f d = Raise <->
    (exists t, In (t, Generic) (f_decl f)) \/
    (f_flag f = VNone /\ exists t ts x dt, In (t, Fields ts) (f_decl f) /\ t <> "parameters" /\ In x (tfields ts) /\
       field_type f t x = Some dt /\ number_allowed dt = true /\ valid_data (is_date date_of) dt VNone = false /\
       valid_data (is_date date_of) dt (VNum PInf) = true /\ valid_data (is_date date_of) dt (VNum NInf) = true).
Proof.
  intros date_of show_date f d. rewrite json_write_raises. split; (intros [H | (Ef & H)]; [left; exact H | right; split; [exact Ef |]]).
  - destruct H as (t & ts & x & A & B & C & D). apply bias_raise in D as (dt & D). exists t, ts, x, dt. auto.
  - destruct H as (t & ts & x & dt & A & B & C & D). exists t, ts, x. repeat (split; auto). apply bias_raise. eauto.
Qed.
Print Assumptions C98_written.

Definition wq_generic : factory :=
  mkF [("items", Fields wq_items); ("notes", Generic)] [] [] [] [] [] [] [] false (VStr "N/A") (VStr "prune") (VStr "assert") (VBool true) false.

(** A schema with a generic table cannot be written at all... *)
Theorem C98_generic_refuted : exists f, decl_ok (f_decl f) = true /\ forall date_of show_date d, write_json date_of show_date f d = Raise.
Proof. exists wq_generic. split; [reflexivity |]. intros. apply C98_written. left. exists "notes". simpl. auto. Qed.
Print Assumptions C98_generic_refuted.

(** ...and the text "None" in a text field that may be null, or in an untyped parameter, comes back as None. *)
Theorem C98_none_text_refuted : exists f d doc d', decl_ok (f_decl f) = true /\ 
  write_json wq_date wq_show f d = Ret doc /\ create_json wq_date wq_float wq_settle wq_str false f doc = Ret d' /\
  d "items" = [[VStr "a"; int 1; VNone; VStr "None"]] /\ d' "items" = [[VStr "a"; int 1; VNaN; VNone]] /\
  d "parameters" = [[VStr "free"; VStr "NONE"]] /\ d' "parameters" = [[VStr "free"; VNone]].
Proof.
  exists (wq_fac (VStr "N/A")), (fun t => if String.eqb t "items" then [[VStr "a"; int 1; VNone; VStr "None"]] else [[VStr "free"; VStr "NONE"]]).
  eexists. eexists. split; [reflexivity |]. split; [reflexivity |]. split; [reflexivity |]. repeat split; reflexivity.
Qed.
Print Assumptions C98_none_text_refuted.

(** A document with one more key that does not hold a table is refused. *)
Theorem C98_other_key_refuted : exists f doc d', decl_ok (f_decl f) = true /\
  create_json wq_date wq_float wq_settle wq_str false f doc = Ret d' /\ d' "items" = [[VStr "a"; int 1; VNaN; VStr "x"]] /\
  create_json wq_date wq_float wq_settle wq_str false f (doc ++ [("version", JOther)]) = Raise.
Proof.
  exists (wq_fac (VStr "N/A")), [("items", JRows [[VStr "a"; int 1; VNone; VStr "x"]])]. eexists. split; [reflexivity |]. split; [reflexivity |]. split; reflexivity.
Qed.
Print Assumptions C98_other_key_refuted.

Example C98_ex :
  all_plain (wq_fac VNone) /\ good_flag (f_flag (wq_fac VNone)) = true /\ params_shape (wq_fac VNone) /\
  (forall t ts, In (t, ts) (plain_schema (wq_fac VNone)) -> defaults_on_data ts (defaults_of (f_defaults (wq_fac VNone)) t)) /\
  (forall t ts r, In (t, ts) (plain_schema (wq_fac VNone)) -> In r (wq_dat t) -> row_ok wq_date wq_float wq_show (wq_fac VNone) t ts r) /\
  exists doc, write_json wq_date wq_show (wq_fac VNone) wq_dat = Ret doc /\
    (forall t rows k, In (t, JRows rows) doc -> Forall2 alike (column rows k) (wq_settle (column rows k))) /\
    exists d', create_json wq_date wq_float wq_settle wq_str false (wq_fac VNone) (rev doc) = Ret d' /\
      d' "items" = [[VStr "a"; VNum PInf; VDate 5; VStr "hi"]; [VStr "b"; int 3; VNone; VNone]] /\ d' "parameters" = wq_dat "parameters".
Proof.
  split; [intros t [E | [E | []]]; discriminate |]. split; [reflexivity |]. split; [apply wq_shape |]. split.
  { intros t ts [E | [E | []]]; injection E as <- <-; intros x; simpl; tauto. }
  split.
  { intros t ts r [E | [E | []]] Hr; injection E as <- <-; (split; [simpl in Hr; intuition (subst; reflexivity) |]).
    - change (String.eqb "items" "parameters") with false. cbv iota. intros x v H. simpl in Hr.
      destruct Hr as [<- | [<- | []]]; simpl in H; repeat (destruct H as [H | H]; [injection H as <- <- | ]); try contradiction;
        (split; [| split; [discriminate | split;
           [intros _ dt H; first [discriminate H | injection H as <-; reflexivity] | intros N dt H; first [discriminate N | discriminate H | injection H as <-; discriminate]]]]);
        try (intros dt H; first [discriminate H | injection H as <-; split; [intros D | intros D1 D2 D3 D4]; first [discriminate | intros _ d Ed; discriminate Ed | intros X; discriminate X | contradiction | auto]]).
      + eexists. split; [reflexivity |]. split; reflexivity.
    - change (String.eqb "parameters" "parameters") with true. cbv iota. replace (has_params (wq_fac VNone)) with true by reflexivity. simpl in Hr.
      destruct Hr as [<- | [<- | [<- | []]]]; eexists; eexists; (split; [reflexivity |]); unfold param_survives; (split; [intros dt H; try discriminate; injection H as <-; reflexivity |]).
      + intros _. reflexivity.
      + split; [intros dt H; injection H as <-; discriminate |]. split; [intros _; eexists; split; reflexivity |]. intros H. specialize (H _ eq_refl). discriminate.
      + split; [intros dt H; discriminate |]. split; [discriminate |]. reflexivity. }
  eexists. split; [reflexivity |]. split.
  - intros t rows k [E | [E | []]]; injection E as <- <-.
    + destruct k as [| [| [| [| [| k]]]]]; cbn; repeat first [apply Forall2_cons; [first [left; reflexivity | right; split; reflexivity] |] | apply Forall2_nil].
    + destruct k as [| [| [| k]]]; cbn; repeat first [apply Forall2_cons; [first [left; reflexivity | right; split; reflexivity] |] | apply Forall2_nil].
  - eexists. split; [reflexivity |]. split; reflexivity.
Qed.

(** ** C99: Excel.  Pruning removes exactly the rows without data at the end of the table read... *)
Theorem C99_pruned : forall date_of float_of settle str_of fill f src d, decl_ok (f_decl f) = true ->
  create_frames date_of float_of settle str_of false fill f src = Ret d ->
  exists d', create_xls date_of float_of settle str_of fill f src = Ret d' /\ forall t ts, In (t, ts) (plain_schema f) ->
    (f_xlsx f = VStr "prune" -> exists dropped, d t = d' t ++ dropped /\ (forall r v, In r dropped -> In v r -> is_null v = true) /\
       (d' t = [] \/ exists front r v, d' t = front ++ [r] /\ In v r /\ is_null v = false)) /\
    (f_xlsx f <> VStr "prune" -> d' t = d t).
Proof.
  intros date_of float_of settle str_of fill f src d Hd E. destruct (xls_pruned date_of float_of settle str_of fill f src d Hd E) as (d' & E' & P). exists d'. split; auto. intros t ts Hin. specialize (P t ts Hin). split.
  - intros Hx. rewrite Hx in P. replace (value_eqb (VStr "prune") (VStr "prune")) with true in P by reflexivity. destruct P as (dr & A & B & C). exists dr. split; auto. split.
    + intros r v Hr Hv. specialize (B r Hr). rewrite forallb_forall in B. auto.
    + destruct C as [C | (front & r & C & D)]; auto. right. assert (existsb (fun v => negb (is_null v)) r = true) as X.
      { clear - D. induction r as [| v r IH]; [discriminate |]. cbn in *. destruct (is_null v); auto. }
      apply existsb_exists in X as (v & Hv & X). exists front, r, v. split; auto. split; auto. now apply negb_true_iff.
  - intros Hx. destruct (value_eqb (f_xlsx f) (VStr "prune")) eqn:Ev; auto. apply value_eqb_true in Ev. contradiction.
Qed.
Print Assumptions C99_pruned.

(** ...so that rows of the sheet without data at its end do not arrive, unless None stands for infinity in a field of the table. *)
Theorem C99_blank_rows : forall date_of float_of settle str_of fill f src d' t ts fr l1 l2,
  decl_ok (f_decl f) = true -> params_shape f -> src_ok f src -> f_xlsx f = VStr "prune" ->
  create_xls date_of float_of settle str_of fill f src = Ret d' ->
  In (t, ts) (plain_schema f) -> t <> "parameters" -> (f_flag f = VNone -> forall x, In x (tfields ts) -> bias_now date_of f t x = Ret None) ->
  In (t, fr) src -> fr_rows fr = l1 ++ l2 ->
  (forall r x v, In r l2 -> In x (tfields ts) -> given fill (f_defaults f) t fr r x v -> is_null v = true) ->
  List.length (d' t) <= List.length l1.
Proof. exact blank_rows. Qed.
Print Assumptions C99_blank_rows.

(** If it does, they become rows with an infinity before they are looked at, and stay. *)
Theorem C99_refuted : exists f src d', decl_ok (f_decl f) = true /\ f_xlsx f = VStr "prune" /\ src_ok f src /\
  src = [("items", wq_sheet [[VStr "a"; int 1; VNaN; VNaN]; [VNaN; VNaN; VNaN; VNaN]; [VNaN; VNaN; VNaN; VNaN]])] /\
  create_xls wq_date wq_float wq_settle wq_str false f src = Ret d' /\
  d' "items" = [[VStr "a"; int 1; VNaN; VNaN]; [VNaN; VNum PInf; VNaN; VNaN]; [VNaN; VNum PInf; VNaN; VNaN]].
Proof.
  exists (wq_fac VNone). eexists. eexists. split; [reflexivity |]. split; [reflexivity |].
  split; [| split; [reflexivity | split; reflexivity]]. split; [repeat constructor; simpl; tauto |].
  intros t fr [E | []]. injection E as <- <-. split; [simpl; auto |]. split; [apply wq_frame_rect; simpl; intros r [<- | [<- | [<- | []]]]; reflexivity | reflexivity].
Qed.
Print Assumptions C99_refuted.

Example C99_ex :
  let src := [("items", wq_sheet [[VStr "a"; int 1; VNaN; VNaN]; [VNaN; VNaN; VNaN; VNaN]; [VStr "b"; VNaN; VNaN; VNaN]; [VNaN; VNaN; VNaN; VNaN]; [VNaN; VNaN; VNaN; VNaN]])] in
  exists d', create_xls wq_date wq_float wq_settle wq_str false (wq_fac (VStr "N/A")) src = Ret d' /\
    d' "items" = [[VStr "a"; int 1; VNaN; VNaN]; [VNaN; VNaN; VNaN; VNaN]; [VStr "b"; VNaN; VNaN; VNaN]].
Proof. eexists. split; reflexivity. Qed.

(** ** C100: writing several times to one directory or database with the same setting for names: the last object is read,
    and nothing else in that place changes. *)
Theorem C100_csv : forall C asked decl (ds : list (string -> C)) d dir t,
  decl_ok decl = true -> In t (map fst decl) ->
  NoDup (map fst dir) ->
  (forall n t', In n (map fst dir) -> In t' (map fst decl) -> unspace n = append (lower t') ".csv" -> n = csv_name asked (map fst decl) t') ->
  let before := fold_left (fun dir d => csv_put asked (map fst decl) d dir) ds dir in
  let after := csv_put asked (map fst decl) d before in
  csv_get after t = Ret (Some (d t)) /\
  (forall n, ~ In n (map (csv_name asked (map fst decl)) (map fst decl)) -> dget String.eqb after n = dget String.eqb before n).
Proof.
  intros C asked decl ds d dir t Hd Ht N O before after. pose proof (decl_ok_legal decl Hd) as L.
  assert (own_files asked (map fst decl) (map fst before)) as Ob.
  { apply csv_history; auto; [split; auto |]. destruct (map fst decl); [destruct Ht | discriminate]. }
  destruct (csv_put_get asked (map fst decl) d before t L Ob Ht) as (_ & A & B). auto.
Qed.
Print Assumptions C100_csv.

Theorem C100_sql : forall C asked decl (d : string -> C) db,
  decl_ok decl = true -> NoDup (map lower (map fst db)) ->
  (forall n t, In n (map fst db) -> In t (map fst decl) -> unspace n = lower t -> n = out_name asked (map fst decl) t) ->
  exists db', sql_put (out_name asked (map fst decl)) d (map fst decl) db = (db', true) /\
    (forall t, In t (map fst decl) -> sql_get db' t = Ret (Some (d t))) /\
    (forall n x, ~ In n (map (out_name asked (map fst decl)) (map fst decl)) -> In (n, x) db' <-> In (n, x) db) /\
    (** and the same can be done again *)
    NoDup (map lower (map fst db')) /\
    (forall n t, In n (map fst db') -> In t (map fst decl) -> unspace n = lower t -> n = out_name asked (map fst decl) t).
Proof.
  intros C asked decl d db Hd N O. destruct (sql_put_get asked (map fst decl) d db (decl_ok_legal decl Hd) (conj N O)) as (db' & A & [B1 B2] & C0 & D). exists db'. auto.
Qed.
Print Assumptions C100_sql.

(** With another setting for names the directory cannot be read any more... *)
Theorem C100_csv_refuted : exists decl t, decl_ok decl = true /\ In t (map fst decl) /\
  forall C (d1 d2 : string -> C), csv_get (csv_put false (map fst decl) d1 []) t = Ret (Some (d1 t)) /\
    csv_get (csv_put true (map fst decl) d2 (csv_put false (map fst decl) d1 [])) t = Raise.
Proof. exists [("items", Fields wq_items)], "items". split; [reflexivity |]. split; [simpl; auto |]. intros. split; reflexivity. Qed.
Print Assumptions C100_csv_refuted.

(** ...and the database is not written. *)
Theorem C100_sql_refuted : exists decl, decl_ok decl = true /\
  forall C (d1 d2 : string -> C), exists db,
    sql_put (out_name true (map fst decl)) d1 (map fst decl) [] = (db, true) /\
    sql_put (out_name false (map fst decl)) d2 (map fst decl) db = (db, false) /\ sql_get db "items" = Ret (Some (d1 "items")).
Proof. exists [("items", Fields wq_items)]. split; [reflexivity |]. intros. eexists. split; [reflexivity |]. split; reflexivity. Qed.
Print Assumptions C100_sql_refuted.

Example C100_ex :
  let dir := csv_put true ["food_groups"; "x"] (fun t => t) [("notes.txt", "n")] in
  dir = [("notes.txt", "n"); ("Food Groups.csv", "food_groups"); ("X.csv", "x")] /\
  csv_put true ["food_groups"; "x"] (fun t => append t "2") dir = [("notes.txt", "n"); ("Food Groups.csv", "food_groups2"); ("X.csv", "x2")] /\
  sql_put (out_name true ["food_groups"; "x"]) (fun t => append t "2") ["food_groups"; "x"] [("Food Groups", "old"); ("other", "o")] =
    ([("other", "o"); ("Food Groups", "food_groups2"); ("X", "x2")], true).
Proof. repeat split. Qed.

(** ** C101: parameters of PanDat objects, stored as text, come back with their type... *)
Theorem C101_parameter : forall date_of float_of str_of json f k s v,
  denotes date_of float_of (param_type f k) s v -> v <> VNone ->
  (forall t, param_type f k = Some t -> valid_data (is_date date_of) t v = true) ->
  (forall t, param_type f k = Some t -> datetime t = true -> number_allowed t = true -> float_of (VStr s) = None) ->
  (json = true -> none_text (VStr s) = true -> exists t, param_type f k = Some t /\ (valid_data (is_date date_of) t VNone = false \/ exists z, v = VDate z)) ->
  fix_value date_of float_of str_of json f k (VStr s) = v.
Proof. exact fix_back. Qed.
Print Assumptions C101_parameter.

(** ...but a parameter without value, if null is not allowed, becomes the text of the null, which is allowed: the failure is hidden. *)
Theorem C101_hidden_refuted : exists f k t, param_type f k = Some t /\ valid_data (is_date wq_date) t VNaN = false /\
  fix_value wq_date wq_float wq_str false f k VNaN = VStr "nan" /\ valid_data (is_date wq_date) t (VStr "nan") = true.
Proof. exists (wq_fac (VStr "N/A")), (VStr "label"), wq_strict. repeat split; reflexivity. Qed.
Print Assumptions C101_hidden_refuted.

Example C101_ex :
  fix_value wq_date wq_float wq_str true (wq_fac VNone) (VStr "limit") (VStr "7") = int 7 /\
  denotes wq_date wq_float (param_type (wq_fac VNone) (VStr "limit")) "7" (int 7) /\
  fix_value wq_date wq_float wq_str true (wq_fac VNone) (VStr "label") (VStr "7") = VStr "7" /\
  denotes wq_date wq_float (param_type (wq_fac VNone) (VStr "label")) "7" (VStr "7") /\
  fix_value wq_date wq_float wq_str true (wq_fac VNone) (VStr "label") (VStr "None") = VStr "None".
Proof.
  split; [reflexivity |]. split; [split; [intros t E; injection E as <-; split; reflexivity | reflexivity] |]. split; [reflexivity |].
  split; [split; [reflexivity | discriminate] | reflexivity].
Qed.
