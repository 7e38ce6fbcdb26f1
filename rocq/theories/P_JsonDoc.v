(** * Properties of the json reader and writer as a whole: C146-C150 *)
From Coq Require Import ZArith Bool List String Ascii Arith Lia Permutation.
From Verif Require Import PyVal PyValFacts PyDict PyDictFacts PyStr TypeDict Data FindTypes FindTypesFacts FK Obj ObjFacts ObjMore ObjRows
  Factory FactoryFacts FactoryMore InfIO InfIOFacts Params Names Utils Json JsonFacts JsonDups JsonMore InfWitness JsonWitness Frames FramesFacts P_Frames
  Csv CsvTrip PanIO PanIOFacts PanRead PanJson PanIOWitness PanFiles PanFilesFacts PanFilesTrip PanFilesWitness PanFac JsonDoc JsonDocFacts JsonDocMore JsonDocWitness.
Import ListNotations.
Local Open Scope string_scope.
Local Open Scope list_scope.

(** Showing a table of an object read. *)
Lemma shows : forall (o : outcome obj) t x, match o with Ret e => Some (e t) | Raise => None end = Some x -> exists e, o = Ret e /\ e t = x.
Proof. intros [e |] t x H; [| discriminate]. exists e. split; [reflexivity | now injection H]. Qed.

(** ** C146: the reader recognises the format written by default, whatever the schema... *)
Theorem C146_round_trip : forall parses date_of float_of settle show_date str_of records f tables verbose d,
  decl_ok (f_decl f) = true -> json_ready f = true ->
  obj_ok (plain_schema f) d -> obj_keys (plain_schema f) d -> proper_keys (plain_schema f) d ->
  cells_back date_of float_of show_date f d -> params_back date_of float_of show_date f d ->
  exists doc, make_doc parses date_of settle show_date f tables d verbose false = Ret doc /\ map fst doc = map fst (plain_schema f) /\
    forall doc', all_lists doc' -> doc_like (map fst (plain_schema f)) (as_jdoc doc) (as_jdoc doc') ->
      exists e, json_read parses date_of float_of settle str_of records f tables (SFile (Some doc')) false = Ret e /\
        forall t ts, In (t, ts) (plain_schema f) -> e t = d t.
Proof.
  intros parses date_of float_of settle show_date str_of records f tables verbose d Hd Hj Ok Ks Pk Cb Pb.
  destruct (default_back parses date_of float_of settle show_date str_of records f tables verbose d Hd Hj Ok Ks Pk Cb Pb) as (doc & A & _ & B & C). exists doc. auto.
Qed.
Print Assumptions C146_round_trip.

(** ... and a document of DataFrames under the split orient if some table has a field that is not called columns or
    data (C148_split); but not if all tables have just these two fields, ... *)
Theorem C146_columns_data_refuted : exists f tables doc,
  reachable wd_none f /\ Permutation (f_decl f) tables /\ (forall k v, In (k, v) doc -> split_shaped v) /\
  (exists e, json_read wd_none wi_date wi_float wq_settle wq_str wd_records f tables (SFile (Some doc)) true = Ret e /\
  e "t" = OKeyed [(KAtom (VStr "x"), [int 1])]) /\
  exists e', json_read wd_none wi_date wi_float wq_settle wq_str wd_records f tables (SFile (Some doc)) false = Ret e' /\
    e' "t" = OKeyed [(KAtom (VStr "c"), [VStr "o"]); (KAtom (VStr "d"), [VStr "a"])].
Proof.
  exists we_fac, we_decl, [("t", JObject ["columns"; "data"] (fun _ => Some (we_frame "columns" "data" [[VStr "x"; int 1]])))].
  split; [exists we_decl, we_fac, []; split; reflexivity |]. split; [apply Permutation_refl |]. split.
  { intros k v [E | []]. injection E as <- <-. eexists. eexists. split; reflexivity. }
  split; apply shows; vm_compute; reflexivity.
Qed.
Print Assumptions C146_columns_data_refuted.

(** ... nor if [write_file_pd] was asked to write the index too. *)
Theorem C146_index_refuted : exists f tables doc,
  reachable wd_none f /\ Permutation (f_decl f) tables /\
  (forall k v, In (k, v) doc -> exists ks fr, v = JObject ks fr /\ incl ["columns"; "index"; "data"] ks) /\
  (exists e, json_read wd_none wi_date wi_float wq_settle wq_str wd_records f tables (SFile (Some doc)) true = Ret e /\
  e "t" = OKeyed [(KAtom (VStr "x"), [int 1])]) /\
  exists e', json_read wd_none wi_date wi_float wq_settle wq_str wd_records f tables (SFile (Some doc)) false = Ret e' /\
    e' "t" = OKeyed [(KAtom (VStr "c"), [VStr "o"]); (KAtom (VStr "i"), [VStr "n"]); (KAtom (VStr "d"), [VStr "a"])].
Proof.
  exists we_fac', we_other, [("t", JObject ["columns"; "index"; "data"] (fun _ => Some (we_frame "a" "b" [[VStr "x"; int 1]])))].
  split; [exists we_other, we_fac', []; split; reflexivity |]. split; [apply Permutation_refl |]. split.
  { intros k v [E | []]. injection E as <- <-. eexists. eexists. split; [reflexivity | apply incl_refl]. }
  split; apply shows; vm_compute; reflexivity.
Qed.
Print Assumptions C146_index_refuted.

(** The factory and the object of C37, with infinities, a date and a parameter; the document has the keys
    and the cells of each row in another order and a further key. *)
Example C146_ex :
  let doc' := map (fun tr => (fst tr, JList (snd tr))) wj_moved in
  decl_ok (f_decl wj_fac) = true /\ json_ready wj_fac = true /\ obj_ok (plain_schema wj_fac) wj_obj /\
  cells_back wi_date wi_float wj_show wj_fac wj_obj /\ params_back wi_date wi_float wj_show wj_fac wj_obj /\ all_lists doc' /\
  exists doc, make_doc wd_none wi_date wq_settle wj_show wj_fac (f_decl wj_fac) wj_obj true false = Ret doc /\
    doc_like (map fst (plain_schema wj_fac)) (as_jdoc doc) (as_jdoc doc') /\ List.length doc' = 3 /\
    exists e, json_read wd_none wi_date wi_float wq_settle wq_str wd_records wj_fac (f_decl wj_fac) (SFile (Some doc')) false = Ret e /\
      e "items" = wj_obj "items" /\ e "parameters" = wj_obj "parameters".
Proof.
  cbv zeta. destruct wj_obj_ok as (Ok & Ks & Pk). assert (decl_ok (f_decl wj_fac) = true) as H1 by (vm_compute; reflexivity).
  assert (json_ready wj_fac = true) as H2 by (vm_compute; reflexivity). split; [exact H1 |]. split; [exact H2 |]. split; [exact Ok |]. split; [apply wj_cells |]. split; [apply wj_params |].
  assert (all_lists (map (fun tr : string * list rowin => (fst tr, JList (snd tr))) wj_moved)) as A.
  { intros k e H. apply in_map_iff in H as (x & E & _). injection E as <- <-. eauto. }
  split; [exact A |].
  destruct (C146_round_trip wd_none wi_date wi_float wq_settle wj_show wq_str wd_records wj_fac (f_decl wj_fac) true wj_obj H1 H2 Ok Ks Pk wj_cells wj_params) as (doc & E & _ & H).
  exists doc. split; [exact E |].
  assert (forall l : jdoc, as_jdoc (map (fun tr : string * list rowin => (fst tr, JList (snd tr))) l) = l) as J.
  { intros l. unfold as_jdoc. rewrite map_map. cbn [fst snd as_rows]. induction l as [| [k r] l IH]; auto. cbn [map fst snd]. now rewrite IH. }
  assert (as_jdoc doc = wj_doc) as Ed.
  { unfold make_doc in E. unfold wj_doc. destruct (make_json wi_date wj_show wj_fac true wj_obj) as [l |]; [| discriminate]. cbn [bindO] in E. injection E as <-. apply J. }
  rewrite Ed in H |- *. rewrite J. pose proof wj_like as L. split; [exact L |]. split; [vm_compute; reflexivity |].
  destruct (H _ A) as (e & Ee & X); [rewrite J; exact L |]. exists e. split; [exact Ee |]. rewrite wj_plain in X. split; eapply X; simpl; eauto.
Qed.

(** ** C147: keys that match no table change nothing if they hold containers and the document is not all DataFrames, ... *)
Theorem C147_rows : forall parses date_of float_of settle str_of records f tables doc extra doc',
  unrelated f extra -> NoDup (map fst doc') -> Permutation (doc ++ extra) doc' ->
  (forall k e, In (k, e) extra -> container e) ->
  (exists k e, In (k, e) doc /\ ~ split_shaped e) ->
  json_read parses date_of float_of settle str_of records f tables (SFile (Some doc')) false =
  json_read parses date_of float_of settle str_of records f tables (SFile (Some doc)) false.
Proof. exact extra_lists. Qed.
Print Assumptions C147_rows.

(** ... or if they hold DataFrames themselves; *)
Theorem C147_frames : forall parses date_of float_of settle str_of records f tables doc extra doc',
  reachable parses f -> string_params f -> no_empty_fk f -> Permutation (f_decl f) tables ->
  unrelated f extra -> NoDup (map fst doc') -> Permutation (doc ++ extra) doc' -> doc <> [] ->
  (forall k e, In (k, e) extra -> split_shaped e) ->
  json_read parses date_of float_of settle str_of records f tables (SFile (Some doc')) false =
  json_read parses date_of float_of settle str_of records f tables (SFile (Some doc)) false.
Proof. exact extra_objects. Qed.
Print Assumptions C147_frames.

(** but a list under a key that matches no table turns a document of DataFrames into rows of letters, ... *)
Theorem C147_frames_refuted : exists f tables doc extra,
  reachable wd_none f /\ Permutation (f_decl f) tables /\ unrelated f extra /\ NoDup (map fst (doc ++ extra)) /\
  (forall k v, In (k, v) extra -> container v) /\ (forall k v, In (k, v) doc -> split_shaped v) /\
  (exists e, json_read wd_none wi_date wi_float wq_settle wq_str wd_records f tables (SFile (Some doc)) false = Ret e /\
  e "t" = OKeyed [(KAtom (VStr "x"), [int 1])]) /\
  exists e', json_read wd_none wi_date wi_float wq_settle wq_str wd_records f tables (SFile (Some (doc ++ extra))) false = Ret e' /\
    e' "t" = OKeyed [(KAtom (VStr "c"), [VStr "o"]); (KAtom (VStr "d"), [VStr "a"])].
Proof.
  exists we_fac', we_other, [("t", JObject ["columns"; "data"] (fun _ => Some (we_frame "a" "b" [[VStr "x"; int 1]])))], [("Comments", JList [])].
  split; [exists we_other, we_fac', []; split; reflexivity |]. split; [apply Permutation_refl |]. split.
  { intros k t [<- | []] [<- | []]. discriminate. }
  split; [simpl; constructor; [simpl; intros [E | []]; discriminate E | constructor; [intros [] | constructor]] |].
  split; [intros k v [E | []]; injection E as <- <-; exact I |].
  split; [intros k v [E | []]; injection E as <- <-; eexists; eexists; split; reflexivity |].
  split; apply shows; vm_compute; reflexivity.
Qed.
Print Assumptions C147_frames_refuted.

(** ... and a scalar there makes the document unreadable. *)
Theorem C147_scalar_refuted : forall parses date_of float_of settle str_of records f tables doc k v,
  json_read parses date_of float_of settle str_of records f tables (SFile (Some (doc ++ [(k, JScalar v)]))) false = Raise.
Proof.
  intros. unfold json_read. destruct (json_ready f); auto. unfold create_jdict. cbn [loaded bindO]. rewrite forallb_app. cbn [forallb snd]. rewrite andb_false_r. reflexivity.
Qed.
Print Assumptions C147_scalar_refuted.

Definition wd_notes : jfile := [("Comments", JList [RAtom (VStr "hi")]); ("Sizes", JObject ["columns"; "data"] (fun _ => None))].
Definition wd_lines : jfile := [("Parts", JList [RSeq [VStr "p"; int 1000; VStr "2020-01-01"; VNone]]); ("log", JObject [] (fun _ => None))].

Example C147_ex :
  unrelated wd_fac wd_notes /\ NoDup (map fst (rev (wd_lines ++ wd_notes))) /\ Permutation (wd_lines ++ wd_notes) (rev (wd_lines ++ wd_notes)) /\
  (forall k e, In (k, e) wd_notes -> container e) /\ (exists k e, In (k, e) wd_lines /\ ~ split_shaped e) /\
  exists e, json_read wd_none wi_date wi_float wq_settle wq_str wd_records wd_fac wd_tables (SFile (Some (rev (wd_lines ++ wd_notes)))) false = Ret e /\
    e "parts" = OKeyed [(KAtom (VStr "p"), [VNum PInf; VDate 5; VNone])] /\ e "log" = OListed [].
Proof.
  split. { intros k t Hk Ht. change (map fst (f_decl wd_fac)) with ["parts"; "log"] in Ht. simpl in Hk, Ht. destruct Hk as [<- | [<- | []]], Ht as [<- | [<- | []]]; vm_compute; discriminate. }
  split. { vm_compute. repeat (constructor; [simpl; intuition discriminate |]). constructor. }
  split; [apply Permutation_rev |].
  split; [intros k e [E | [E | []]]; injection E as <- <-; exact I |].
  split; [exists "Parts"; eexists; split; [left; reflexivity |]; intros (ks & fr & E & _); discriminate E |].
  assert (match json_read wd_none wi_date wi_float wq_settle wq_str wd_records wd_fac wd_tables (SFile (Some (rev (wd_lines ++ wd_notes)))) false with
          | Ret e => Some (e "parts", e "log") | Raise => None end = Some (OKeyed [(KAtom (VStr "p"), [VNum PInf; VDate 5; VNone])], OListed [])) as H by (vm_compute; reflexivity).
  destruct (json_read _ _ _ _ _ _ _ _ _ _) as [e |]; [| discriminate]. exists e. split; [reflexivity |]. injection H as H0 H1. split; assumption.
Qed.

(** ** C148: documents written through pandas come back, None and NaN apart: rows ([to_pandas])... *)
Theorem C148_rows : forall parses date_of float_of settle show_date str_of records f tables d doc doc' s,
  reachable parses f -> string_params f -> no_empty_fk f -> Permutation (f_decl f) tables -> plain_factory f ->
  obj_ok (plain_schema f) d -> obj_keys (plain_schema f) d -> proper_keys (plain_schema f) d ->
  (forall l, gentle settle l) ->
  (forall t ts r r', In (t, ts) (plain_schema f) -> In r (full_rows (d t)) -> Forall2 alike r r' -> row_ok date_of float_of show_date f t ts r') ->
  (forall t ts, In (t, ts) (plain_schema f) -> tpk ts <> [] -> keys_full ts (full_rows (d t))) ->
  make_doc parses date_of settle show_date f tables d false true = Ret doc -> Permutation doc' doc -> loaded s = Ret doc' ->
  (forall t, In t (map fst doc) <-> In t (map fst (f_decl f))) /\
  exists e, json_read parses date_of float_of settle str_of records f tables s true = Ret e /\
    forall t ts, In (t, ts) (plain_schema f) -> same_but_nulls (d t) (e t).
Proof. intros. unfold make_doc in *. eapply pan_json_back; eauto. Qed.
Print Assumptions C148_rows.

(** ... and DataFrames ([write_file_pd] of the PanDatFactory), which need not be announced unless C146 refuses. *)
Theorem C148_split : forall parses date_of float_of settle show_date str_of records show_num readable load f tables g asked d gen doc ks from_pandas,
  loads show_date show_num readable load -> reachable parses f -> string_params f -> no_empty_fk f -> Permutation (f_decl f) tables ->
  json_ready f = true -> good_flag (f_flag f) = true -> params_shape f -> (forall t ts, In (t, ts) (plain_schema f) -> frameable ts) ->
  (forall t ts r, In (t, ts) (plain_schema f) -> In r (d t) -> file_row_ok date_of float_of show_date show_num true g t ts r) ->
  (forall t ts, In (t, ts) (plain_schema f) -> tpk ts <> [] -> keys_full ts (d t) /\ no_equal_keys (map (key_of ts) (d t))) ->
  pan_create parses (schema_in_order f tables) = Some g ->
  pd_write date_of show_date g asked d gen = Ret doc ->
  fit readable g (text_field g) (fun t => dget String.eqb doc (out_name asked (map fst (f_decl g)) t)) ->
  from_pandas = true \/ (forall x, In x ks <-> x = "columns" \/ x = "data") /\
    (exists t ts x, In (t, ts) (plain_schema f) /\ In x (tfields ts) /\ x <> "columns" /\ x <> "data") ->
  exists e, json_read parses date_of float_of settle str_of records f tables (SFile (Some (split_doc ks load doc))) from_pandas = Ret e /\
    forall t ts, In (t, ts) (plain_schema f) -> Forall2 (Forall2 alike) (d t) (full_rows (e t)).
Proof.
  intros parses date_of float_of settle show_date str_of records show_num readable load f tables g asked d gen doc ks fp H1 H2 H3 H4 H5 H6 H7 H8 H9 H10 H11 H12 H13 H14 H15.
  eapply split_back; eauto. destruct H15 as [-> | [A (t & ts & x & B & C & D & E)]]; [now left | right]. split; [now apply columns_data_iff |].
  exists t, ts. split; auto. apply not_true_is_false. rewrite columns_data_iff. intros X. apply X in C. tauto.
Qed.
Print Assumptions C148_split.

Lemma wd_doc_made : make_doc wd_none wi_date wq_settle wj_show wd_fac wd_tables wd_obj false true = Ret wd_doc.
Proof.
  unfold make_doc, wd_doc. assert (match make_pan_json wd_none wi_date wq_settle wj_show wd_fac wd_tables wd_obj with Ret _ => true | Raise => false end = true) as X by (vm_compute; reflexivity).
  destruct (make_pan_json _ _ _ _ _ _ _); [reflexivity | discriminate].
Qed.

Example C148_ex :
  reachable wd_none wd_fac /\ plain_factory wd_fac /\ obj_ok (plain_schema wd_fac) wd_obj /\
  (forall t ts r r', In (t, ts) (plain_schema wd_fac) -> In r (full_rows (wd_obj t)) -> Forall2 alike r r' -> row_ok wi_date wi_float wj_show wd_fac t ts r') /\
  (forall t ts, In (t, ts) (plain_schema wd_fac) -> tpk ts <> [] -> keys_full ts (full_rows (wd_obj t))) /\
  dget String.eqb wd_doc "parts" = Some (JList [RSeq [VStr "p"; int 1000; VStr "2020-01-01"; VNone]; RSeq [VStr "q"; int 3; VNone; VStr "hi"]]) /\
  exists e, json_read wd_none wi_date wi_float wq_settle wq_str wd_records wd_fac wd_tables (SText (Some (rev wd_doc))) true = Ret e /\
    same_but_nulls (wd_obj "parts") (e "parts") /\ same_but_nulls (wd_obj "log") (e "log").
Proof.
  destruct wd_obj_ok as (Ok & Ks & Pk). destruct wd_params as [P1 P2]. split; [apply wd_reach |]. split; [apply wd_factory |]. split; [exact Ok |]. split; [apply wd_rows |]. split; [apply wd_full |].
  split; [vm_compute; reflexivity |].
  destruct (C148_rows wd_none wi_date wi_float wq_settle wj_show wq_str wd_records wd_fac wd_tables wd_obj wd_doc (rev wd_doc) (SText (Some (rev wd_doc)))
    wd_reach P1 P2 wd_perm wd_factory Ok Ks Pk wd_gentle wd_rows wd_full wd_doc_made (Permutation_sym (Permutation_rev _)) eq_refl) as (_ & e & E & X).
  exists e. split; [exact E |]. rewrite wd_plain in X. split; eapply X; simpl; eauto.
Qed.

Lemma wd_split_made : pd_write wi_date wj_show wd_pan true wd_rows_of (fun _ => mkFr [] [] []) = Ret wd_split.
Proof.
  unfold wd_split. assert (match pd_write wi_date wj_show wd_pan true wd_rows_of (fun _ => mkFr [] [] []) with Ret _ => true | Raise => false end = true) as X by (vm_compute; reflexivity).
  destruct (pd_write _ _ _ _ _ _); [reflexivity | discriminate].
Qed.

Example C148_split_ex :
  loads wj_show (fun _ => "") (fun _ _ => True) wd_load /\ pan_create wd_none (schema_in_order wd_fac wd_tables) = Some wd_pan /\
  (forall t ts r, In (t, ts) (plain_schema wd_fac) -> In r (wd_rows_of t) -> file_row_ok wi_date wi_float wj_show (fun _ => "") true wd_pan t ts r) /\
  map fst wd_split = ["Log"; "Parts"] /\
  exists e, json_read wd_none wi_date wi_float wq_settle wq_str wd_records wd_fac wd_tables (SFile (Some (split_doc ["columns"; "data"] wd_load wd_split))) false = Ret e /\
    Forall2 (Forall2 alike) (wd_rows_of "parts") (full_rows (e "parts")) /\ Forall2 (Forall2 alike) (wd_rows_of "log") (full_rows (e "log")).
Proof.
  destruct wd_params as [P1 P2]. split; [apply wd_loads |]. split; [apply wd_pan_made |]. split; [apply wd_file_rows |]. split; [vm_compute; reflexivity |].
  destruct (C148_split wd_none wi_date wi_float wq_settle wj_show wq_str wd_records (fun _ => "") (fun _ _ => True) wd_load wd_fac wd_tables wd_pan true wd_rows_of (fun _ => mkFr [] [] [])
    wd_split ["columns"; "data"] false wd_loads wd_reach P1 P2 wd_perm eq_refl eq_refl wd_shape wd_frameable wd_file_rows wd_distinct wd_pan_made wd_split_made) as (e & E & X).
  - intros t ts fr text _ _ _. exact I.
  - right. split; [intros x; simpl; intuition |]. exists "parts", wd_parts, "id". rewrite wd_plain. split; [simpl; auto |]. split; [simpl; auto |]. split; discriminate.
  - exists e. split; [exact E |]. rewrite wd_plain in X. split; eapply X; simpl; eauto.
Qed.

(** ** C149: write_file keeps what it must not overwrite, ... *)
Theorem C149_spares : forall parses date_of settle show_date dumps f tables d path allow verbose to_pandas fs p c,
  dget String.eqb fs p = Some c -> p <> path \/ allow = false \/ path = "" ->
  dget String.eqb (fst (json_write_file parses date_of settle show_date dumps f tables d path allow verbose to_pandas fs)) p = Some c.
Proof. exact write_spares. Qed.
Print Assumptions C149_spares.

(** ... leaves all files alone if it raises, provided that the document can be written down, stores the document
    otherwise, and returns it if there is no path; *)
Lemma write_all_or_nothing : forall parses date_of settle show_date dumps f tables d path allow verbose to_pandas fs,
  (forall doc, make_doc parses date_of settle show_date f tables d verbose to_pandas = Ret doc -> dumps doc = true) ->
  let r := json_write_file parses date_of settle show_date dumps f tables d path allow verbose to_pandas fs in
  (snd r = Raise <-> json_ready f = false \/ (to_pandas = true /\ verbose = true) \/ (path <> "" /\ dget String.eqb fs path <> None /\ allow = false) \/
     make_doc parses date_of settle show_date f tables d verbose to_pandas = Raise) /\
  (snd r = Raise -> fst r = fs) /\
  (snd r <> Raise -> exists doc, make_doc parses date_of settle show_date f tables d verbose to_pandas = Ret doc /\
     (path = "" -> fst r = fs /\ snd r = Ret (Some doc)) /\
     (path <> "" -> snd r = Ret None /\ dget String.eqb (fst r) path = Some (CDoc doc))).
Proof.
  intros parses date_of settle show_date dumps f tables d path allow verbose tp fs Hd r. subst r. unfold json_write_file. cbv zeta.
  destruct (json_ready f) eqn:Ej; [| cbn [negb orb fst snd]; split; [tauto | split; [auto | intros X; now destruct X]]]. cbn [negb orb].
  destruct (tp && verbose) eqn:Ev.
  { cbn [orb fst snd]. apply andb_true_iff in Ev. split; [tauto | split; [auto | intros X; now destruct X]]. }
  cbn [orb]. destruct (make_doc parses date_of settle show_date f tables d verbose tp) as [doc |] eqn:Em.
  - specialize (Hd doc eq_refl). destruct (String.eqb path "") eqn:Ep.
    + apply String.eqb_eq in Ep. subst path. cbn [negb andb]. rewrite Hd. cbn [fst snd]. split; [| split; [discriminate |]].
      * split; [discriminate |]. intros [X | [[-> ->] | [[X _] | X]]]; try discriminate. contradiction.
      * intros _. exists doc. split; auto. split; auto. contradiction.
    + apply String.eqb_neq in Ep. cbn [negb andb]. destruct ((match dget String.eqb fs path with Some _ => true | None => false end) && negb allow) eqn:Ea.
      * cbn [fst snd]. apply andb_true_iff in Ea as [A B]. apply negb_true_iff in B. split; [| split; [auto | intros X; now destruct X]]. split; [| auto]. intros _. right. right. left.
        split; [exact Ep |]. split; [destruct (dget String.eqb fs path); discriminate | exact B].
      * rewrite Hd. cbn [fst snd]. split; [| split; [discriminate |]].
        { split; [discriminate |]. intros [X | [[-> ->] | [(_ & X & ->) | X]]]; try discriminate. destruct (dget String.eqb fs path); [discriminate | contradiction]. }
        intros _. exists doc. split; auto. split; [contradiction |]. intros _. split; auto. apply dget_dset_same. apply String.eqb_refl.
  - destruct (negb (String.eqb path "") && _ && _); cbn [fst snd]; (split; [tauto | split; [auto | intros X; now destruct X]]).
Qed.
Lemma not_ready : forall f, json_ready f = false <-> f_gens f <> [] \/ exists t, In (t, Generic) (f_decl f).
Proof.
  intros f. split.
  - unfold json_ready. intros H. apply andb_false_iff in H as [H | H].
    + left. intros E. now rewrite E in H.
    + right. assert (exists td, In td (f_decl f) /\ snd td = Generic) as ([t x] & Hin & E).
      { revert H. induction (f_decl f) as [| [t [| ts]] l IH]; intros H; [discriminate | exists (t, Generic); split; [now left | reflexivity] |].
        cbn [forallb snd] in H. destruct (IH H) as (td & A & B). exists td. split; [now right | exact B]. }
      cbn [snd] in E. subst x. eauto.
  - intros H. destruct (json_ready f) eqn:E; [| reflexivity]. apply ready_plain in E as [E1 E2]. destruct H as [H | (t & H)]; [contradiction | now apply E2 in H].
Qed.

Theorem C149_all_or_nothing : forall parses date_of settle show_date dumps f tables d path allow verbose to_pandas fs,
  (forall doc, make_doc parses date_of settle show_date f tables d verbose to_pandas = Ret doc -> dumps doc = true) ->
  let r := json_write_file parses date_of settle show_date dumps f tables d path allow verbose to_pandas fs in
  (snd r = Raise <-> (f_gens f <> [] \/ exists t, In (t, Generic) (f_decl f)) \/ (to_pandas = true /\ verbose = true) \/ (path <> "" /\ dget String.eqb fs path <> None /\ allow = false) \/
     make_doc parses date_of settle show_date f tables d verbose to_pandas = Raise) /\
  (snd r = Raise -> fst r = fs) /\
  (snd r <> Raise -> exists doc, make_doc parses date_of settle show_date f tables d verbose to_pandas = Ret doc /\
     (path = "" -> fst r = fs /\ snd r = Ret (Some doc)) /\
     (path <> "" -> snd r = Ret None /\ dget String.eqb (fst r) path = Some (CDoc doc))).
Proof.
  intros. subst r. rewrite <- not_ready. now apply write_all_or_nothing.
Qed.
Print Assumptions C149_all_or_nothing.

(** what it stores is read back. *)
Theorem C149_read_back : forall parses date_of float_of settle show_date str_of records dumps f tables d path allow verbose fs,
  decl_ok (f_decl f) = true -> json_ready f = true ->
  obj_ok (plain_schema f) d -> obj_keys (plain_schema f) d -> proper_keys (plain_schema f) d ->
  cells_back date_of float_of show_date f d -> params_back date_of float_of show_date f d -> path <> "" ->
  let r := json_write_file parses date_of settle show_date dumps f tables d path allow verbose false fs in
  snd r <> Raise ->
  exists e, json_read parses date_of float_of settle str_of records f tables (at_path (fst r) path) false = Ret e /\
    forall t ts, In (t, ts) (plain_schema f) -> e t = d t.
Proof.
  intros parses date_of float_of settle show_date str_of records dumps f tables d path allow verbose fs Hd Hj Ok Ks Pk Cb Pb Hp r Hr. subst r.
  destruct (default_back parses date_of float_of settle show_date str_of records f tables verbose d Hd Hj Ok Ks Pk Cb Pb) as (doc & A & L & _ & B).
  destruct (write_cases parses date_of settle show_date dumps f tables d path allow verbose false fs) as [E | [(E & _) | (_ & _ & _ & _ & doc' & E & [[_ Er] | [_ Er]])]]; try contradiction.
  - rewrite E in Hr. now destruct Hr.
  - rewrite A in E. injection E as <-. rewrite Er. cbn [fst]. unfold at_path. rewrite dget_dset_same by apply String.eqb_refl. apply B; auto.
    exists (as_jdoc doc), []. split; [| split; [now rewrite app_nil_r | intros k t []]].
    clear. induction (as_jdoc doc) as [| [k rows] l IH]; constructor; auto. split; auto. cbn [snd]. induction rows as [| x rows IHr]; constructor; auto. destruct x; simpl; auto.
  - rewrite Er in Hr. now destruct Hr.
Qed.
Print Assumptions C149_read_back.

(** But a document that cannot be written down destroys the file that was to be overwritten. *)
Theorem C149_refuted : exists f tables d fs e,
  reachable wd_none f /\ Permutation (f_decl f) tables /\ obj_ok (plain_schema f) d /\
  json_read wd_none wi_date wi_float wq_settle wq_str wd_records f tables (at_path fs "data.json") false = Ret e /\
  let r := json_write_file wd_none wi_date wq_settle wj_show (fun _ => false) f tables d "data.json" true false false fs in
  snd r = Raise /\ json_read wd_none wi_date wi_float wq_settle wq_str wd_records f tables (at_path (fst r) "data.json") false = Raise.
Proof.
  exists wd_fac, wd_tables, wd_obj, [("data.json", CDoc wd_lines)].
  destruct (json_read wd_none wi_date wi_float wq_settle wq_str wd_records wd_fac wd_tables (at_path [("data.json", CDoc wd_lines)] "data.json") false) as [e |] eqn:E; [| exfalso; vm_compute in E; discriminate].
  exists e. split; [apply wd_reach |]. split; [apply wd_perm |]. split; [apply wd_obj_ok |]. split; [reflexivity |]. split; vm_compute; reflexivity.
Qed.
Print Assumptions C149_refuted.

Example C149_ex :
  let fs := [("data.json", CElse "old"); ("other.json", CDoc wd_lines)] in
  let r := json_write_file wd_none wi_date wq_settle wj_show (fun _ => true) wj_fac (f_decl wj_fac) wj_obj "data.json" true true false fs in
  snd r = Ret None /\ map fst (fst r) = ["data.json"; "other.json"] /\ dget String.eqb (fst r) "other.json" = Some (CDoc wd_lines) /\
  snd (json_write_file wd_none wi_date wq_settle wj_show (fun _ => true) wj_fac (f_decl wj_fac) wj_obj "data.json" false true false fs) = Raise /\
  exists e, json_read wd_none wi_date wi_float wq_settle wq_str wd_records wj_fac (f_decl wj_fac) (at_path (fst r) "data.json") false = Ret e /\
    e "items" = wj_obj "items" /\ e "parameters" = wj_obj "parameters".
Proof.
  cbv zeta. destruct wj_obj_ok as (Ok & Ks & Pk). split; [vm_compute; reflexivity |]. split; [vm_compute; reflexivity |]. split; [apply C149_spares; [reflexivity | left; discriminate] |].
  split; [vm_compute; reflexivity |].
  assert (decl_ok (f_decl wj_fac) = true) as H1 by (vm_compute; reflexivity). assert (json_ready wj_fac = true) as H2 by (vm_compute; reflexivity).
  destruct (C149_read_back wd_none wi_date wi_float wq_settle wj_show wq_str wd_records (fun _ => true) wj_fac (f_decl wj_fac) wj_obj "data.json" true true
    [("data.json", CElse "old"); ("other.json", CDoc wd_lines)] H1 H2 Ok Ks Pk wj_cells wj_params) as (e & E & X).
  - discriminate.
  - vm_compute. discriminate.
  - exists e. split; [exact E |]. rewrite wj_plain in X. split; eapply X; simpl; eauto.
Qed.

(** ** C150: find_duplicates on a document read through pandas reports exactly the keys that occur more than once, ... *)
Theorem C150_counts : forall parses date_of float_of settle str_of records f g tables s doc d,
  reachable parses f -> string_params f -> no_empty_fk f -> Permutation (f_decl f) tables -> json_ready f = true ->
  pan_create parses (schema_in_order f tables) = Some g -> loaded s = Ret doc -> pan_doc date_of float_of settle str_of records g doc = Ret d ->
  exists rtn, json_find_duplicates parses date_of float_of settle str_of records f tables s true = Ret rtn /\
    (forall t, In t (map fst rtn) -> exists ts, In (t, ts) (plain_schema f) /\ tpk ts <> []) /\
    (forall t r, In (t, r) rtn -> exists k n, In (k, n) r) /\
    forall t ts, In (t, ts) (plain_schema f) -> tpk ts <> [] -> let ks := map (key_of ts) (d t) in
      (forall r k n, In (t, r) rtn -> In (k, n) r -> exists k0, In k0 ks /\ k = key_cells k0 /\ n = times k0 ks /\ 1 < n) /\
      (forall k, In k ks -> 1 < times k ks -> duplicate_reports rtn t k (times k ks)).
Proof.
  intros parses date_of float_of settle str_of records f g tables s doc d R Hs Hm Hp Hj Eg El Ed. destruct (made_twin parses f tables R Hs Hm Hp) as (g' & Eg' & T).
  assert (g' = g) as -> by congruence. eapply duplicates_exact; eauto. apply (inv_decl _ _ (reachable_inv _ _ R)).
Qed.
Print Assumptions C150_counts.

(** ... and agrees with the reader: it raises only if the reader does, and in a factory that refuses duplicate rows
    it is empty exactly if the reader succeeds. *)
Theorem C150_agrees : forall parses date_of float_of settle str_of records f tables s doc,
  reachable parses f -> string_params f -> no_empty_fk f -> Permutation (f_decl f) tables -> json_ready f = true ->
  (forall t ts, In (t, ts) (plain_schema f) -> frameable ts) -> loaded s = Ret doc ->
  match json_find_duplicates parses date_of float_of settle str_of records f tables s true with
  | Raise => json_read parses date_of float_of settle str_of records f tables s true = Raise
  | Ret rtn =>
      (dup_mode f = "assert" -> (rtn = [] <-> exists e, json_read parses date_of float_of settle str_of records f tables s true = Ret e)) /\
      (dup_mode f <> "assert" -> exists e, json_read parses date_of float_of settle str_of records f tables s true = Ret e)
  end.
Proof. intros. eapply duplicates_agree_pandas; eauto. Qed.
Print Assumptions C150_agrees.

Example C150_ex :
  reachable wd_none wd_fac /\ string_params wd_fac /\ no_empty_fk wd_fac /\ Permutation (f_decl wd_fac) wd_tables /\ dup_mode wd_fac = "assert" /\
  (forall t ts, In (t, ts) (plain_schema wd_fac) -> frameable ts) /\
  json_find_duplicates wd_none wi_date wi_float wq_settle wq_str wd_records wd_fac wd_tables (SFile (Some wd_twice)) true = Ret [("parts", [([VStr "p"], 2)])] /\
  json_read wd_none wi_date wi_float wq_settle wq_str wd_records wd_fac wd_tables (SFile (Some wd_twice)) true = Raise.
Proof.
  destruct wd_params as [P1 P2]. split; [apply wd_reach |]. split; [exact P1 |]. split; [exact P2 |]. split; [apply wd_perm |]. split; [reflexivity |]. split; [apply wd_frameable |].
  split; vm_compute; reflexivity.
Qed.
