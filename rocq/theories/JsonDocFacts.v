(** * Facts about the json reader and writer as a whole. *)
From Coq Require Import ZArith Bool List String Ascii Arith Lia Permutation.
From Verif Require Import PyVal PyValFacts PyDict PyDictFacts ListFacts PyStr TypeDict Data FindTypes FindTypesFacts FK Obj ObjFacts ObjMore ObjRows
  Factory FactoryFacts FactoryMore FactoryClone FactoryWitness InfIO InfIOFacts Params Names NamesFacts Utils Json JsonFacts Csv CsvTrip CsvMore Frames FramesFacts FramesTrip P_Frames NearPan
  PanIO PanIOFacts PanRead PanJson PanFiles PanFilesFacts PanFilesTrip PanFac PanFacFacts JsonDoc.
Import ListNotations.
Local Open Scope string_scope.
Local Open Scope list_scope.

(** ** The PanDatFactory made from the full schema *)

(** What the readers and writers see of two factories is the same. *)
Record twin (f g : factory) : Prop := mkTwin {
  tw_decl : decl_ok (f_decl g) = true;
  tw_tables : forall t d, In (t, d) (f_decl g) <-> In (t, d) (f_decl f);
  tw_types : forall t x, field_type g t x = field_type f t x;
  tw_defaults : forall t x, dget2 (f_defaults g) t x = dget2 (f_defaults f) t x;
  tw_params : f_params g = f_params f;
  tw_flag : f_flag g = f_flag f;
  tw_dup : f_dup g = f_dup f;
  tw_auto : f_auto g = f_auto f
}.

Lemma decl_of_In : forall d t x, NoDup (map fst d) -> (decl_of d t = Some x <-> In (t, x) d).
Proof. intros d t x N. unfold decl_of. now apply dget_In_NoDup. Qed.

Lemma made_twin : forall parses f tables, reachable parses f -> string_params f -> no_empty_fk f -> Permutation (f_decl f) tables ->
  exists g, pan_create parses (schema_in_order f tables) = Some g /\ twin f g.
Proof.
  intros parses f tables R Hs Hm Hp. pose proof (reachable_inv _ _ R) as I. destruct (roundtrip_ok parses f tables R Hs Hm Hp) as (g & E & D & _ & P & S & (F1 & _ & F3 & F4)).
  exists g. rewrite pan_create_eq. split; auto. rewrite <- pan_create_eq in E. apply pan_create_reachable in E. apply pan_reachable_inv in E. pose proof (inv_decl _ _ (reachable_inv _ _ (pi_strip _ _ E))) as Dg.
  pose proof (inv_decl _ _ I) as Df. apply mkTwin; auto.
  - intros t d. rewrite <- !decl_of_In by (now apply decl_ok_nodup). now rewrite D.
  - intros t x. apply (S t x).
  - intros t x. apply (S t x).
Qed.

Lemma twin_plain : forall f g t ts, twin f g -> (In (t, ts) (plain_schema g) <-> In (t, ts) (plain_schema f)).
Proof. intros f g t ts T. rewrite !in_plain. apply (tw_tables _ _ T). Qed.

Lemma twin_row_ok : forall date_of float_of show_date f g t ts r, twin f g ->
  row_ok date_of float_of show_date f t ts r -> row_ok date_of float_of show_date g t ts r.
Proof.
  intros date_of float_of show_date f g t ts r T [L H]. split; auto.
  assert (has_params g = has_params f) as Eh by (unfold has_params; now rewrite (tw_params _ _ T)).
  assert (forall k, param_type g k = param_type f k) as Ep by (intros k; unfold param_type; now rewrite (tw_params _ _ T)).
  destruct (String.eqb t "parameters").
  - rewrite Eh. destruct (has_params f); auto. destruct H as (s & v & E & H). exists s, v. split; auto. unfold param_survives in *. now rewrite Ep.
  - intros x v Hx. specialize (H x v Hx). unfold survives, kept in *. now rewrite (tw_types _ _ T), (tw_flag _ _ T), (tw_auto _ _ T).
Qed.

Lemma twin_params_shape : forall f g, twin f g -> params_shape f -> params_shape g.
Proof.
  intros f g T H Hh. unfold has_params in Hh. rewrite (tw_params _ _ T) in Hh. destruct (H Hh) as (k & v & Hin). exists k, v. now apply (twin_plain f g).
Qed.

Lemma defaults_dget2 : forall (dv : defaults) t x, In x (map fst (defaults_of dv t)) -> dget2 dv t x <> None.
Proof.
  intros dv t x H. unfold defaults_of in H. unfold dget2. unfold dget_or in *. destruct (dget String.eqb dv t) as [l |]; [| contradiction].
  apply in_map_iff in H as ([x' v] & E & H). cbn [fst] in E. subst x'. intros X. pose proof (proj1 (dget_None String.eqb l x) X x v H) as Y. now rewrite String.eqb_refl in Y.
Qed.

Lemma twin_defaults : forall f g, twin f g -> (forall t ts x v, In (t, ts) (plain_schema f) -> dget2 (f_defaults f) t x = Some v -> In x (tdf ts)) ->
  forall t ts, In (t, ts) (plain_schema g) -> defaults_on_data ts (defaults_of (f_defaults g) t).
Proof.
  intros f g T H t ts Hin x Hx. apply defaults_dget2 in Hx. rewrite (tw_defaults _ _ T) in Hx. destruct (dget2 (f_defaults f) t x) eqn:E; [| contradiction].
  eapply H; eauto. now apply (twin_plain f g).
Qed.

(** ** Which format *)

Definition all_lists (doc : jfile) : Prop := forall k e, In (k, e) doc -> exists rows, e = JList rows.

Lemma ready_plain : forall f, json_ready f = true <-> f_gens f = [] /\ forall t, ~ In (t, Generic) (f_decl f).
Proof.
  intros f. unfold json_ready. rewrite andb_true_iff, forallb_forall. split.
  - intros [A B]. split; [destruct (f_gens f); [auto | discriminate] |]. intros t H. now apply B in H.
  - intros [-> B]. split; auto. intros [t [| ts]] H; auto. now apply B in H.
Qed.

Lemma lists_not_pandas : forall f doc, all_lists doc -> (plain_schema f <> [] -> doc <> []) -> looks_pandas f doc = false.
Proof.
  intros f doc H Hne. unfold looks_pandas. destruct (plain_schema f) as [| p s]; [reflexivity |].
  destruct (forallb _ (p :: s)); auto. destruct doc as [| [k e] doc]; [exfalso; apply Hne; auto; discriminate |].
  destruct (H k e (or_introl eq_refl)) as (rows & ->). reflexivity.
Qed.

Lemma lists_jdict : forall doc, all_lists doc -> create_jdict (SFile (Some doc)) = Ret doc.
Proof.
  intros doc H. unfold create_jdict. cbn [loaded bindO]. replace (forallb _ doc) with true; auto. symmetry. apply forallb_forall. intros [k e] Hin.
  destruct (H k e Hin) as (rows & ->). reflexivity.
Qed.

Lemma columns_data_iff : forall l, columns_data l = true <-> forall x, In x l <-> x = "columns" \/ x = "data".
Proof.
  intros l. unfold columns_data. rewrite !andb_true_iff, !mem_str_iff, forallb_forall. split.
  - intros [[A B] C] x. split; [intros H; apply C in H; apply mem_str_iff in H; simpl in H; intuition | intros [-> | ->]; auto].
  - intros H. split; [split; apply H; auto |]. intros x Hx. apply mem_str_iff. apply H in Hx. simpl. intuition.
Qed.

(** ** Documents of rows *)

Lemma seqs_map : forall l, seqs (map RSeq l) = Some l.
Proof. induction l as [| r l IH]; auto. simpl. now rewrite IH. Qed.

Lemma dget_entries : forall {A B} (h : A -> B) (l : list (string * A)) k,
  dget String.eqb (map (fun ke => (fst ke, h (snd ke))) l) k = option_map h (dget String.eqb l k).
Proof.
  intros A B h l k. induction l as [| [k' e] l IH]; auto. cbn [map dget fst snd]. destruct (String.eqb k' k); auto.
Qed.

Lemma key_get_entries : forall {A B} (h : A -> B) (l : list (string * A)) t,
  key_get (map (fun ke => (fst ke, h (snd ke))) l) t = match key_get l t with Ret o => Ret (option_map h o) | Raise => Raise end.
Proof.
  intros A B h l t. unfold key_get. rewrite map_map. cbn [fst]. destruct (get_json_key (map fst l) t) as [[k |] |]; auto. now rewrite dget_entries.
Qed.

Lemma found_entries : forall {A B} (h : A -> B) g (l : list (string * A)),
  found g (key_get (map (fun ke => (fst ke, h (snd ke))) l)) =
  match found g (key_get l) with Ret x => Ret (map (fun te => (fst te, h (snd te))) x) | Raise => Raise end.
Proof.
  intros A B h g l. unfold found. induction (map fst (f_decl g)) as [| t ts IH]; auto. cbn [mapO]. rewrite key_get_entries.
  destruct (key_get l t) as [o |]; auto. cbn [bindO].
  destruct (mapO (fun t => bindO (key_get l t) (fun o => Ret match o with Some c => [(t, c)] | None => [] end)) ts) as [x |];
  destruct (mapO (fun t => bindO (key_get (map (fun ke => (fst ke, h (snd ke))) l) t) (fun o => Ret match o with Some c => [(t, c)] | None => [] end)) ts) as [y |];
  cbn [bindO] in *; try discriminate; auto. injection IH as IH. cbn [List.concat]. rewrite map_app, IH. now destruct o.
Qed.

Lemma found_sources : forall g (doc : list (string * jentry)), json_sources g doc = found g (key_get doc).
Proof.
  intros g doc. unfold json_sources, found, key_get. f_equal. induction (map fst (f_decl g)) as [| t l IH]; auto. cbn [mapO]. rewrite IH.
  destruct (get_json_key (map fst doc) t) as [[k |] |]; auto. 
Qed.

(** A table found is one of the factory. *)
Lemma found_In : forall {C} g (get : string -> outcome (option C)) l, found g get = Ret l -> forall t c, In (t, c) l -> In t (map fst (f_decl g)).
Proof.
  intros C g get l H. unfold found in H. apply bindO_ret in H as (m & Em & E). injection E as <-. apply mapO_Forall2 in Em.
  intros t c Hin. apply in_concat in Hin as (x & Hx & Hin). destruct (Forall2_In_r _ _ _ _ Em Hx) as (t' & Ht & E). apply bindO_ret in E as (o & _ & E). injection E as <-.
  destruct o; simpl in Hin; [| contradiction]. destruct Hin as [E | []]. injection E as -> _. auto.
Qed.

Section Doc.
  Variable parses : value -> bool.
  Variable date_of : value -> option Z.
  Variable float_of : value -> option value.
  Variable settle : list value -> list value.
  Variable show_date : Z -> string.
  Variable str_of : value -> string.
  Variable records : list rowin -> pattr.
  Variable dumps : jfile -> bool.

  Notation pan_doc := (pan_doc date_of float_of settle str_of records).
  Notation create_json := (create_json date_of float_of settle str_of).
  Notation via_pandas := (via_pandas parses date_of float_of settle str_of records).

  Definition rows_doc (doc : list (string * jentry)) : jfile :=
    map (fun te => (fst te, match snd te with JRows rows => JList (map RSeq rows) | _ => JScalar VNone end)) doc.

  Lemma filter_mine : forall g (l : list (string * jentry)), PanJson.all_plain g -> decl_ok (f_decl g) = true -> (forall t e, In (t, e) l -> In t (map fst (f_decl g))) ->
    filter (fun te : string * jentry => match table_of g (fst te) with Some _ => true | None => false end) l = l.
  Proof.
    intros g l Hg Hd H. induction l as [| [t e] l IH]; auto. cbn [filter fst]. rewrite IH by (intros; eapply H; simpl; eauto).
    assert (In t (map fst (f_decl g))) as Ht by (eapply H; simpl; eauto). apply in_map_iff in Ht as ([t' td] & E & Ht). cbn [fst] in E. subst t'. unfold table_of.
    pose proof (proj2 (decl_of_In (f_decl g) t td (decl_ok_nodup _ Hd)) Ht) as E. unfold decl_of in E. rewrite E. destruct td as [| ts]; auto. now apply Hg in Ht.
  Qed.

  (** A document of rows is read like [create_json] does. *)
  Lemma pan_doc_rows : forall g doc, PanJson.all_plain g -> decl_ok (f_decl g) = true -> (forall t e, In (t, e) doc -> exists rows, e = JRows rows) ->
    pan_doc g (rows_doc doc) = create_json true g doc.
  Proof.
    intros g doc Hg Hd H. unfold JsonDoc.pan_doc, PanIO.create_json. rewrite found_sources.
    set (h := fun e => match e with JRows rows => JList (map RSeq rows) | _ => JScalar VNone end).
    assert (found g (key_get (rows_doc doc)) = match found g (key_get doc) with Ret x => Ret (map (fun te => (fst te, h (snd te))) x) | Raise => Raise end) as -> by (apply (found_entries h)).
    destruct (found g (key_get doc)) as [l |] eqn:El; auto. cbn [bindO]. rewrite (filter_mine g l Hg Hd (found_In g (key_get doc) l El)).
    assert (forallb (fun ke : string * jentry => match snd ke with JRows _ => true | _ => false end) doc = true) as ->.
    { apply forallb_forall. intros [t e] Hin. destruct (H t e Hin) as (rows & ->). reflexivity. }
    assert (forallb (fun ke : string * jtab => match snd ke with JList _ => true | _ => false end) (rows_doc doc) = true) as ->.
    { apply forallb_forall. intros ke Hin. unfold rows_doc in Hin. apply in_map_iff in Hin as ([t e] & <- & Hin). destruct (H t e Hin) as (rows & ->). reflexivity. }
    f_equal. unfold h. clear. induction l as [| [t e] l IH]; auto. cbn [map flat_map fst snd]. rewrite IH. destruct e as [rows | fr |]; auto. now rewrite seqs_map.
  Qed.

  (** ** From the PanDat object to a TicDat object *)
  Lemma cname_NoDup : forall ts, wf_tschema ts -> NoDup (map CName (tfields ts)).
  Proof. intros ts W. apply FinFun.Injective_map_NoDup; auto. intros a b X. congruence. Qed.

  Lemma alike_null_cells : forall n (r r' : list value), Forall2 alike r r' -> Forall (fun v => is_null v = false) (firstn n r) -> firstn n r' = firstn n r.
  Proof.
    intros n r r' H. revert n. induction H as [| v w r r' A _ IH]; intros [| n] F; auto. cbn [firstn] in *. apply Forall_cons_iff in F as [F1 F2].
    rewrite (alike_value _ _ A F1). f_equal. now apply IH.
  Qed.

  Definition keys_full (ts : tschema) (rows : list (list value)) : Prop :=
    forall r, In r rows -> Forall (fun v => is_null v = false) (firstn (List.length (tpk ts)) r).

  Lemma alike_keys : forall ts rows rows', Forall2 (Forall2 alike) rows rows' -> keys_full ts rows -> map (key_of ts) rows' = map (key_of ts) rows.
  Proof.
    intros ts rows rows' H K. induction H as [| r r' l l' A _ IH]; auto. cbn [map]. rewrite IH by (intros x Hx; apply K; simpl; auto). f_equal.
    unfold key_of. rewrite (alike_null_cells (List.length (tpk ts)) r r' A); auto. apply K. simpl; auto.
  Qed.

  Lemma full_rows_of : forall ts rs, (forall r, In r rs -> List.length r = List.length (tfields ts)) -> (tpk ts <> [] -> no_equal_keys (map (key_of ts) rs)) ->
    full_rows (rows_table ts rs) = rs.
  Proof.
    intros ts rs L K. unfold rows_table. destruct (tpk ts) as [| p pk] eqn:Ep; auto. cbv iota. rewrite <- Ep in *. assert (tpk ts <> []) as Hne by (rewrite Ep; discriminate).
    rewrite dict_of_distinct; [| rewrite map_map; cbn [fst]; apply no_equal_keys_iff; auto].
    cbn [full_rows]. rewrite map_map. cbn [fst snd]. rewrite <- (map_id rs) at 2. apply map_ext_in. intros r Hr.
    destruct (key_of_shape ts r Hne (L r Hr)) as (_ & _ & ->). apply firstn_skipn.
  Qed.

  Lemma tic_of_pan : forall sch mode (rows rows' : string -> list (list value)), wf_schema sch -> (forall t ts, In (t, ts) sch -> frameable ts) ->
    (forall t ts, In (t, ts) sch -> Forall2 (Forall2 alike) (rows t) (rows' t) /\ PanIOFacts.rect (tfields ts) (rows t) /\
       (tpk ts <> [] -> keys_full ts (rows t) /\ no_equal_keys (map (key_of ts) (rows t)))) ->
    exists e gs, copy_to_tic_dat sch [] mode (pan_attrs sch rows') = Some (e, gs) /\
      forall t ts, In (t, ts) sch -> e t = rows_table ts (rows' t) /\ full_rows (e t) = rows' t.
  Proof.
    intros sch mode rows rows' W Hf H. set (frs := fun t => match dget String.eqb sch t with Some ts => plain_frame ts (rows' t) | None => mkFr [] [] [] end).
    assert (forall t ts, In (t, ts) sch -> PanIOFacts.rect (tfields ts) (rows' t)) as R'.
    { intros t ts Hin r Hr. destruct (H t ts Hin) as (A & B & _). destruct (Forall2_In_r _ _ _ _ A Hr) as (r0 & H0 & A0). rewrite <- (B r0 H0). symmetry. eapply Forall2_length; eauto. }
    assert (forall t ts, In (t, ts) sch -> dget String.eqb sch t = Some ts) as G by (intros t ts Hin; apply dget_In_NoDup; auto; apply W).
    assert (forall t ts, In (t, ts) sch -> frs t = plain_frame ts (rows' t)) as Efr by (intros t ts Hin; unfold frs; now rewrite (G t ts Hin)).
    assert (pan_object sch [] (pan_attrs sch rows') frs) as PO.
    { split; auto. split; [constructor |]. split; [intros t [] |]. split.
      - intros t Ht. rewrite app_nil_r in Ht. apply in_map_iff in Ht as ([t' ts] & E & Hin). cbn [fst] in E. subst t'. unfold pan_attrs. rewrite (G t ts Hin). now rewrite (Efr t ts Hin).
      - intros t ts Hin. rewrite (Efr t ts Hin). split; [apply plain_reads; [now apply W in Hin | now apply R'] |]. intros x Hx. simpl. now apply in_map. }
    destruct (copies_exact sch [] (pan_attrs sch rows') frs PO Hf mode) as (rs & A & _ & C).
    assert (forall t ts, In (t, ts) sch -> rs t = rows' t) as Ers.
    { intros t ts Hin. pose proof (A t ts Hin) as A1. rewrite (Efr t ts Hin) in A1. destruct (plain_reads ts (rows' t)) as [P1 P2]; [now apply W in Hin | now apply R' |].
      eapply reads_rows_unique; eauto. intros x Hx. simpl. now apply in_map. }
    assert (forall t ts, In (t, ts) sch -> tpk ts <> [] -> no_equal_keys (map (key_of ts) (rows' t))) as K.
    { intros t ts Hin Hne. destruct (H t ts Hin) as (F & _ & K). destruct (K Hne) as [K1 K2]. now rewrite (alike_keys ts (rows t) (rows' t) F K1). }
    destruct C as (e & gs & E1 & E2 & _).
    { intros (_ & t & ts & Hin & Hne & X). apply X. rewrite (Ers t ts Hin). eauto. }
    exists e, gs. split; auto. intros t ts Hin. rewrite (E2 t ts Hin), (Ers t ts Hin). split; auto. apply full_rows_of; [now apply R' | eauto].
  Qed.

  (** ** Documents of rows written through pandas *)

  (** The same keys, the data cells alike. *)
  Definition same_but_nulls (tb tb' : otable) : Prop :=
    match tb, tb' with
    | OKeyed l, OKeyed m => Forall2 (fun a b => fst a = fst b /\ Forall2 alike (snd a) (snd b)) l m
    | OListed l, OListed m => Forall2 (Forall2 alike) l m
    | _, _ => False
    end.

  Definition keys_distinct_in (tb : otable) : Prop :=
    match tb with OKeyed l => no_equal_keys (map fst l) /\ (forall k r, In (k, r) l -> k = packed (key_cells k)) | OListed _ => True end.

  Lemma key_of_cells : forall ts k (r : list value), key_shape ts k -> k = packed (key_cells k) ->
    firstn (List.length (tpk ts)) (key_cells k ++ r) = key_cells k /\ skipn (List.length (tpk ts)) (key_cells k ++ r) = r /\ key_of ts (key_cells k ++ r) = k.
  Proof.
    intros ts k r S P. assert (List.length (tpk ts) = List.length (key_cells k)) as L by (unfold key_shape in S; destruct k; simpl; auto).
    assert (firstn (List.length (tpk ts)) (key_cells k ++ r) = key_cells k) as A by (rewrite L, firstn_app, Nat.sub_diag, firstn_all; apply app_nil_r).
    split; auto. split; [rewrite L, skipn_app, Nat.sub_diag, skipn_all; reflexivity |]. unfold key_of. rewrite A. transitivity (packed (key_cells k)); auto. clear. now destruct (key_cells k) as [| a [| b c]].
  Qed.

  Lemma Forall2_skipn {A B} (P : A -> B -> Prop) : forall n l m, Forall2 P l m -> Forall2 P (skipn n l) (skipn n m).
  Proof. induction n as [| n IH]; intros l m H; auto. destruct H; cbn [skipn]; auto. Qed.

  Lemma same_tables : forall ts tb rs', table_ok ts tb -> keys_distinct_in tb ->
    (tpk ts <> [] -> keys_full ts (full_rows tb)) -> Forall2 (Forall2 alike) (full_rows tb) rs' -> same_but_nulls tb (rows_table ts rs').
  Proof.
    intros ts tb rs' Ok K F A. unfold rows_table. unfold table_ok in Ok. destruct (tpk ts) as [| p pk] eqn:Ep; destruct tb as [l | l]; try contradiction; auto.
    rewrite <- Ep in *. assert (keys_full ts (full_rows (OKeyed l))) as F' by (apply F; rewrite Ep; discriminate). clear F. cbv iota. cbn [same_but_nulls]. destruct K as [K1 K2].
    set (m := map (fun r => (key_of ts r, skipn (List.length (tpk ts)) r)) rs').
    assert (Forall2 (fun a b => fst a = fst b /\ Forall2 alike (snd a) (snd b)) l m) as X.
    { clear K1. unfold m. clear m. cbn [full_rows] in *. revert rs' A. induction l as [| [k r] l IH]; intros rs' A; inversion A as [| ? r' ? l' A1 A2]; subst; cbn [map]; constructor.
      - cbn [fst snd] in *. destruct (Ok k r) as [S _]; [simpl; auto |]. destruct (key_of_cells ts k r S) as (B1 & B2 & B3); [apply (K2 k r); simpl; auto |]. split.
        + rewrite <- B3 at 1. unfold key_of. now rewrite (alike_null_cells (List.length (tpk ts)) _ _ A1) by (match goal with |- Forall _ (firstn _ ?r0) => apply (F' r0); simpl; auto end).
        + rewrite <- B2 at 1. now apply Forall2_skipn.
      - apply IH; auto; [intros; eapply Ok; simpl; eauto | intros; eapply K2; simpl; eauto | intros x Hx; apply F'; simpl; auto]. }
    rewrite dict_of_distinct; auto. apply no_equal_keys_iff. assert (map fst m = map fst l) as ->; auto.
    clear - X. induction X as [| a b l m [H _] _ IH]; auto. cbn [map]. now rewrite <- H, IH.
  Qed.

  Lemma distinct_rows : forall ts tb, table_ok ts tb -> keys_distinct_in tb -> tpk ts <> [] -> no_equal_keys (map (key_of ts) (full_rows tb)).
  Proof.
    intros ts tb Ok K Hne. unfold table_ok in Ok. destruct (tpk ts) as [| p pk] eqn:Ep; [contradiction |]. destruct tb as [l | l]; [| contradiction]. rewrite <- Ep in *. destruct K as [K1 K2].
    cbn [full_rows]. rewrite map_map. assert (map (fun kr => key_of ts (key_cells (fst kr) ++ snd kr)) l = map fst l) as ->; auto.
    apply map_ext_in. intros [k r] Hin. cbn [fst snd]. apply key_of_cells; [eapply Ok; eauto | eapply K2; eauto].
  Qed.

  Lemma pick_plain : forall ts rows ix, wf_tschema ts -> PanIOFacts.rect (tfields ts) rows ->
    pick ts (mkFr ix (map CName (tfields ts)) (map (fun r => (firstn (List.length ix) r, r)) rows)) = rows.
  Proof.
    intros ts rows ix W R. unfold pick. cbn [fr_rows fr_cols]. rewrite map_map. cbn [snd]. rewrite <- (map_id rows) at 2. apply map_ext_in. intros r Hr.
    pose proof (R r Hr) as Lr. apply (list_nth_ext VNone); [now rewrite map_length |]. intros i Hi. rewrite map_length in Hi.
    rewrite (nth_indep _ VNone ((fun x => match cell_of (map CName (tfields ts)) r x with Some v => v | None => VNone end) "")) by (now rewrite map_length).
    rewrite (map_nth (fun x => match cell_of (map CName (tfields ts)) r x with Some v => v | None => VNone end) (tfields ts) "" i).
    assert (cell_of (map CName (tfields ts)) r (nth i (tfields ts) "") = Some (nth i r VNone)) as ->; auto.
    apply cell_of_nth; [now apply cname_NoDup | now rewrite map_length |].
    exists i. split; [erewrite map_nth_error; [reflexivity |]; now apply nth_error_nth' | apply nth_error_nth'; lia].
  Qed.

  (** The frames of [copy_to_pandas] with the key columns kept. *)
  Lemma copied_rows : forall sch d, wf_schema sch -> obj_ok sch d -> exists l, copy_to_pandas settle sch [] [] (Some false) false d = Some l /\
    forall t ts, In (t, ts) sch -> exists fr, dget String.eqb l t = Some (PFrame fr) /\ pick ts fr = settled settle (List.length (tfields ts)) (full_rows (d t)).
  Proof.
    intros sch d W Ok.
    assert (forall t ts, In (t, ts) sch -> exists fr, copy_frame settle (Some false) false ts (d t) = Some fr /\ pick ts fr = settled settle (List.length (tfields ts)) (full_rows (d t))) as C.
    { intros t ts Hin. rewrite copy_frame_exact by (eapply Ok; eauto). eexists. split; [reflexivity |]. pose proof (proj2 W _ _ Hin) as Wt.
      assert (PanIOFacts.rect (tfields ts) (settled settle (List.length (tfields ts)) (full_rows (d t)))) as R by (intros r Hr; eapply settled_lengths; eauto).
      destruct (full_rows (d t)) as [| r0 rows] eqn:Er; [reflexivity |]. rewrite <- Er in *. destruct (tpk ts) as [| p pk] eqn:Ep.
      - rewrite <- (pick_plain ts (settled settle (List.length (tfields ts)) (full_rows (d t))) [] Wt R) at 2. reflexivity.
      - rewrite <- Ep. cbv zeta iota. unfold set_index. cbn [fr_cols fr_rows drops]. rewrite map_map. cbn [snd].
        rewrite <- (pick_plain ts (settled settle (List.length (tfields ts)) (full_rows (d t))) (firstn (List.length (tpk ts)) (map CName (tfields ts))) Wt R) at 2.
        f_equal. f_equal. apply map_ext. intros r. f_equal. f_equal. rewrite firstn_length, map_length. unfold tfields. rewrite app_length. lia. }
    unfold copy_to_pandas. cbv zeta. rewrite app_nil_r.
    assert (forallb (fun t => mem_str t (map fst sch)) (map fst sch) = true) as -> by (apply forallb_forall; intros; now apply mem_str_iff).
    assert (forall s, (forall t ts, In (t, ts) s -> In (t, ts) sch) -> exists l,
      map_opt (fun t => option_map (pair t) (if mem_str t [] then Some (PText t) else match dget String.eqb sch t with Some ts => option_map PFrame (copy_frame settle (Some false) false ts (d t)) | None => None end)) (map fst s) = Some l /\
      map fst l = map fst s /\ forall t ts, In (t, ts) s -> exists fr, In (t, PFrame fr) l /\ pick ts fr = settled settle (List.length (tfields ts)) (full_rows (d t))) as G.
    { induction s as [| [t ts] s IH]; intros Hs; [exists []; split; auto; split; auto; intros ? ? [] |]. destruct IH as (l & E1 & E2 & E3); [intros; apply Hs; simpl; auto |].
      destruct (C t ts) as (fr & F1 & F2); [apply Hs; simpl; auto |]. exists ((t, PFrame fr) :: l). cbn [map fst map_opt]. change (mem_str t []) with false. cbv iota.
      assert (dget String.eqb sch t = Some ts) as -> by (apply dget_In_NoDup; [apply W | apply Hs; simpl; auto]). rewrite F1. cbn [option_map]. rewrite E1. split; auto. split; [now rewrite E2 |].
      intros t' ts' [E | H]; [injection E as <- <-; exists fr; simpl; auto |]. destruct (E3 _ _ H) as (fr' & X1 & X2). exists fr'. simpl; auto. }
    destruct (G sch (fun _ _ H => H)) as (l & E1 & E2 & E3). exists l. split; auto. intros t ts Hin. destruct (E3 t ts Hin) as (fr & X1 & X2). exists fr. split; auto.
    apply dget_In_NoDup; auto. rewrite E2. apply W.
  Qed.

  Notation json_read := (json_read parses date_of float_of settle str_of records).

  Lemma via_pandas_rows : forall f g tables s doc d rows, twin f g -> pan_create parses (schema_in_order f tables) = Some g ->
    loaded s = Ret doc -> pan_doc g doc = Ret d ->
    (forall t ts, In (t, ts) (plain_schema f) -> frameable ts) ->
    (forall t ts, In (t, ts) (plain_schema f) -> Forall2 (Forall2 alike) (rows t) (d t) /\ PanIOFacts.rect (tfields ts) (rows t) /\
       (tpk ts <> [] -> keys_full ts (rows t) /\ no_equal_keys (map (key_of ts) (rows t)))) ->
    exists e, via_pandas f tables s = Ret e /\ forall t ts, In (t, ts) (plain_schema f) -> e t = rows_table ts (d t) /\ full_rows (e t) = d t.
  Proof.
    intros f g tables s doc d rows T Eg El Ed Hf H. unfold JsonDoc.via_pandas. rewrite Eg, El. cbn [bindO]. rewrite Ed. cbn [bindO].
    destruct (tic_of_pan (plain_schema g) (dup_mode g) rows d (plain_wf g (tw_decl _ _ T))) as (e & gs & E & X).
    - intros t ts Hin. apply (twin_plain f g) in Hin; eauto.
    - intros t ts Hin. apply (twin_plain f g) in Hin; eauto.
    - rewrite E. exists e. split; auto. intros t ts Hin. apply X. now apply (twin_plain f g).
  Qed.

  Lemma alike_rows_trans : forall a b c : list (list value), Forall2 (Forall2 alike) a b -> Forall2 (Forall2 alike) b c -> Forall2 (Forall2 alike) a c.
  Proof.
    assert (forall x y z : list value, Forall2 alike x y -> Forall2 alike y z -> Forall2 alike x z) as G.
    { intros x y z H. revert z. induction H as [| u v x y A _ IH]; intros z H'; inversion H'; subst; constructor; auto. eapply alike_trans; eauto. }
    intros a b c H. revert c. induction H as [| x y a b A _ IH]; intros c H'; inversion H'; subst; constructor; eauto.
  Qed.

  Definition plain_factory (f : factory) : Prop := json_ready f = true /\ good_flag (f_flag f) = true /\ params_shape f /\
    (forall t ts, In (t, ts) (plain_schema f) -> frameable ts) /\
    (forall t ts x v, In (t, ts) (plain_schema f) -> dget2 (f_defaults f) t x = Some v -> In x (tdf ts)).

  Theorem pan_json_back : forall f tables d doc doc' s, reachable parses f -> string_params f -> no_empty_fk f -> Permutation (f_decl f) tables ->
    plain_factory f ->
    obj_ok (plain_schema f) d -> obj_keys (plain_schema f) d -> proper_keys (plain_schema f) d ->
    (forall l, gentle settle l) ->
    (forall t ts r r', In (t, ts) (plain_schema f) -> In r (full_rows (d t)) -> Forall2 alike r r' -> row_ok date_of float_of show_date f t ts r') ->
    (forall t ts, In (t, ts) (plain_schema f) -> tpk ts <> [] -> keys_full ts (full_rows (d t))) ->
    make_pan_json parses date_of settle show_date f tables d = Ret doc -> Permutation doc' doc -> loaded s = Ret doc' ->
    (forall t, In t (map fst doc) <-> In t (map fst (f_decl f))) /\
    exists e, json_read f tables s true = Ret e /\ forall t ts, In (t, ts) (plain_schema f) -> same_but_nulls (d t) (e t).
  Proof.
    intros f tables d doc doc' s R Hs Hm Hp (Hj & Gf & Ps & Hfr & Hdv) Ok Ks Pk Hg Hr Kf Em Pm El.
    destruct (made_twin parses f tables R Hs Hm Hp) as (g & Eg & T).
    assert (forall t ts, In (t, ts) (plain_schema f) -> keys_distinct_in (d t)) as Kd.
    { intros t ts Hin. specialize (Ks t ts Hin). specialize (Pk t ts Hin). unfold keys_distinct_in. destruct (d t); auto. }
    pose proof (plain_wf f (inv_decl _ _ (reachable_inv _ _ R))) as W. destruct (copied_rows (plain_schema f) d W Ok) as (l & El0 & Hl).
    apply ready_plain in Hj as Hj'. destruct Hj' as [_ Hgen].
    assert (PanJson.all_plain g) as Ag by (intros t Ht; apply (tw_tables _ _ T) in Ht; now apply Hgen in Ht).
    unfold make_pan_json in Em. rewrite Eg, El0 in Em. set (w := fun t => match dget String.eqb l t with Some (PFrame fr) => _ | _ => _ end) in Em.
    apply bindO_ret in Em as (jd & Ej & E). injection E as E. fold (rows_doc jd) in E.
    assert (forall t ts, In (t, ts) (plain_schema f) -> w t = settled settle (List.length (tfields ts)) (full_rows (d t))) as Ew.
    { intros t ts Hin. unfold w. destruct (Hl t ts Hin) as (fr & X1 & X2). rewrite X1.
      assert (dget String.eqb (plain_schema g) t = Some ts) as ->; auto. apply dget_In_NoDup; [apply (plain_wf g (tw_decl _ _ T)) | now apply (twin_plain f g)]. }
    assert (forall t ts, In (t, ts) (plain_schema f) -> Forall2 (Forall2 alike) (full_rows (d t)) (w t)) as Aw.
    { intros t ts Hin. rewrite (Ew t ts Hin). apply settled_alike; [apply full_rows_length; eapply Ok; eauto | intros; apply Hg]. }
    assert (forall te, In te jd -> exists rows, snd te = JRows rows) as Hrows.
    { intros [t e] Hin. destruct (written date_of show_date g w jd Ej) as (_ & B & _). cbn [snd]. eauto. }
    (* the permutation of the rows *)
    assert (exists jd', Permutation jd' jd /\ doc' = rows_doc jd') as (jd' & Pj & ->).
    { rewrite <- E in Pm. unfold rows_doc in Pm. apply Permutation_map_inv in Pm as (jd' & X & Y). exists jd'. split; [now apply Permutation_sym | exact X]. }
    destruct (json_back date_of float_of settle show_date str_of true g w jd jd') as (d' & Ed & Ad); auto.
    - apply T.
    - now rewrite (tw_flag _ _ T).
    - eapply twin_params_shape; eauto.
    - eapply twin_defaults; eauto.
    - intros t ts r Hin Hrw. apply (twin_plain f g) in Hin; auto. eapply twin_row_ok; eauto. destruct (Forall2_In_r _ _ _ _ (Aw t ts Hin) Hrw) as (r0 & H0 & A0). eapply Hr; eauto.
    - split.
      + destruct (written date_of show_date g w jd Ej) as (A & _). assert (map fst doc = map fst (f_decl g)) as -> by (rewrite <- A, <- E; unfold rows_doc; rewrite map_map; reflexivity).
        intros t. rewrite !in_map_iff. split; intros ([t' td] & Et & Hin); exists (t', td); split; auto; now apply (tw_tables _ _ T).
      + destruct (via_pandas_rows f g tables s (rows_doc jd') d' (fun t => full_rows (d t)) T Eg El) as (e & Ee & X); auto.
        * rewrite pan_doc_rows; auto; [apply T |]. intros t e Hin. apply (Permutation_in _ Pj) in Hin. apply (Hrows _ Hin).
        * intros t ts Hin. split; [| split].
          -- specialize (Ad t ts (proj2 (twin_plain f g t ts T) Hin)). eapply alike_rows_trans; eauto.
          -- intros r Hr'. eapply full_rows_length; eauto.
          -- intros Hne. split; [eapply Kf; eauto |]. apply distinct_rows; eauto.
        * exists e. unfold JsonDoc.json_read. rewrite Hj. split; auto. intros t ts Hin. destruct (X t ts Hin) as [-> _]. apply same_tables; eauto.
          specialize (Ad t ts (proj2 (twin_plain f g t ts T) Hin)). eapply alike_rows_trans; eauto.
  Qed.
End Doc.
