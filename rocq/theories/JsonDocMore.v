(** * More about the json reader: formats, further keys, files, duplicates. *)
From Coq Require Import ZArith Bool List String Ascii Arith Lia Permutation.
From Verif Require Import PyVal PyValFacts PyDict PyDictFacts ListFacts PyStr TypeDict Data FindTypes FindTypesFacts FK Obj ObjFacts ObjMore ObjRows
  Factory FactoryFacts FactoryMore FactoryClone InfIO InfIOFacts Params Names NamesFacts Utils Json JsonFacts JsonDups JsonMore Csv CsvTrip CsvMore Frames FramesFacts FramesTrip P_Frames NearPan
  PanIO PanIOFacts PanRead PanJson PanFiles PanFilesFacts PanFilesTrip PanFac PanFacFacts JsonDoc JsonDocFacts.
Import ListNotations.
Local Open Scope string_scope.
Local Open Scope list_scope.

(** The document that [write_file_pd] makes of these frames: objects with the given keys, which [read_json] turns back by [load]. *)
Definition split_doc (ks : list string) (load : (string -> bool) -> frame -> frame) (doc : list (string * frame)) : jfile :=
  map (fun kf => (fst kf, JObject ks (fun text => Some (load text (snd kf))))) doc.

(** Keys that match no table. *)
Definition unrelated (f : factory) (extra : jfile) : Prop :=
  forall k t, In k (map fst extra) -> In t (map fst (f_decl f)) -> unspace k <> lower t.

Definition split_shaped (e : jtab) : Prop := exists ks fr, e = JObject ks fr /\ columns_data ks = true.
Definition container (e : jtab) : Prop := match e with JScalar _ => False | _ => True end.

Lemma filter_related : forall f t (doc extra doc' : jfile), unrelated f extra -> In t (map fst (f_decl f)) -> Permutation (doc ++ extra) doc' ->
  Permutation (filter (json_match t) (map fst doc)) (filter (json_match t) (map fst doc')).
Proof.
  intros f t doc extra doc' U Ht P. apply (Permutation_map fst) in P. rewrite map_app in P.
  assert (filter (json_match t) (map fst doc ++ map fst extra) = filter (json_match t) (map fst doc)) as E.
  { rewrite filter_app. rewrite (filter_none' _ (map fst extra)); [apply app_nil_r |]. intros k Hk. unfold json_match. apply String.eqb_neq. eauto. }
  rewrite <- E. clear E. induction P; simpl; auto.
  - destruct (json_match t x); auto.
  - destruct (json_match t x), (json_match t y); auto. apply perm_swap.
  - eapply perm_trans; eauto.
Qed.

Lemma key_unrelated : forall f t (doc extra doc' : jfile), unrelated f extra -> In t (map fst (f_decl f)) -> Permutation (doc ++ extra) doc' ->
  get_json_key (map fst doc') t = get_json_key (map fst doc) t.
Proof.
  intros f t doc extra doc' U Ht P. pose proof (filter_related f t doc extra doc' U Ht P) as F. unfold get_json_key.
  destruct (filter (json_match t) (map fst doc)) as [| a [| b l]].
  - apply Permutation_nil in F. now rewrite F.
  - apply Permutation_length_1_inv in F. now rewrite F.
  - destruct (filter (json_match t) (map fst doc')) as [| a' [| b' l']]; auto.
    + apply Permutation_sym, Permutation_nil in F. discriminate.
    + apply Permutation_sym, Permutation_length_1_inv in F. discriminate.
Qed.

Lemma key_found : forall keys t k, get_json_key keys t = Ret (Some k) -> In k keys.
Proof.
  intros keys t k H. unfold get_json_key in H. destruct (filter (json_match t) keys) as [| a [| b l]] eqn:E; try discriminate. injection H as <-.
  assert (In a (filter (json_match t) keys)) as X by (rewrite E; simpl; auto). now apply filter_In in X.
Qed.

Lemma entry_unrelated : forall f t (doc extra doc' : jfile) k, NoDup (map fst doc') -> Permutation (doc ++ extra) doc' -> In t (map fst (f_decl f)) ->
  get_json_key (map fst doc) t = Ret (Some k) -> dget String.eqb doc' k = dget String.eqb doc k.
Proof.
  intros f t doc extra doc' k N P Ht E. apply key_found in E. apply in_map_iff in E as ([k' e] & Ek & Hin). cbn [fst] in Ek. subst k'.
  assert (NoDup (map fst doc)) as N'.
  { apply Permutation_sym in P. apply (Permutation_map fst) in P. apply (Permutation_NoDup P) in N. rewrite map_app in N. clear - N. induction (map fst doc) as [| x l IH]; [constructor |].
    inversion N as [| ? ? A B]; subst. constructor; auto. intros X. apply A. apply in_or_app. auto. }
  rewrite (proj2 (dget_In_NoDup doc k e N') Hin). apply dget_In_NoDup; auto. apply (Permutation_in _ P). apply in_or_app. auto.
Qed.

Lemma dget_as_jdoc : forall doc k, dget String.eqb (as_jdoc doc) k = option_map as_rows (dget String.eqb doc k).
Proof. intros doc k. unfold as_jdoc. apply dget_entries. Qed.

Lemma as_jdoc_keys : forall doc, map fst (as_jdoc doc) = map fst doc.
Proof. intros doc. unfold as_jdoc. now rewrite map_map. Qed.

Lemma plain_in_decl : forall f t ts, In (t, ts) (plain_schema f) -> In t (map fst (f_decl f)).
Proof. intros f t ts H. apply in_plain in H. now apply (in_map fst) in H. Qed.

Lemma set_elsewhere : forall {V} (d : list (string * V)) k k' v, k <> k' -> dget String.eqb (dset String.eqb d k v) k' = dget String.eqb d k'.
Proof.
  intros V d k k' v H. induction d as [| [a w] d IH]; cbn [dset dget].
  - now rewrite (proj2 (String.eqb_neq k k') H).
  - destruct (String.eqb a k) eqn:E; cbn [dget].
    + apply String.eqb_eq in E. subst a. now rewrite (proj2 (String.eqb_neq k k') H).
    + destruct (String.eqb a k'); auto.
Qed.

Lemma no_equal_dec : forall ks, no_equal_keys ks \/ ~ no_equal_keys ks.
Proof.
  intros ks. rewrite <- no_equal_keys_iff. induction ks as [| k ks IH]; [left; exact I |]. cbn [keys_distinct].
  destruct (existsb (pkey_eqb k) ks) eqn:E.
  - right. intros [H _]. apply existsb_exists in E as (x & Hx & X). rewrite (H x Hx) in X. discriminate.
  - destruct IH as [IH | IH]; [left; split; auto | right; tauto]. intros x Hx. destruct (pkey_eqb k x) eqn:X; auto. assert (existsb (pkey_eqb k) ks = true) by (apply existsb_exists; eauto). congruence.
Qed.

Section More.
  Variable parses : value -> bool.
  Variable date_of : value -> option Z.
  Variable float_of : value -> option value.
  Variable settle : list value -> list value.
  Variable show_date : Z -> string.
  Variable str_of : value -> string.
  Variable records : list rowin -> pattr.
  Variable dumps : jfile -> bool.

  Notation pan_doc := (pan_doc date_of float_of settle str_of records).
  Notation via_pandas := (via_pandas parses date_of float_of settle str_of records).
  Notation json_read := (json_read parses date_of float_of settle str_of records).

  (** ** Further keys *)

  Lemma create_unrelated : forall f doc extra doc', unrelated f extra -> NoDup (map fst doc') -> Permutation (doc ++ extra) doc' ->
    json_create date_of float_of f (as_jdoc doc') = json_create date_of float_of f (as_jdoc doc).
  Proof.
    intros f doc extra doc' U N P. unfold json_create. f_equal. unfold json_inputs. rewrite !as_jdoc_keys. f_equal.
    assert (forall s : schema, (forall x, In x s -> In x (plain_schema f)) ->
      mapO (fun tts => bindO (get_json_key (map fst doc') (fst tts)) (fun o => match o with None => Ret [] | Some k => bindO (mapO (json_read_row date_of float_of f (fst tts) (snd tts)) (dget_or String.eqb (as_jdoc doc') k [])) (fun rows => Ret [(fst tts, TRows rows)]) end)) s =
      mapO (fun tts => bindO (get_json_key (map fst doc) (fst tts)) (fun o => match o with None => Ret [] | Some k => bindO (mapO (json_read_row date_of float_of f (fst tts) (snd tts)) (dget_or String.eqb (as_jdoc doc) k [])) (fun rows => Ret [(fst tts, TRows rows)]) end)) s) as G; [| apply G; auto].
    induction s as [| [t ts] s IH]; intros Hs; auto. cbn [mapO fst snd]. rewrite IH by (intros; apply Hs; simpl; auto).
    assert (In t (map fst (f_decl f))) as Ht by (eapply plain_in_decl; apply Hs; simpl; eauto).
    rewrite (key_unrelated f t doc extra doc' U Ht P). destruct (get_json_key (map fst doc) t) as [[k |] |] eqn:E; auto. cbn [bindO].
    unfold dget_or. rewrite !dget_as_jdoc. now rewrite (entry_unrelated f t doc extra doc' k N P Ht E).
  Qed.

  Lemma found_unrelated : forall f g doc extra doc', twin f g -> unrelated f extra -> NoDup (map fst doc') -> Permutation (doc ++ extra) doc' ->
    found g (key_get doc') = found g (key_get doc).
  Proof.
    intros f g doc extra doc' T U N P. unfold found. f_equal.
    assert (forall l, (forall t, In t l -> In t (map fst (f_decl f))) ->
      mapO (fun t => bindO (key_get doc' t) (fun o => Ret match o with Some c => [(t, c)] | None => [] end)) l =
      mapO (fun t => bindO (key_get doc t) (fun o => Ret match o with Some c => [(t, c)] | None => [] end)) l) as G.
    { induction l as [| t l IH]; intros Hl; auto. cbn [mapO]. rewrite IH by (intros; apply Hl; simpl; auto). assert (In t (map fst (f_decl f))) as Ht by (apply Hl; simpl; auto).
      assert (key_get doc' t = key_get doc t) as ->; auto. unfold key_get. rewrite (key_unrelated f t doc extra doc' U Ht P).
      destruct (get_json_key (map fst doc) t) as [[k |] |] eqn:E; auto. now rewrite (entry_unrelated f t doc extra doc' k N P Ht E). }
    apply G. intros t Ht. apply in_map_iff in Ht as ([t' td] & E & Ht). cbn [fst] in E. subst t'. apply (tw_tables _ _ T) in Ht. now apply (in_map fst) in Ht.
  Qed.

  Lemma forallb_extra : forall (P : string * jtab -> bool) doc extra doc', Permutation (doc ++ extra) doc' -> forallb P doc' = forallb P doc && forallb P extra.
  Proof.
    intros P doc extra doc' H. rewrite <- forallb_app. apply eq_true_iff_eq. rewrite !forallb_forall. split; intros X y Hy; apply X.
    - now apply (Permutation_in _ H).
    - now apply (Permutation_in _ (Permutation_sym H)).
  Qed.

  Lemma jdict_extra : forall doc extra doc', (forall k e, In (k, e) extra -> container e) -> Permutation (doc ++ extra) doc' ->
    (create_jdict (SFile (Some doc)) = Ret doc /\ create_jdict (SFile (Some doc')) = Ret doc') \/
    (create_jdict (SFile (Some doc)) = Raise /\ create_jdict (SFile (Some doc')) = Raise).
  Proof.
    intros doc extra doc' C P. unfold create_jdict. cbn [loaded bindO]. rewrite (forallb_extra _ doc extra doc' P).
    replace (forallb (fun ke : string * jtab => match snd ke with JScalar _ => false | _ => true end) extra) with true.
    - rewrite andb_true_r. destruct (forallb _ doc); auto.
    - symmetry. apply forallb_forall. intros [k e] Hin. specialize (C k e Hin). now destruct e.
  Qed.

  (** A key that matches no table and holds something changes nothing if the document has a key that does not
      hold an object with the keys columns and data. *)
  Theorem extra_lists : forall f tables doc extra doc', unrelated f extra -> NoDup (map fst doc') -> Permutation (doc ++ extra) doc' ->
    (forall k e, In (k, e) extra -> container e) ->
    (exists k e, In (k, e) doc /\ ~ split_shaped e) ->
    json_read f tables (SFile (Some doc')) false = json_read f tables (SFile (Some doc)) false.
  Proof.
    intros f tables doc extra doc' U N P C (k & e & Hin & He). unfold JsonDoc.json_read. destruct (json_ready f); auto.
    assert (forall d : jfile, In (k, e) d -> looks_pandas f d = false) as L.
    { intros d Hd. unfold looks_pandas. destruct (forallb _ (plain_schema f)); auto. apply not_true_is_false. rewrite forallb_forall. intros X. specialize (X _ Hd). cbn [snd] in X.
      destruct e as [| ks fr |]; try discriminate. apply He. exists ks, fr. auto. }
    destruct (jdict_extra doc extra doc' C P) as [[-> ->] | [-> ->]]; auto. cbn [bindO]. rewrite (L doc Hin), (L doc').
    - eapply create_unrelated; eauto.
    - apply (Permutation_in _ P). apply in_or_app. auto.
  Qed.

  Lemma pan_doc_extra : forall f g doc extra doc', twin f g -> unrelated f extra -> NoDup (map fst doc') -> Permutation (doc ++ extra) doc' ->
    ((doc <> [] /\ forall k e, In (k, e) extra -> match e with JObject _ _ => True | _ => False end) /\ (forall k e, In (k, e) doc -> match e with JObject _ _ => True | _ => False end) \/
     (forall k e, In (k, e) (doc ++ extra) -> match e with JList _ => True | _ => False end)) ->
    pan_doc g doc' = pan_doc g doc.
  Proof.
    intros f g doc extra doc' T U N P H. unfold JsonDoc.pan_doc. rewrite (found_unrelated f g doc extra doc' T U N P). destruct (found g (key_get doc)) as [l |]; auto. cbn [bindO].
    rewrite !(forallb_extra _ doc extra doc' P). destruct H as [[[Hne He] Hd] | H].
    - assert (forallb (fun ke : string * jtab => match snd ke with JList _ => true | _ => false end) doc = false) as ->.
      { destruct doc as [| [k e] doc]; [contradiction |]. cbn [forallb snd]. specialize (Hd k e (or_introl eq_refl)). now destruct e. }
      assert (forallb (fun ke : string * jtab => match snd ke with JObject _ _ => true | _ => false end) extra = true) as ->.
      { apply forallb_forall. intros [k e] Hin. specialize (He k e Hin). now destruct e. }
      rewrite andb_true_r. reflexivity.
    - assert (forallb (fun ke : string * jtab => match snd ke with JList _ => true | _ => false end) doc = true /\ forallb (fun ke : string * jtab => match snd ke with JList _ => true | _ => false end) extra = true) as [-> ->].
      { split; apply forallb_forall; intros [k e] Hin; specialize (H k e ltac:(apply in_or_app; auto)); now destruct e. }
      reflexivity.
  Qed.

  (** ... or if it holds such an object itself. *)
  Theorem extra_objects : forall f tables doc extra doc', reachable parses f -> string_params f -> no_empty_fk f -> Permutation (f_decl f) tables ->
    unrelated f extra -> NoDup (map fst doc') -> Permutation (doc ++ extra) doc' -> doc <> [] ->
    (forall k e, In (k, e) extra -> split_shaped e) ->
    json_read f tables (SFile (Some doc')) false = json_read f tables (SFile (Some doc)) false.
  Proof.
    intros f tables doc extra doc' R Hs Hm Hp U N P Hne He.
    assert (forall k e, In (k, e) extra -> container e) as C by (intros k e H; destruct (He k e H) as (ks & fr & -> & _); exact I).
    destruct (forallb (fun ke : string * jtab => match snd ke with JObject ks _ => columns_data ks | _ => false end) doc) eqn:Ed.
    - rewrite forallb_forall in Ed.
      assert (looks_pandas f doc' = looks_pandas f doc) as El.
      { unfold looks_pandas. destruct (forallb _ (plain_schema f)); auto. rewrite (forallb_extra _ doc extra doc' P).
        replace (forallb (fun ke : string * jtab => match snd ke with JObject ks _ => columns_data ks | _ => false end) extra) with true; [apply andb_true_r |].
        symmetry. apply forallb_forall. intros [k e] Hin. destruct (He k e Hin) as (ks & fr & -> & X). exact X. }
      unfold JsonDoc.json_read. destruct (json_ready f); auto. destruct (jdict_extra doc extra doc' C P) as [[-> ->] | [-> ->]]; auto. cbn [bindO]. rewrite El.
      destruct (looks_pandas f doc); [| eapply create_unrelated; eauto].
      unfold JsonDoc.via_pandas. destruct (made_twin parses f tables R Hs Hm Hp) as (g & -> & T). cbn [loaded bindO].
      rewrite (pan_doc_extra f g doc extra doc' T U N P); auto. left. split; [split; auto |]; intros k e Hin.
      + destruct (He k e Hin) as (ks & fr & -> & _). exact I.
      + specialize (Ed _ Hin). cbn [snd] in Ed. now destruct e.
    - eapply extra_lists; eauto. apply not_true_iff_false in Ed.
      destruct (existsb (fun ke : string * jtab => negb match snd ke with JObject ks _ => columns_data ks | _ => false end) doc) eqn:Ex.
      + apply existsb_exists in Ex as ([k e] & Hin & X). exists k, e. split; auto. intros (ks & fr & -> & Y). cbn [snd] in X. now rewrite Y in X.
      + exfalso. apply Ed. apply forallb_forall. intros x Hx. rewrite <- not_true_iff_false, existsb_exists in Ex. apply not_false_is_true. intros Y. apply Ex. exists x. rewrite Y. auto.
  Qed.

  (** ** The format written by default *)

  Theorem default_back : forall f tables verbose d, decl_ok (f_decl f) = true -> json_ready f = true ->
    obj_ok (plain_schema f) d -> obj_keys (plain_schema f) d -> proper_keys (plain_schema f) d ->
    cells_back date_of float_of show_date f d -> params_back date_of float_of show_date f d ->
    exists doc, make_doc parses date_of settle show_date f tables d verbose false = Ret doc /\ all_lists doc /\ map fst doc = map fst (plain_schema f) /\
      forall doc', all_lists doc' -> doc_like (map fst (plain_schema f)) (as_jdoc doc) (as_jdoc doc') ->
        exists e, json_read f tables (SFile (Some doc')) false = Ret e /\ forall t ts, In (t, ts) (plain_schema f) -> e t = d t.
  Proof.
    intros f tables verbose d Hd Hj Ok Ks Pk Cb Pb. destruct (json_round_trip date_of float_of show_date f verbose d Hd Ok Ks Pk Cb Pb) as (jd & Ej & H).
    set (doc := map (fun tr : string * list rowin => (fst tr, JList (snd tr))) jd).
    assert (as_jdoc doc = jd) as Ea.
    { unfold doc, as_jdoc. rewrite map_map. cbn [fst snd as_rows]. clear. induction jd as [| [k r] l IH]; auto. cbn [map fst snd]. now rewrite IH. }
    assert (map fst jd = map fst (plain_schema f)) as Ek.
    { unfold make_json in Ej. apply mapO_Forall2 in Ej. clear - Ej. induction Ej as [| [t ts] y l m H _ IH]; auto. cbn [map fst] in *. rewrite IH. apply bindO_ret in H as (rows & _ & E). now injection E as <-. }
    exists doc. unfold make_doc. rewrite Ej. cbn [bindO]. split; auto. split; [| split].
    - intros k e Hin. unfold doc in Hin. apply in_map_iff in Hin as ([k' r] & E & _). injection E as <- <-. eauto.
    - now rewrite <- as_jdoc_keys, Ea.
    - intros doc' A L. rewrite Ea in L. destruct (H _ L) as (e & Ee & X). exists e. split; auto. unfold JsonDoc.json_read. rewrite Hj, (lists_jdict doc' A). cbn [bindO].
      rewrite lists_not_pandas; auto. intros Hne E. subst doc'. destruct L as (mid & extra & F & P & _). apply Permutation_sym, Permutation_nil in P. apply app_eq_nil in P as [-> _].
      assert (jd = []) as E0 by (inversion F; auto). rewrite E0 in Ek. cbn [map] in Ek. destruct (plain_schema f); [contradiction | discriminate].
  Qed.

  (** ** Documents written by [write_file_pd] *)

  Lemma pan_doc_split : forall g ks load doc, PanJson.all_plain g -> decl_ok (f_decl g) = true ->
    pan_doc g (split_doc ks load doc) = pd_read date_of float_of settle str_of load false g doc.
  Proof.
    intros g ks load doc Hg Hd. unfold JsonDoc.pan_doc, pd_read. set (h := fun fr : frame => JObject ks (fun text => Some (load text fr))).
    assert (found g (key_get (split_doc ks load doc)) = match found g (key_get doc) with Ret x => Ret (map (fun te => (fst te, h (snd te))) x) | Raise => Raise end) as -> by (apply (found_entries h)).
    destruct (found g (key_get doc)) as [l |] eqn:El; auto. cbn [bindO].
    assert (plain_frames load g true l = map (fun te => (fst te, load (read_as_text g (fst te)) (snd te))) l) as Ep.
    { pose proof (found_In g (key_get doc) l El) as Hl. clear El. unfold plain_frames. induction l as [| [t fr] l IH]; auto. cbn [flat_map map fst snd]. rewrite IH by (intros; eapply Hl; simpl; eauto).
      assert (In t (map fst (f_decl g))) as Ht by (eapply Hl; simpl; eauto). apply in_map_iff in Ht as ([t' td] & E & Ht). cbn [fst] in E. subst t'.
      assert (table_of g t <> None) as X. { unfold table_of. rewrite (proj2 (dget_In_NoDup (f_decl g) t td (decl_ok_nodup _ Hd)) Ht). destruct td; [now apply Hg in Ht | discriminate]. }
      destruct (table_of g t); [reflexivity | contradiction]. }
    rewrite Ep. destruct doc as [| [k fr] doc].
    - assert (l = []) as ->.
      { destruct l as [| [t c] l]; auto. exfalso. unfold found in El. apply bindO_ret in El as (m & Em & E). injection E as E. apply mapO_Forall2 in Em.
        assert (In (t, c) (List.concat m)) as X by (rewrite E; simpl; auto). apply in_concat in X as (x & Hx & Hin). destruct (Forall2_In_r _ _ _ _ Em Hx) as (t' & _ & Y). cbn in Y. injection Y as <-. contradiction. }
      reflexivity.
    - cbn [split_doc map forallb snd]. assert (forallb (fun ke : string * jtab => match snd ke with JObject _ _ => true | _ => false end) (map (fun kf => (fst kf, JObject ks (fun text => Some (load text (snd kf))))) doc) = true) as ->.
      { apply forallb_forall. intros x Hx. apply in_map_iff in Hx as (y & <- & _). reflexivity. }
      cbv iota. cbn [andb]. clear. rewrite (proj2 (mapO_Forall2 _ _ (map (fun te => (fst te, load (read_as_text g (fst te)) (snd te))) l))); auto.
      induction l as [| [t fr'] l IH]; cbn [map]; constructor; auto.
  Qed.

  Lemma looks_split : forall f ks load doc, (exists t ts, In (t, ts) (plain_schema f) /\ columns_data (tfields ts) = false) -> columns_data ks = true ->
    looks_pandas f (split_doc ks load doc) = true.
  Proof.
    intros f ks load doc (t & ts & Hin & E) Hk. unfold looks_pandas.
    assert (forallb (fun tts : string * tschema => columns_data (tfields (snd tts))) (plain_schema f) = false) as ->.
    { apply not_true_is_false. rewrite forallb_forall. intros X. specialize (X _ Hin). cbn [snd] in X. congruence. }
    apply forallb_forall. intros x Hx. apply in_map_iff in Hx as (y & <- & _). exact Hk.
  Qed.

  Theorem split_back : forall show_num readable load f tables g asked d gen doc ks from_pandas,
    loads show_date show_num readable load -> reachable parses f -> string_params f -> no_empty_fk f -> Permutation (f_decl f) tables ->
    json_ready f = true -> good_flag (f_flag f) = true -> params_shape f -> (forall t ts, In (t, ts) (plain_schema f) -> frameable ts) ->
    (forall t ts r, In (t, ts) (plain_schema f) -> In r (d t) -> file_row_ok date_of float_of show_date show_num true g t ts r) ->
    (forall t ts, In (t, ts) (plain_schema f) -> tpk ts <> [] -> keys_full ts (d t) /\ no_equal_keys (map (key_of ts) (d t))) ->
    pan_create parses (schema_in_order f tables) = Some g ->
    pd_write date_of show_date g asked d gen = Ret doc ->
    fit readable g (text_field g) (fun t => dget String.eqb doc (out_name asked (map fst (f_decl g)) t)) ->
    from_pandas = true \/ columns_data ks = true /\ (exists t ts, In (t, ts) (plain_schema f) /\ columns_data (tfields ts) = false) ->
    exists e, json_read f tables (SFile (Some (split_doc ks load doc))) from_pandas = Ret e /\
      forall t ts, In (t, ts) (plain_schema f) -> Forall2 (Forall2 alike) (d t) (full_rows (e t)).
  Proof.
    intros show_num readable load f tables g asked d gen doc ks fp HL R Hs Hm Hp Hj Gf Ps Hfr Hr Hk Eg Ew Hfit Hfp.
    destruct (made_twin parses f tables R Hs Hm Hp) as (g' & Eg' & T). assert (g' = g) as -> by congruence. clear Eg'.
    assert (PanJson.all_plain g) as Ag by (apply ready_plain in Hj as [_ Hj]; intros t Ht; apply (tw_tables _ _ T) in Ht; now apply Hj in Ht).
    destruct (pd_trip date_of float_of settle show_date show_num str_of readable load HL false g asked d gen doc) as [(d' & Ed & Ad) _]; auto.
    - apply T.
    - now rewrite (tw_flag _ _ T).
    - eapply twin_params_shape; eauto.
    - intros t ts r Hin. apply Hr. now apply (twin_plain f g).
    - assert (via_pandas f tables (SFile (Some (split_doc ks load doc))) = json_read f tables (SFile (Some (split_doc ks load doc))) fp) as <-.
      { unfold JsonDoc.json_read. rewrite Hj. destruct fp; auto. destruct Hfp as [X | [X Y]]; [discriminate |].
        assert (create_jdict (SFile (Some (split_doc ks load doc))) = Ret (split_doc ks load doc)) as ->.
        { unfold create_jdict. cbn [loaded bindO]. replace (forallb _ (split_doc ks load doc)) with true; auto. symmetry. apply forallb_forall. intros x Hx. apply in_map_iff in Hx as (y & <- & _). reflexivity. }
        cbn [bindO]. now rewrite looks_split. }
      destruct (via_pandas_rows parses date_of float_of settle str_of records f g tables (SFile (Some (split_doc ks load doc))) (split_doc ks load doc) d' d T Eg eq_refl) as (e & Ee & X); auto.
      + rewrite pan_doc_split; auto. apply T.
      + intros t ts Hin. split; [apply (Ad t ts); now apply (twin_plain f g) |]. split; [| eauto]. intros r Hr'. now apply (Hr t ts r Hin) in Hr' as [L _].
      + exists e. split; auto. intros t ts Hin. destruct (X t ts Hin) as [_ ->]. apply (Ad t ts). now apply (twin_plain f g).
  Qed.

  (** ** Files *)
  Notation write_file := (json_write_file parses date_of settle show_date dumps).

  Lemma write_cases : forall f tables d path allow verbose to_pandas fs,
    let r := write_file f tables d path allow verbose to_pandas fs in
    (r = (fs, Raise)) \/
    (path = "" /\ exists doc, make_doc parses date_of settle show_date f tables d verbose to_pandas = Ret doc /\ dumps doc = true /\ r = (fs, Ret (Some doc))) \/
    (path <> "" /\ (dget String.eqb fs path = None \/ allow = true) /\ json_ready f = true /\ (to_pandas && verbose = false) /\
     exists doc, make_doc parses date_of settle show_date f tables d verbose to_pandas = Ret doc /\
       ((dumps doc = true /\ r = (dset String.eqb fs path (CDoc doc), Ret None)) \/
        (dumps doc = false /\ r = (dset String.eqb fs path CPart, Raise)))).
  Proof.
    intros f tables d path allow verbose tp fs r. subst r. unfold json_write_file. cbv zeta. destruct (json_ready f); [| now left]. cbn [negb orb].
    destruct (tp && verbose); [now left |]. cbn [orb]. destruct (String.eqb path "") eqn:Ep.
    - cbn [negb andb]. destruct (make_doc _ _ _ _ _ _ _ _ _) as [doc |]; [| now left]. destruct (dumps doc) eqn:Ed; [| now left].
      right. left. split; [now apply String.eqb_eq |]. exists doc. auto.
    - cbn [negb andb]. destruct (dget String.eqb fs path) as [c |] eqn:Eg; destruct allow; cbn [negb andb]; try (now left);
      (destruct (make_doc _ _ _ _ _ _ _ _ _) as [doc |] eqn:Em; [| now left]; right; right; split; [now apply String.eqb_neq |]; split; [auto |]; split; [auto |]; split; [auto |]; exists doc;
       destruct (dumps doc) eqn:Ed; auto).
  Qed.

  Theorem write_spares : forall f tables d path allow verbose to_pandas fs p c, dget String.eqb fs p = Some c ->
    p <> path \/ allow = false \/ path = "" ->
    dget String.eqb (fst (write_file f tables d path allow verbose to_pandas fs)) p = Some c.
  Proof.
    intros f tables d path allow verbose tp fs p c Hp H.
    destruct (write_cases f tables d path allow verbose tp fs) as [-> | [(_ & doc & _ & _ & ->) | (Hne & Ha & _ & _ & doc & _ & [[_ ->] | [_ ->]])]]; auto; cbn [fst];
    (assert (p <> path) as Hpp; [intros ->; destruct H as [H | [H | H]]; try contradiction; destruct Ha; congruence | etransitivity; [apply set_elsewhere; auto | exact Hp]]).
  Qed.

  (** ** Duplicates *)

  Lemma post_rect : forall g t fs l l', NoDup fs -> PanIOFacts.rect fs l ->
    post_table date_of float_of str_of true g t fs l = Ret l' -> PanIOFacts.rect fs l'.
  Proof.
    intros g t fs l l' N R H. unfold post_table in H. destruct (String.eqb t "parameters").
    - destruct (has_params g); [| now injection H as <-]. apply mapO_Forall2 in H. intros r Hr. destruct (Forall2_In_r _ _ _ _ H Hr) as (r0 & H0 & E).
      rewrite <- (R r0 H0). destruct r0 as [| k [| v [|]]]; try discriminate. injection E as <-. reflexivity.
    - cbv zeta in H. destruct (biases date_of g t fs) as [bs |]; [| discriminate]. injection H as <-. intros r Hr. apply in_map_iff in Hr as (r0 & <- & Hr). rewrite map_length, combine_length.
      assert (List.length r0 = List.length fs) as ->; [| apply Nat.min_id]. revert r0 Hr. destruct (f_flag g); auto. rewrite pan_read_num_eq by auto. now apply rect_mapf.
  Qed.

  Lemma clean_rect : forall g inputs d, decl_ok (f_decl g) = true -> clean date_of float_of settle str_of true g inputs = Ret d ->
    forall t ts, In (t, ts) (plain_schema g) -> PanIOFacts.rect (tfields ts) (d t).
  Proof.
    intros g inputs d Hd H t ts Hin. pose proof (plain_wf g Hd) as W. unfold clean in H. destruct (pan_dat settle (plain_schema g) (f_defaults g) inputs) as [dd |]; [| discriminate].
    apply bindO_ret in H as (L & EL & E). injection E as <-.
    pose proof (tables_ret (fun tts => post_table date_of float_of str_of true g (fst tts) (tfields (snd tts)) (pick (snd tts) (dd (fst tts)))) _ L t ts [] (proj1 W) EL Hin) as Et. cbn [fst snd] in Et.
    eapply post_rect; [apply (proj2 W _ _ Hin) | | exact Et]. intros r Hr. unfold pick in Hr. apply in_map_iff in Hr as (r0 & <- & _). now rewrite map_length.
  Qed.

  Lemma pan_doc_rect : forall g doc d, decl_ok (f_decl g) = true -> pan_doc g doc = Ret d ->
    forall t ts, In (t, ts) (plain_schema g) -> PanIOFacts.rect (tfields ts) (d t).
  Proof.
    intros g doc d Hd H. unfold JsonDoc.pan_doc in H. apply bindO_ret in H as (l & _ & H). destruct (forallb _ doc); [eapply clean_rect; eauto |].
    destruct (forallb _ doc); [| discriminate]. apply bindO_ret in H as (src & _ & H). unfold create_frames in H. destruct (supplied _ _ _ _) as [src' |]; [| discriminate]. eapply clean_rect; eauto.
  Qed.

  (** Reading through pandas, exactly. *)
  Lemma via_pandas_exact : forall f g tables s doc d, twin f g -> pan_create parses (schema_in_order f tables) = Some g ->
    loaded s = Ret doc -> pan_doc g doc = Ret d -> (forall t ts, In (t, ts) (plain_schema f) -> frameable ts) ->
    let bad := dup_mode f = "assert" /\ exists t ts, In (t, ts) (plain_schema f) /\ tpk ts <> [] /\ ~ no_equal_keys (map (key_of ts) (d t)) in
    (bad -> via_pandas f tables s = Raise) /\
    (~ bad -> exists e, via_pandas f tables s = Ret e /\ forall t ts, In (t, ts) (plain_schema f) -> e t = rows_table ts (d t)).
  Proof.
    intros f g tables s doc d T Eg El Ed Hf bad. unfold JsonDoc.via_pandas. rewrite Eg, El. cbn [bindO]. rewrite Ed. cbn [bindO].
    pose proof (plain_wf g (tw_decl _ _ T)) as W. pose proof (pan_doc_rect g doc d (tw_decl _ _ T) Ed) as R. set (sch := plain_schema g) in *.
    set (frs := fun t => match dget String.eqb sch t with Some ts => plain_frame ts (d t) | None => mkFr [] [] [] end).
    assert (forall t ts, In (t, ts) sch -> dget String.eqb sch t = Some ts) as G by (intros t ts Hin; apply dget_In_NoDup; auto; apply W).
    assert (forall t ts, In (t, ts) sch -> frs t = plain_frame ts (d t)) as Efr by (intros t ts Hin; unfold frs; now rewrite (G t ts Hin)).
    assert (pan_object sch [] (pan_attrs sch d) frs) as PO.
    { split; auto. split; [constructor |]. split; [intros t [] |]. split.
      - intros t Ht. rewrite app_nil_r in Ht. apply in_map_iff in Ht as ([t' ts] & E & Hin). cbn [fst] in E. subst t'. unfold pan_attrs. rewrite (G t ts Hin). now rewrite (Efr t ts Hin).
      - intros t ts Hin. rewrite (Efr t ts Hin). split; [apply plain_reads; [now apply W in Hin | now apply R] |]. intros x Hx. simpl. now apply in_map. }
    destruct (copies_exact sch [] (pan_attrs sch d) frs PO) with (mode := dup_mode g) as (rs & A & B & C).
    { intros t ts Hin. apply (twin_plain f g) in Hin; eauto. }
    assert (forall t ts, In (t, ts) sch -> rs t = d t) as Ers.
    { intros t ts Hin. pose proof (A t ts Hin) as A1. rewrite (Efr t ts Hin) in A1. destruct (plain_reads ts (d t)) as [P1 P2]; [now apply W in Hin | now apply R |].
      eapply reads_rows_unique; eauto. intros x Hx. simpl. now apply in_map. }
    assert (dup_mode g = dup_mode f) as Em by (unfold dup_mode; now rewrite (tw_dup _ _ T)).
    assert (bad <-> dup_mode g = "assert" /\ exists t ts, In (t, ts) sch /\ tpk ts <> [] /\ ~ no_equal_keys (map (key_of ts) (rs t))) as Hb.
    { unfold bad. rewrite Em. split; intros (X & t & ts & Hin & Hne & Y); (split; [exact X |]); exists t, ts.
      - split; [now apply (twin_plain f g) |]. split; auto. rewrite (Ers t ts); auto. now apply (twin_plain f g).
      - split; [now apply (twin_plain f g) |]. split; auto. now rewrite <- (Ers t ts). }
    split; intros Hx.
    - rewrite B; auto. now apply Hb.
    - destruct C as (e & gs & E1 & E2 & _); [intros X; apply Hx; now apply Hb |]. rewrite E1. exists e. split; auto. intros t ts Hin. rewrite (E2 t ts) by (now apply (twin_plain f g)).
      now rewrite (Ers t ts) by (now apply (twin_plain f g)).
  Qed.

  Lemma seq_keys : forall ts rows, PanIOFacts.rect (tfields ts) rows -> keys_of_rows ts (map RSeq rows) (map (key_of ts) rows).
  Proof.
    intros ts rows R. unfold keys_of_rows. induction rows as [| r rows IH]; cbn [map]; constructor; [| apply IH; intros x Hx; apply R; simpl; auto].
    exists (skipn (List.length (tpk ts)) r). exists r. split; [apply R; simpl; auto |]. split; auto. cbn [fst snd]. split; auto. unfold key_of, packed.
    now destruct (firstn (List.length (tpk ts)) r) as [| a [| b c]].
  Qed.

  Notation find_dups := (json_find_duplicates parses date_of float_of settle str_of records).

  Theorem duplicates_exact : forall f g tables s doc d, twin f g -> decl_ok (f_decl f) = true -> json_ready f = true -> pan_create parses (schema_in_order f tables) = Some g ->
    loaded s = Ret doc -> pan_doc g doc = Ret d ->
    exists rtn, find_dups f tables s true = Ret rtn /\
      (forall t, In t (map fst rtn) -> exists ts, In (t, ts) (plain_schema f) /\ tpk ts <> []) /\
      (forall t r, In (t, r) rtn -> exists k n, In (k, n) r) /\
      forall t ts, In (t, ts) (plain_schema f) -> tpk ts <> [] -> let ks := map (key_of ts) (d t) in
        (forall r k n, In (t, r) rtn -> In (k, n) r -> exists k0, In k0 ks /\ k = key_cells k0 /\ n = times k0 ks /\ 1 < n) /\
        (forall k, In k ks -> 1 < times k ks -> duplicate_reports rtn t k (times k ks)).
  Proof.
    intros f g tables s doc d T Hd Hj Eg El Ed. pose proof (plain_wf f Hd) as W. pose proof (plain_wf g (tw_decl _ _ T)) as Wg. pose proof (pan_doc_rect g doc d (tw_decl _ _ T) Ed) as R.
    assert (NoDup (map fst (pan_rows_doc g d))) as N by (unfold pan_rows_doc; rewrite map_map; cbn [fst]; apply Wg).
    assert (forall t ts, In (t, ts) (plain_schema f) -> doc_rows (pan_rows_doc g d) t = map RSeq (d t)) as Er.
    { intros t ts Hin. unfold doc_rows, dget_or. apply (twin_plain f g) in Hin; auto. rewrite (proj2 (dget_In_NoDup (pan_rows_doc g d) t (map RSeq (d t)) N)); auto.
      unfold pan_rows_doc. apply in_map_iff. exists (t, ts). auto. }
    destruct (json_duplicates_spec (plain_schema f) (pan_rows_doc g d) W N) as (rtn & E & R1 & R2 & R3).
    { intros t ts Hin Hne. rewrite (Er t ts Hin). split.
      - intros l Hl. apply in_map_iff in Hl as (x & X & _). discriminate.
      - exists (map (key_of ts) (d t)). apply seq_keys. apply R. now apply (twin_plain f g). }
    exists rtn. unfold json_find_duplicates, duplicates_via_pandas. rewrite Hj, Eg, El. cbn [bindO]. rewrite Ed. cbn [bindO]. split; auto. split; auto. split; auto.
    intros t ts Hin Hne. apply (R3 t ts); auto. rewrite (Er t ts Hin). apply seq_keys. apply R. now apply (twin_plain f g).
  Qed.

  Theorem duplicates_agree_pandas : forall f tables s doc, reachable parses f -> string_params f -> no_empty_fk f -> Permutation (f_decl f) tables ->
    json_ready f = true -> (forall t ts, In (t, ts) (plain_schema f) -> frameable ts) -> loaded s = Ret doc ->
    match find_dups f tables s true with
    | Raise => json_read f tables s true = Raise
    | Ret rtn =>
        (dup_mode f = "assert" -> (rtn = [] <-> exists e, json_read f tables s true = Ret e)) /\
        (dup_mode f <> "assert" -> exists e, json_read f tables s true = Ret e)
    end.
  Proof.
    intros f tables s doc R Hs Hm Hp Hj Hf El. destruct (made_twin parses f tables R Hs Hm Hp) as (g & Eg & T). pose proof (inv_decl _ _ (reachable_inv _ _ R)) as Hd.
    destruct (pan_doc g doc) as [d |] eqn:Ed.
    - destruct (duplicates_exact f g tables s doc d T Hd Hj Eg El Ed) as (rtn & -> & R1 & R2 & R3). destruct (via_pandas_exact f g tables s doc d T Eg El Ed Hf) as [B C].
      assert (json_read f tables s true = via_pandas f tables s) as -> by (unfold JsonDoc.json_read; now rewrite Hj).
      assert (rtn = [] <-> forall t ts, In (t, ts) (plain_schema f) -> tpk ts <> [] -> no_equal_keys (map (key_of ts) (d t))) as Hr.
      { split.
        - intros -> t ts Hin Hne. apply no_equal_times. intros k Hk. pose proof (times_pos k _ Hk) as P. destruct (Nat.eq_dec (times k (map (key_of ts) (d t))) 1) as [E | E]; auto. exfalso.
          destruct (R3 t ts Hin Hne) as [_ X]. destruct (X k Hk) as (r & k' & [] & _). lia.
        - intros X. destruct rtn as [| [t r] rtn]; auto. exfalso. destruct (R1 t) as (ts & Hin & Hne); [simpl; auto |]. destruct (R2 t r) as (k & n & Hkn); [simpl; auto |].
          destruct (R3 t ts Hin Hne) as [Y _]. destruct (Y r k n) as (k0 & Hk0 & _ & -> & L); simpl; auto. rewrite (proj1 (no_equal_times _) (X t ts Hin Hne) k0 Hk0) in L. lia. }
      split; intros Hmode.
      + rewrite Hr. split.
        * intros X. destruct C as (e & Ee & _); eauto. intros (_ & t & ts & Hin & Hne & Y). apply Y. eauto.
        * intros (e & Ee) t ts Hin Hne. destruct (no_equal_dec (map (key_of ts) (d t))) as [Y | Y]; auto. rewrite B in Ee; [discriminate |]. split; auto. exists t, ts. auto.
      + destruct C as (e & Ee & _); eauto. intros (X & _). contradiction.
    - unfold json_find_duplicates, duplicates_via_pandas, JsonDoc.json_read, JsonDoc.via_pandas. rewrite Hj, Eg, El. cbn [bindO]. rewrite Ed. reflexivity.
  Qed.
End More.
