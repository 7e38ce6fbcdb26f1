(** * Database files: infinities in Access, tables that exist already. *)
From Coq Require Import ZArith Bool List String Ascii Arith Lia Permutation.
From Verif Require Import PyVal PyValFacts PyDict PyDictFacts PyStr ListFacts TypeDict Data FindTypes FindTypesFacts FK Graph GraphFacts
  Obj ObjFacts ObjMore Factory FactoryFacts InfIO InfIOFacts Params Names NamesFacts Utils UtilsMore Ampl Json ObjRows JsonFacts JsonDups TripFacts Sql SqlFacts
  Csv CsvMore Pg PgFacts PgWrite PgTrip PgRead FileDb FileDbFacts FileDbTrip FileDbDups FileDbWrite FileDbAccess.
Import ListNotations.
Local Open Scope string_scope.
Local Open Scope list_scope.

(** ** Infinities *)

(** With a key and the flag None, every value is handed over as it is. *)
Lemma mdb_cell_raw : forall date_of f t ts x v, f_flag f = VNone -> tpk ts <> [] -> is_table f t = true ->
  (has_params f = true -> t <> "parameters") -> field_type f t ("[" ++ x ++ "]")%string = None ->
  mdb_cell date_of f t ts x v = Ret v.
Proof.
  intros date_of f t ts x v Hf Hk Ht Hp Hx. unfold mdb_cell, write_cell, mdb_field. cbn [io_fac io_cache].
  assert (String.eqb t "parameters" && has_params f = false) as ->.
  { destruct (String.eqb_spec t "parameters"); auto. destruct (has_params f); auto. exfalso. now apply Hp. }
  rewrite Hf. unfold bias. cbn [io_fac io_cache]. rewrite Hf, Ht. cbn [dget]. destruct (tpk ts) as [| p pk]; [contradiction |].
  unfold bias_now. rewrite Hx. reflexivity.
Qed.

(** Otherwise it is what the flag asks for. *)
Lemma mdb_cell_same : forall date_of f t ts x v,
  f_flag f <> VNone \/ tpk ts = [] \/ (t = "parameters" /\ has_params f = true) ->
  mdb_cell date_of f t ts x v = fst (write_cell date_of (mkIO f []) t x v).
Proof.
  intros date_of f t ts x v H. unfold mdb_cell, write_cell, mdb_field. cbn [io_fac io_cache].
  destruct H as [H | [-> | [-> ->]]]; auto.
  destruct (String.eqb t "parameters" && has_params f); auto. destruct (f_flag f); auto. contradiction.
Qed.

Lemma mdb_cell_finite : forall date_of f t ts x v w, v <> VNum PInf -> v <> VNum NInf ->
  f_flag f = VNone -> tpk ts <> [] -> (has_params f = true -> t <> "parameters") -> is_table f t = true -> field_type f t ("[" ++ x ++ "]")%string = None ->
  fst (write_cell date_of (mkIO f []) t x v) = Ret w -> mdb_cell date_of f t ts x v = Ret w.
Proof.
  intros date_of f t ts x v w N1 N2 Hf Hk Hp Ht Hx H. rewrite mdb_cell_raw by auto. unfold write_cell in H. cbn [io_fac io_cache] in H.
  assert (String.eqb t "parameters" && has_params f = false) as E.
  { destruct (String.eqb_spec t "parameters"); auto. destruct (has_params f); auto. exfalso. now apply Hp. }
  rewrite E, Hf in H. destruct (bias date_of (mkIO f []) t x) as [[[b |] |] c]; cbn [fst] in H; try discriminate; auto.
  destruct (value_eqb (inf_of b) v) eqn:Q; auto. apply value_eqb_true in Q. exfalso. destruct b; [apply N1 | apply N2]; symmetry; exact Q.
Qed.

(** A file whose columns have no infinity: no such object can be written. *)
Theorem mdb_never : forall store key_free date_of bare can_create f allow order d db p t ts r x v,
  decl_ok (f_decl f) = true -> obj_ok (plain_schema f) d -> Permutation order (map fst (plain_schema f)) -> file_wf db ->
  f_flag f = VNone -> In (t, ts) (plain_schema f) -> tpk ts <> [] -> (has_params f = true -> t <> "parameters") ->
  field_type f t ("[" ++ x ++ "]")%string = None ->
  In r (full_rows (d t)) -> In (x, v) (combine (tfields ts) r) -> (forall ty, store ty v = None) ->
  mdb_write_file store key_free date_of bare can_create f allow order d (Some db) <> (true, p).
Proof.
  intros store key_free date_of bare can_create f allow order d db p t ts r x v Hd Hok P Hwf Hf Hin Hk Hp Hx Hr Hxv Hst H.
  apply mdb_written in H as (db' & -> & Hfound & [Hh _] & _); auto.
  destruct (Hh _ _ Hin) as (dt & rows & F & _ & G). destruct (Forall2_In_l _ _ _ _ G Hr) as (s & _ & Hs).
  destruct (Hfound _ _ Hin) as (_ & dt' & F' & C). rewrite F in F'. injection F' as <-.
  destruct (row_as_cell store (mdb_cell date_of f t ts) ts dt r s x v) as (c & w & _ & _ & A & B); auto.
  - eapply Hwf; eauto.
  - eapply plain_fields; eauto.
  - apply C. eapply in_combine_l; eauto.
  - rewrite mdb_cell_raw in A; auto; [injection A as <-; now rewrite Hst in B | eapply plain_is_table; eauto].
Qed.

(** ** Tables that exist already *)

Lemma create_stops : forall l db ok db', create_tables l db = (ok, db') ->
  exists made rest, l = made ++ rest /\ db' = db ++ made /\
    (forall t dt, In (t, dt) made -> find_table db t = None) /\
    (ok = true -> rest = []) /\
    (ok = false -> exists t dt rest', rest = (t, dt) :: rest' /\
       ((exists dt', find_table (db ++ made) t = Some dt') \/ ~ NoDup (map (fun c => lower (dc_name c)) (dt_cols dt)))).
Proof.
  induction l as [| [t dt] l IH]; intros db ok db' H; cbn [create_tables] in H.
  - injection H as <- <-. exists [], []. rewrite !app_nil_r. split; auto. split; auto. split; [intros ? ? [] |]. split; auto. discriminate.
  - cbn [fst snd] in H. destruct (find_table db t) as [dt' |] eqn:F.
    + injection H as <- <-. exists [], ((t, dt) :: l). rewrite !app_nil_r. split; auto. split; auto. split; [intros ? ? [] |]. split; [discriminate |]. intros _. exists t, dt, l. split; auto. left. eauto.
    + destruct (distinct_b _) eqn:D.
      * apply IH in H as (made & rest & -> & -> & Q & A & B). exists ((t, dt) :: made), rest. rewrite <- app_assoc. cbn [app] in *. split; auto. split; auto. split; [| split; auto].
        { intros t0 dt0 [E | Hin]; [injection E as <- <-; auto |]. apply Q in Hin. unfold find_table in *. rewrite dget_None in *. intros k v Hk. apply (Hin k v). apply in_or_app. auto. }
        intros E. destruct (B E) as (t1 & dt1 & rest' & -> & C). exists t1, dt1, rest'. split; auto. rewrite <- app_assoc in C. exact C.
      * injection H as <- <-. exists [], ((t, dt) :: l). rewrite !app_nil_r. split; auto. split; auto. split; [intros ? ? [] |]. split; [discriminate |]. intros _. exists t, dt, l. split; auto. right.
        intros N. apply distinct_b_iff in N. congruence.
Qed.

Lemma find_app : forall (a b : filedb) n, find_table (a ++ b) n = match find_table a n with Some dt => Some dt | None => find_table b n end.
Proof. intros a b n. unfold find_table. induction a as [| [k v] a IH]; simpl; auto. destruct (same_name k n); auto. Qed.

(** [write_schema] into a file: the tables are made in the order of the set until one exists; nothing that was there changes. *)
Theorem mdb_schema_file : forall can_create f types order db ok p, decl_ok (f_decl f) = true -> Permutation order (map fst (plain_schema f)) ->
  mdb_write_schema can_create f types order (Some db) = (ok, p) ->
  exists db', p = Some db' /\
    (forall n dt, find_table db n = Some dt -> find_table db' n = Some dt) /\
    (no_generics f = true -> mdb_types_ok f types = true ->
     exists made rest, order = made ++ rest /\
       (forall t ts, In t made -> In (t, ts) (plain_schema f) -> find_table db t = None /\ find_table db' t = Some (mdb_table f types t ts)) /\
       (forall n, (forall t, In t made -> lower t <> lower n) -> find_table db' n = find_table db n) /\
       (ok = true -> rest = []) /\
       (ok = false -> exists t rest' dt, rest = t :: rest' /\ find_table db t = Some dt)).
Proof.
  intros can_create f types order db ok p Hd P H. unfold mdb_write_schema in H.
  destruct (no_generics f && mdb_types_ok f types) eqn:G.
  2: { injection H as <- <-. exists db. split; auto. split; auto. intros A B. rewrite A, B in G. discriminate. }
  assert (exists db', create_tables (map (fun t => (t, mdb_table f types t (ts_of (plain_schema f) t))) order) db = (ok, db') /\ p = Some db') as (db' & Hc & ->).
  { destruct (create_tables _ db) as [o db'] eqn:E in H. exists db'. destruct can_create; injection H as <- <-; auto. }
  clear H. apply create_stops in Hc as (made & rest & E & -> & Q & A & B). exists (db ++ made). split; auto. split.
  { intros n dt F. rewrite find_app, F. reflexivity. }
  intros _ _. apply map_eq_app in E as (m & r & -> & Em & Er). exists m, r. split; auto.
  pose proof (proj1 (plain_legal f Hd)) as Hl.
  assert (NoDup (map lower (m ++ r))) as Hn. { eapply Permutation_NoDup; [| exact Hl]. apply Permutation_map. now symmetry. }
  assert (forall t, In t (m ++ r) -> exists ts, In (t, ts) (plain_schema f)) as Hsch.
  { intros t Ht. eapply Permutation_in in Ht; [| exact P]. apply in_map_iff in Ht as ([t' ts] & <- & Ht). eauto. }
  assert (forall n, (forall t, In t m -> lower t <> lower n) -> find_table made n = None) as Hnone.
  { intros n Hm. apply dget_None. intros k v Hk. rewrite <- Em in Hk. apply in_map_iff in Hk as (t & E & Hk). injection E as <- _. apply same_neq. auto. }
  split; [| split; [| split]].
  - intros t ts Ht Hts.
    assert (find_table made t = Some (mdb_table f types t ts)) as F.
    { rewrite <- Em. clear - Ht Hts Hn Hd. rewrite <- (ts_of_In _ _ _ (plain_wf f Hd) Hts). rewrite map_app in Hn. apply NoDup_app_l in Hn. unfold find_table.
      induction m as [| u m IH]; [contradiction |]. cbn [map dget] in *. apply NoDup_cons_iff in Hn as [N1 N2]. destruct Ht as [-> | Ht].
      - now rewrite same_refl.
      - assert (same_name u t = false) as ->; [| now apply IH]. apply same_neq. intros E. apply N1. rewrite E. now apply in_map. }
    assert (find_table db t = None) as Fd. { rewrite <- Em in Q. eapply Q. apply in_map_iff. exists t. split; auto. }
    rewrite find_app, Fd. auto.
  - intros n Hm. rewrite find_app, Hnone by auto. now destruct (find_table db n).
  - intros E. specialize (A E). subst rest. now apply map_eq_nil in A.
  - intros E. destruct (B E) as (t & dt & rest' & Er' & C). rewrite Er' in Er. destruct r as [| u r]; [discriminate |]. cbn [map] in Er. injection Er as Eu Edt _. subst u.
    destruct (Hsch t) as (ts & Hts). { apply in_or_app. simpl. auto. }
    rewrite (ts_of_In _ _ _ (plain_wf f Hd) Hts) in Edt. destruct C as [(dt' & C) | C].
    + rewrite find_app, Hnone in C.
      * exists t, r. destruct (find_table db t) as [dt1 |]; [eauto | discriminate].
      * intros t0 Ht0 E0. rewrite map_app in Hn. eapply (NoDup_app_disj _ _ (lower t) Hn); [rewrite <- E0; now apply in_map | simpl; auto].
    + exfalso. apply C. subst dt. pose proof (mdb_cols f types t ts) as Qc. rewrite <- (map_map dc_name lower), Qc. eapply plain_fields; eauto.
Qed.
