(** * The text of an SQLite schema: all tables, and whole files. *)
From Coq Require Import ZArith Bool List String Ascii Arith Lia Permutation.
From Verif Require Import PyVal PyValFacts PyDict PyDictFacts PyStr ListFacts TypeDict Data FindTypes FindTypesFacts FK FKFacts Graph GraphFacts
  Obj ObjFacts ObjMore Factory FactoryFacts InfIO InfIOFacts Params Names NamesFacts Utils Ampl Obfus Json ObjRows JsonFacts TripFacts
  Sql SqlText SqlFacts SqlMore Pg PgFacts FileDb FileDbFacts SqlSchema SqlRead SqlSchemaFacts.
Import ListNotations.
Local Open Scope string_scope.
Local Open Scope list_scope.

Lemma whole_iff : forall n, whole n = true <-> exists k, n = of_int k.
Proof.
  intros n. pose proof one_units_pos as Hp. assert (2 ^ 1074 = one_units)%Z as Hu by (vm_compute; reflexivity). unfold whole, of_int. rewrite Hu. clear Hu. split.
  - destruct n as [| z |]; try discriminate. intros H. apply Z.eqb_eq in H. exists (z / one_units)%Z. f_equal.
    pose proof (Z.div_mod z one_units ltac:(lia)) as D. rewrite H in D. lia.
  - intros (k & ->). apply Z.eqb_eq. apply Z.mod_mul. lia.
Qed.

(** The declared type of a data column. *)
Inductive declared_type (f : factory) (t x : string) : string -> Prop :=
| dy_param : t = "parameters" -> has_params f = true -> declared_type f t x ""
| dy_int : forall k, t <> "parameters" \/ has_params f = false -> cell_default (f_defaults f) t x = VNum (of_int k) -> declared_type f t x "INT"
| dy_num : forall n, t <> "parameters" \/ has_params f = false -> cell_default (f_defaults f) t x = VNum n -> (forall k, n <> of_int k) -> declared_type f t x "FLOAT"
| dy_nan : t <> "parameters" \/ has_params f = false -> cell_default (f_defaults f) t x = VNaN -> declared_type f t x "FLOAT"
| dy_other : (forall n, cell_default (f_defaults f) t x <> VNum n) -> cell_default (f_defaults f) t x <> VNaN -> declared_type f t x "".

Lemma sql_type_declared : forall f t x, declared_type f t x (sql_type f t x).
Proof.
  intros f t x. unfold sql_type. destruct (String.eqb t "parameters" && has_params f) eqn:E.
  - apply andb_true_iff in E as [E1 E2]. apply String.eqb_eq in E1. now apply dy_param.
  - assert (t <> "parameters" \/ has_params f = false) as Hp.
    { apply andb_false_iff in E as [E | E]; auto. apply String.eqb_neq in E. auto. }
    destruct (cell_default (f_defaults f) t x) as [| | b | n | s | d] eqn:D.
    + apply dy_other; [intros n H | intros H]; rewrite H in D; discriminate.
    + now apply dy_nan.
    + apply dy_other; [intros n H | intros H]; rewrite H in D; discriminate.
    + destruct (whole n) eqn:W.
      * apply whole_iff in W as (k & ->). eapply dy_int; eauto.
      * eapply dy_num; eauto. intros k ->. rewrite (proj2 (whole_iff (of_int k))) in W; eauto. discriminate.
    + apply dy_other; [intros n H | intros H]; rewrite H in D; discriminate.
    + apply dy_other; [intros n H | intros H]; rewrite H in D; discriminate.
Qed.

Section All.
  Variable show : value -> text.
  Variable order : list fk -> list fk.
  Hypothesis order_perm : forall l, Permutation (order l) l.

  (** What a CREATE TABLE statement for table [t] has to say. *)
  Definition says (f : factory) (t : string) (ts : tschema) (rt : rtable) : Prop :=
    rt_name rt = txt t /\ map rc_name (rt_cols rt) = map txt (tfields ts) /\ rt_key rt = map txt (tpk ts) /\
    (forall g, In g (rt_fks rt) <-> exists k, In k (f_fks f) /\ fk_native k = t /\ rf_table g = txt (fk_foreign k) /\
       rf_native g = map txt (map fst (fk_map k)) /\ rf_foreign g = map txt (map snd (fk_map k))) /\
    List.length (rt_fks rt) = List.length (filter (fun k => String.eqb (fk_native k) t) (f_fks f)) /\
    (forall x, In x (tpk ts) -> In (mkRC (txt x) [] None) (rt_cols rt)) /\
    (forall x, In x (tdf ts) -> exists ty, declared_type f t x ty /\ In (mkRC (txt x) (txt ty) (Some (show (cell_default (f_defaults f) t x)))) (rt_cols rt)).

  (** Texts without the bracket that ends a name. *)
  Definition closed_names (f : factory) : Prop :=
    forall t ts, In (t, ts) (plain_schema f) -> no_close (txt t) /\ (forall x, In x (tfields ts) -> no_close (txt x)) /\
      forall x, In x (tdf ts) -> no_close (show (cell_default (f_defaults f) t x)).

  Definition one_to_one_fks (f : factory) : Prop := forall k, In k (f_fks f) ->
    wf_fk (plain_schema f) k /\ NoDup (map snd (fk_map k)).

  Lemma rfk_spec : forall k g, g = rfk_of k <->
    rf_table g = txt (fk_foreign k) /\ rf_native g = map txt (map fst (fk_map k)) /\ rf_foreign g = map txt (map snd (fk_map k)).
  Proof. intros k [a b c]. unfold rfk_of. cbn [rf_table rf_native rf_foreign]. split; [intros E; injection E as -> -> ->; auto | intros (-> & -> & ->); reflexivity]. Qed.

  Theorem table_says : forall f t ts, decl_ok (f_decl f) = true -> closed_names f -> one_to_one_fks f -> In (t, ts) (plain_schema f) -> tfields ts <> [] ->
    exists rt, read_create (table_sql show order f t ts) = Some rt /\ says f t ts rt.
  Proof.
    intros f t ts Hd Hc Ho Hin Hne. destruct (Hc _ _ Hin) as (C1 & C2 & C3). eexists. split.
    { apply table_read; auto. intros k Hk E. destruct (Ho k Hk) as [(nts & fts & N1 & N2 & N3 & N4 & N5) N6].
      split; auto. split; auto. split; auto. destruct (Hc _ _ N1) as (_ & A & _). destruct (Hc _ _ N2) as (B1 & B2 & _). split; auto.
      intros n x Hnx. destruct (N4 _ _ Hnx). split; [apply A | apply B2]; unfold tfields; auto. }
    unfold says. cbn [rt_name rt_cols rt_key rt_fks]. split; auto. split.
    { rewrite map_app, !map_map. unfold tfields. now rewrite map_app. }
    split; auto. split; [| split; [| split]].
    - intros g. rewrite in_map_iff. split.
      + intros (k & <- & Hk). apply (Permutation_in _ (order_perm _)) in Hk. apply filter_In in Hk as [Hk E]. apply String.eqb_eq in E.
        exists k. repeat split; auto.
      + intros (k & Hk & E & H). apply rfk_spec in H. exists k. split; auto. apply (Permutation_in _ (Permutation_sym (order_perm _))).
        apply filter_In. split; auto. now apply String.eqb_eq.
    - rewrite map_length. apply Permutation_length, order_perm.
    - intros x Hx. apply in_or_app. left. apply in_map_iff. exists x. auto.
    - intros x Hx. exists (sql_type f t x). split; [apply sql_type_declared |]. apply in_or_app. right. apply in_map_iff. exists x. auto.
  Qed.

  Theorem schema_says : forall f, decl_ok (f_decl f) = true -> acyclic (f_fks f) -> fks_within (f_fks f) (map fst (plain_schema f)) ->
    (forall t ts, In (t, ts) (plain_schema f) -> tfields ts <> []) -> closed_names f -> one_to_one_fks f ->
    exists l stmts, schema_sql show order f (map fst (plain_schema f)) = Ret stmts /\ Permutation l (map fst (plain_schema f)) /\
      (forall t u, In t l -> edge (f_fks f) t u -> before l u t) /\
      Forall2 (fun t s => exists ts rt, In (t, ts) (plain_schema f) /\ read_create s = Some rt /\ says f t ts rt) l stmts.
  Proof.
    intros f Hd Ha Hw Hne Hc Ho.
    destruct (sq_order_acyclic (f_fks f) (map fst (plain_schema f)) (S (List.length (f_decl f)))) as (l & E & P & B); auto.
    { apply (plain_wf f Hd). }
    { rewrite map_length. apply -> Nat.lt_succ_r. unfold plain_schema. clear. induction (f_decl f) as [| [t [| ts]] l IH]; simpl in *; lia. }
    assert (filter (fun t => mem_str t (map fst (plain_schema f))) l = l) as Hfl.
    { assert (forall t, In t l -> mem_str t (map fst (plain_schema f)) = true) as H.
      { intros t Ht. apply mem_str_iff. now apply (Permutation_in _ P). }
      clear - H. induction l as [| t l IH]; [reflexivity |]. cbn [filter]. rewrite H by (now left). f_equal. apply IH. intros u Hu. apply H. now right. }
    exists l. eexists. unfold schema_sql. rewrite E, Hfl. split; [reflexivity |]. split; auto. split.
    { intros t u Ht. apply B. now apply (Permutation_in _ P). }
    assert (forall t, In t l -> exists ts, In (t, ts) (plain_schema f)) as Hl.
    { intros t Ht. apply (Permutation_in _ P) in Ht. apply in_map_iff in Ht as ([t' ts] & <- & Ht). eauto. }
    clear - Hl Hd Hc Ho Hne order_perm. induction l as [| t l IH]; [constructor |]. cbn [map]. constructor; [| apply IH; intros u Hu; apply Hl; now right].
    destruct (Hl t (or_introl eq_refl)) as (ts & Hin). exists ts.
    rewrite (ts_of_In _ t ts (plain_wf f Hd) Hin). destruct (table_says f t ts Hd Hc Ho Hin (Hne _ _ Hin)) as (rt & R1 & R2). exists rt. auto.
  Qed.

  (** ** Files *)

  Definition table_body (f : factory) (t : string) (ts : tschema) : text :=
    txt "Create TABLE " ++ bracket t ++ txt " (" ++ [newline] ++ comma_lines (clauses show order f t ts) ++ [newline] ++ txt ")".

  Lemma table_body_sql : forall f t ts, table_sql show order f t ts = table_body f t ts ++ [semi].
  Proof. intros f t ts. unfold table_sql, table_body. rewrite <- !app_assoc. reflexivity. Qed.

  Ltac nosemi :=
    match goal with
    | H : In semi (txt (String _ _)) |- _ => cbn in H
    | H : In semi (txt EmptyString) |- _ => cbn in H
    | H : In semi [newline] |- _ => cbn in H
    end;
    repeat match goal with H : _ \/ _ |- _ => destruct H as [H | H]; [discriminate H |] end; contradiction.

  Lemma lit_lines : forall l, In semi (comma_lines l) -> exists c, In c l /\ In semi c.
  Proof.
    induction l as [| c l IH]; intros H; [contradiction |]. destruct l as [| c2 l].
    - exists c. split; [now left | exact H].
    - change (comma_lines (c :: c2 :: l)) with (c ++ txt "," ++ [newline] ++ comma_lines (c2 :: l)) in H.
      rewrite !in_app_iff in H. destruct H as [H | [H | [H | H]]].
      + exists c. split; [now left | exact H].
      + nosemi.
      + nosemi.
      + destruct (IH H) as (c' & A & B). exists c'. split; [now right | auto].
  Qed.

  Lemma lit_commas : forall l, In semi (commas l) -> exists c, In c l /\ In semi c.
  Proof.
    induction l as [| c l IH]; intros H; [contradiction |]. destruct l as [| c2 l].
    - exists c. split; [now left | exact H].
    - change (commas (c :: c2 :: l)) with (c ++ txt "," ++ commas (c2 :: l)) in H.
      rewrite !in_app_iff in H. destruct H as [H | [H | H]].
      + exists c. split; [now left | exact H].
      + nosemi.
      + destruct (IH H) as (c' & A & B). exists c'. split; [now right | auto].
  Qed.

  Lemma lit_bracket : forall x, In semi (bracket x) -> In semi (txt x).
  Proof.
    intros x H. unfold bracket in H. rewrite !in_app_iff in H. destruct H as [H | [H | H]]; auto; nosemi.
  Qed.

  Lemma lit_commas_brackets : forall {A} (g : A -> string) l, In semi (commas (map (fun a => bracket (g a)) l)) -> exists a, In a l /\ In semi (txt (g a)).
  Proof.
    intros A g l H. apply lit_commas in H as (c & Hc & Hs). apply in_map_iff in Hc as (a & <- & Ha). exists a. split; auto. now apply lit_bracket.
  Qed.

  (** Texts without a semicolon. *)
  Definition semi_free_names (f : factory) : Prop :=
    forall t ts, In (t, ts) (plain_schema f) -> ~ In semi (txt t) /\ (forall x, In x (tfields ts) -> ~ In semi (txt x)) /\
      forall x, In x (tdf ts) -> ~ In semi (show (cell_default (f_defaults f) t x)).

  Lemma dict_str_In : forall l n (x : string), In (n, x) (dict_of String.eqb l) -> In (n, x) l.
  Proof.
    intros l n x. unfold dict_of, dupdate.
    assert (forall l d, In (n, x) (fold_left (fun d kv => dset String.eqb d (fst kv) (snd kv)) l d) -> In (n, x) d \/ In (n, x) l) as H.
    { clear l. induction l as [| [k v] l IH]; intros d H; [now left |]. cbn [fold_left fst snd] in H. apply IH in H as [H | H]; [| right; now right].
      assert (In (n, x) d \/ (n, x) = (k, v)) as [E | ->]; [| now left | right; now left].
      clear - H. induction d as [| [k' v'] d IH]; cbn [dset] in H.
      - destruct H as [<- | []]. now right.
      - destruct (String.eqb k' k) eqn:E.
        + apply String.eqb_eq in E as ->. destruct H as [<- | H]; [now right | left; now right].
        + destruct H as [<- | H]; [left; now left |]. destruct (IH H); auto. left. now right. }
    intros H'. apply H in H' as [[] | H']. exact H'.
  Qed.

  Lemma n2f_in : forall m n x, In (n, x) (native_to_foreign m) -> In (n, x) m.
  Proof.
    intros m n x H. unfold native_to_foreign in H. apply dict_str_In in H. apply in_map_iff in H as ([a b] & E & H). injection E as <- <-.
    unfold foreign_to_native in H. apply dict_str_In in H. apply in_map_iff in H as ([a' b'] & E & H). injection E as <- <-. exact H.
  Qed.

  Lemma body_semi_free : forall f t ts, semi_free_names f -> (forall k, In k (f_fks f) -> wf_fk (plain_schema f) k) ->
    In (t, ts) (plain_schema f) -> ~ In semi (table_body f t ts).
  Proof.
    intros f t ts Hs Hw Hin H. destruct (Hs _ _ Hin) as (S1 & S2 & S3). unfold table_body in H. rewrite !in_app_iff in H.
    destruct H as [H | [H | [H | [H | [H | [H | H]]]]]]; try nosemi.
    - now apply lit_bracket in H.
    - apply lit_lines in H as (c & Hc & H). unfold clauses in Hc. rewrite !in_app_iff in Hc. destruct Hc as [Hc | [Hc | [Hc | Hc]]].
      + apply in_map_iff in Hc as (x & <- & Hx). apply lit_bracket in H. apply (S2 x); auto. unfold tfields. apply in_or_app. auto.
      + apply in_map_iff in Hc as (x & <- & Hx). unfold column_clause in H. rewrite !in_app_iff in H.
        destruct H as [H | [H | [H | [H | [H | H]]]]]; try nosemi.
        * apply lit_bracket in H. apply (S2 x); auto. unfold tfields. apply in_or_app. auto.
        * destruct (sql_type_cases f t x) as [E | [E | E]]; rewrite E in H; nosemi.
        * now apply (S3 x).
      + apply in_map_iff in Hc as (k & <- & Hk). apply (Permutation_in _ (order_perm _)) in Hk. apply filter_In in Hk as [Hk _].
        destruct (Hw k Hk) as (nts & fts & N1 & N2 & _ & N4 & _). destruct (Hs _ _ N1) as (_ & A & _). destruct (Hs _ _ N2) as (B1 & B2 & _).
        unfold fk_clause in H. rewrite !in_app_iff in H.
        destruct H as [H | [H | [H | [H | [H | [H | H]]]]]]; try nosemi.
        * apply lit_commas_brackets in H as ([n x] & Hm & H). apply n2f_in in Hm. destruct (N4 _ _ Hm). apply (A n); auto.
        * now apply lit_bracket in H.
        * apply lit_commas_brackets in H as ([n x] & Hm & H). apply n2f_in in Hm. destruct (N4 _ _ Hm). apply (B2 x); auto.
      + unfold key_clause in Hc. destruct (tpk ts) as [| p pk] eqn:Ep; [contradiction |]. destruct Hc as [<- | []]. rewrite !in_app_iff in H.
        destruct H as [H | [H | H]]; try nosemi.
        apply (lit_commas_brackets (fun x => x)) in H as (x & Hx & H). apply (S2 x); auto. unfold tfields. rewrite Ep. apply in_or_app. auto.
  Qed.

  Variable date_of : value -> option Z.
  Variable show_num show_date : Z -> text.

  (** The statements of the schema, without their semicolons. *)
  Lemma schema_bodies : forall f tables stmts, schema_sql show order f tables = Ret stmts ->
    exists l, stmts = map (fun b => b ++ [semi]) (map (fun t => table_body f t (ts_of (plain_schema f) t)) l) /\
      forall t, In t l -> In t tables.
  Proof.
    intros f tables stmts H. unfold schema_sql in H. destruct (sq_order _ _ _) as [l |]; [| discriminate]. injection H as <-.
    exists (filter (fun t => mem_str t tables) l). split.
    - rewrite map_map. apply map_ext. intros t. apply table_body_sql.
    - intros t Ht. apply filter_In in Ht as [_ Ht]. now apply mem_str_iff.
  Qed.

  (** The pieces a reader makes of the file are the statements written, exactly
      when no statement has a semicolon inside. *)
  Theorem sql_text_read : forall f inc d x, obj_ok (plain_schema f) d ->
    (forall t ts, In (t, ts) (plain_schema f) -> no_percent (txt t) /\ forall y, In y (tfields ts) -> no_percent (txt y)) ->
    sql_text show order date_of show_num show_date f inc d = Ret x ->
    exists schema data, schema_sql show order f (if inc then map fst (plain_schema f) else []) = Ret (map (fun b => b ++ [semi]) schema) /\
      data_sql date_of show_num show_date f d = Ret (map (fun b => b ++ [semi]) data) /\
      (split_semi x = as_read (schema ++ data) <-> forall b, In b (schema ++ data) -> ~ In semi b).
  Proof.
    intros f inc d x Hok Hn H. unfold sql_text in H. apply bindO_ret in H as (s & Hs & H). apply bindO_ret in H as (l & Hl & E). injection E as <-.
    destruct (schema_bodies _ _ _ Hs) as (ts & -> & _). destruct (file_read _ _ _ _ _ _ Hok Hn Hl) as (data & -> & _ & _).
    eexists. exists data. split; [exact Hs |]. split; [exact Hl |]. rewrite <- map_app. apply split_iff.
  Qed.

  Theorem sql_text_whole : forall f inc d x, decl_ok (f_decl f) = true -> obj_ok (plain_schema f) d ->
    (forall z, ~ In semi (show_num z)) -> (forall z, ~ In semi (show_date z)) ->
    (forall k, In k (f_fks f) -> wf_fk (plain_schema f) k) ->
    (forall t ts, In (t, ts) (plain_schema f) -> no_percent (txt t) /\ forall y, In y (tfields ts) -> no_percent (txt y)) ->
    semi_free_names f ->
    (forall t ts rows r s, In (t, ts) (plain_schema f) -> out_rows date_of f t ts (d t) = Ret rows -> In r rows -> In (VStr s) r ->
       ~ In semi (txt s)) ->
    sql_text show order date_of show_num show_date f inc d = Ret x ->
    exists schema data, schema_sql show order f (if inc then map fst (plain_schema f) else []) = Ret (map (fun b => b ++ [semi]) schema) /\
      data_sql date_of show_num show_date f d = Ret (map (fun b => b ++ [semi]) data) /\ split_semi x = as_read (schema ++ data).
  Proof.
    intros f inc d x Hd Hok Hsn Hsd Hw Hn Hs Hc H. unfold sql_text in H.
    apply bindO_ret in H as (s & Es & H). apply bindO_ret in H as (l & El & E). injection E as <-.
    destruct (schema_bodies _ _ _ Es) as (tl & -> & Htl).
    destruct (file_without_semicolons date_of show_num show_date f d l) as (data & -> & D); auto.
    { intros t ts y Hin Hy. destruct (Hn _ _ Hin) as [N1 N2]. destruct (Hs _ _ Hin) as (S1 & S2 & _).
      destruct Hy as [-> | Hy]; auto. }
    pose proof (proj1 (split_iff data) D) as D'.
    eexists. exists data. split; [exact Es |]. split; [exact El |]. rewrite <- map_app. apply split_iff.
    intros b Hb. apply in_app_iff in Hb as [Hb | Hb]; auto. apply in_map_iff in Hb as (t & <- & Ht). apply Htl in Ht.
    assert (exists ts, In (t, ts) (plain_schema f)) as (ts & Hin).
    { destruct inc; [| contradiction]. apply in_map_iff in Ht as ([t' ts] & <- & Hin). eauto. }
    rewrite (ts_of_In _ t ts (plain_wf f Hd) Hin). now apply body_semi_free.
  Qed.
End All.
