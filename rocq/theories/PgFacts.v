(** * Postgres: the schema. *)
From Coq Require Import ZArith Bool List String Ascii Arith Lia Permutation.
From Verif Require Import PyVal PyValFacts PyDict PyDictFacts PyStr ListFacts TypeDict Data FindTypes FindTypesFacts FK FKFacts Graph GraphFacts
  Obj ObjFacts ObjMore Factory FactoryFacts InfIO InfIOFacts Params Names NamesFacts Utils Json ObjRows JsonFacts TripFacts Pg.
Import ListNotations.
Local Open Scope string_scope.
Local Open Scope list_scope.

Lemma dget_str : forall {V} (l : list (string * V)) t v, NoDup (map fst l) -> (dget String.eqb l t = Some v <-> In (t, v) l).
Proof.
  intros V l t v Hn. split.
  - intros H. apply dget_In in H as (t' & E & Hin). apply String.eqb_eq in E. now subst.
  - intros H. apply (In_dget String.eqb String.eqb_refl); auto. now apply (keys_distinct_NoDup String.eqb String.eqb_eq).
Qed.

Lemma dget_str_None : forall {V} (l : list (string * V)) t, dget String.eqb l t = None <-> ~ In t (map fst l).
Proof.
  intros V l t. rewrite dget_None. split.
  - intros H Hin. apply in_map_iff in Hin as ([t' v] & E & Hin). cbn [fst] in E. subst. specialize (H _ _ Hin). now rewrite String.eqb_refl in H.
  - intros H t' v Hin. apply String.eqb_neq. intros ->. apply H. now apply (in_map fst) in Hin.
Qed.

Lemma dget_app : forall {V} (l m : list (string * V)) t,
  dget String.eqb (l ++ m) t = match dget String.eqb l t with Some v => Some v | None => dget String.eqb m t end.
Proof. induction l as [| [k v] l IH]; intros m t; simpl; auto. destruct (String.eqb k t); auto. Qed.

Lemma dset_keys : forall {V} (l : list (string * V)) t v x, In x (map fst (dset String.eqb l t v)) <-> In x (map fst l) \/ x = t.
Proof.
  induction l as [| [k w] l IH]; intros t v x; simpl; [intuition |]. destruct (String.eqb_spec k t) as [-> | N]; simpl.
  - intuition.
  - rewrite IH. intuition.
Qed.

Lemma split_unique : forall (a : string) l1 l2 m1 m2, NoDup (l1 ++ a :: l2) -> l1 ++ a :: l2 = m1 ++ a :: m2 -> l1 = m1.
Proof.
  intros a l1. induction l1 as [| x l1 IH]; intros l2 [| y m1] m2 N E; simpl in *; auto.
  - exfalso. injection E as <- E. apply NoDup_cons_iff in N as [N _]. apply N. rewrite E. apply in_app_iff. simpl. auto.
  - exfalso. injection E as -> E. apply NoDup_cons_iff in N as [N _]. apply N. apply in_app_iff. simpl. auto.
  - injection E as <- E. f_equal. apply NoDup_cons_iff in N as [_ N]. eauto.
Qed.

Section Orders.
  Variable f : factory.
  Hypothesis Hd : decl_ok (f_decl f) = true.
  Hypothesis Hw : fks_within (f_fks f) (map fst (plain_schema f)).

  Lemma plain_shorter : List.length (plain_schema f) <= List.length (f_decl f).
  Proof.
    unfold plain_schema. clear. generalize (f_decl f). intros l. induction l as [| [t [| ts]] l IH]; cbn [flat_map snd fst app List.length] in *; [apply le_n | | ].
    - apply le_S. exact IH.
    - apply le_n_S. exact IH.
  Qed.

  Lemma ordered_spec : Permutation (ordered_tables f) (map fst (plain_schema f)) /\
    forall t u, In t (map fst (plain_schema f)) -> edge (f_fks f) t u -> ~ reaches (f_fks f) u t -> before (ordered_tables f) u t.
  Proof.
    unfold ordered_tables.
    destruct (pg_order_correct (f_fks f) (map fst (plain_schema f)) (S (List.length (f_decl f)))) as (l & E & H).
    - apply (plain_wf f Hd).
    - exact Hw.
    - rewrite map_length. pose proof plain_shorter. lia.
    - rewrite E. exact H.
  Qed.

  Lemma ordered_NoDup : NoDup (ordered_tables f).
  Proof.
    destruct ordered_spec as [P _]. eapply Permutation_NoDup; [symmetry; exact P |]. apply (plain_wf f Hd).
  Qed.

  Lemma ordered_In : forall t, In t (ordered_tables f) <-> In t (map fst (plain_schema f)).
  Proof. intros t. destruct ordered_spec as [P _]. split; apply Permutation_in; auto. now symmetry. Qed.

  Lemma ordered_ts : forall t, In t (ordered_tables f) <-> exists ts, In (t, ts) (plain_schema f).
  Proof.
    intros t. rewrite ordered_In. split.
    - intros H. apply in_map_iff in H as ([t' ts] & E & H). cbn [fst] in E. subst. eauto.
    - intros (ts & H). now apply (in_map fst) in H.
  Qed.

  Lemma field_names_NoDup : forall t ts, names_ok f = true -> In (t, ts) (plain_schema f) -> NoDup (map pg_name (tfields ts)).
  Proof.
    intros t ts Hn Hin. unfold names_ok, pg_compatible in Hn. rewrite forallb_forall in Hn. apply in_plain in Hin.
    specialize (Hn (t, tfields ts)). assert (In (t, tfields ts) (map (fun td => (fst td, match snd td with Fields ts => tfields ts | Generic => [] end)) (f_decl f))) as H.
    { apply in_map_iff. exists (t, Fields ts). auto. }
    specialize (Hn H). cbn [fst snd] in Hn. rewrite !andb_true_iff in Hn. destruct Hn as [[_ Hn] _].
    apply distinct_b_iff. unfold distinct_b. rewrite map_length, Nat.eqb_sym. exact Hn.
  Qed.

  Lemma pg_name_inj : forall t ts x y, names_ok f = true -> In (t, ts) (plain_schema f) -> In x (tfields ts) -> In y (tfields ts) ->
    pg_name x = pg_name y -> x = y.
  Proof. intros t ts x y Hn Hin Hx Hy E. eapply NoDup_map_inj_in; eauto. eapply field_names_NoDup; eauto. Qed.
End Orders.

Section Schema.
  Variable pg_text : value -> string.
  Variable pg_num : string -> option num.
  Variable pg_stamp : string -> option Z.
  Variable pg_bool : string -> option bool.
  Variable pg_int : Z -> option Z.
  Variable pg_float : Z -> Z.
  Variable pg_other : string -> value -> option value.

  Let create_table := create_table pg_text pg_num pg_stamp pg_bool pg_int pg_float pg_other.
  Let create_all := create_all pg_text pg_num pg_stamp pg_bool pg_int pg_float pg_other.
  Let write_schema := write_schema pg_text pg_num pg_stamp pg_bool pg_int pg_float pg_other.
  Let default_text_ok := default_text_ok pg_text pg_num pg_stamp pg_bool pg_int pg_float pg_other.

  Lemma create_table_app : forall db t pt db', create_table db t pt = Some db' ->
    db' = db ++ [(t, pt)] /\ dget String.eqb db t = None /\ NoDup (map c_name (pt_cols pt)).
  Proof.
    intros db t pt db' H. unfold create_table, Pg.create_table in H.
    destruct (negb (dmem String.eqb db t) && distinct_b (map c_name (pt_cols pt)) && _ && _) eqn:E; [| discriminate].
    injection H as <-. rewrite !andb_true_iff in E. destruct E as [[[E1 E2] _] _]. apply negb_true_iff in E1. unfold dmem in E1.
    destruct (dget String.eqb db t) eqn:G; [discriminate |]. rewrite dset_absent by auto. split; auto. split; auto. now apply distinct_b_iff.
  Qed.

  Lemma create_all_cons : forall tp l db, create_all (tp :: l) db =
    match create_table db (fst tp) (snd tp) with Some db' => create_all l db' | None => Raise end.
  Proof.
    intros tp l db. unfold create_all, Pg.create_all. cbn [fold_left bindO]. fold create_table.
    destruct (create_table db (fst tp) (snd tp)); auto.
    induction l; simpl; auto.
  Qed.

  Lemma create_all_app : forall l db db', create_all l db = Ret db' -> db' = db ++ l /\
    (forall t, In t (map fst l) -> dget String.eqb db t = None) /\ forall t pt, In (t, pt) l -> NoDup (map c_name (pt_cols pt)).
  Proof.
    induction l as [| [t pt] l IH]; intros db db' H.
    - unfold create_all, Pg.create_all in H. cbn [fold_left] in H. injection H as <-. rewrite app_nil_r. split; auto. split; intros ? *; intros [].
    - rewrite create_all_cons in H. cbn [fst snd] in H. destruct (create_table db t pt) as [db1 |] eqn:E; [| discriminate].
      apply create_table_app in E as (-> & E & F). apply IH in H as (-> & G & K). rewrite <- app_assoc. split; auto. split.
      + intros t0 [<- | H0]; auto. specialize (G _ H0). rewrite dget_app in G. now destruct (dget String.eqb db t0).
      + intros t0 pt0 [E0 | H0]; [injection E0 as <- <-; auto | eauto].
  Qed.

  Variable f : factory.
  Variable forced : forced_types.
  Hypothesis Hd : decl_ok (f_decl f) = true.
  Hypothesis Hw : fks_within (f_fks f) (map fst (plain_schema f)).

  Theorem schema_written : forall db db', write_schema f forced true db = Ret db' ->
    names_ok f = true /\ forced_ok f forced = true /\ no_generics f = true /\
    exists stmts, db' = db ++ stmts /\ map fst stmts = ordered_tables f /\
      (forall t, In t (map fst (plain_schema f)) -> dget String.eqb db t = None) /\
      (forall t pt, In (t, pt) stmts -> exists ts, In (t, ts) (plain_schema f) /\ table_stmt f forced t ts = Ret pt) /\
      forall t ts, In (t, ts) (plain_schema f) -> exists pt, In (t, pt) stmts /\ dget String.eqb db' t = Some pt /\ table_stmt f forced t ts = Ret pt.
  Proof.
    intros db db' H. unfold write_schema, Pg.write_schema, write_schema_full in H. fold create_all in H.
    destruct (names_ok f && forced_ok f forced && no_generics f) eqn:E; [| discriminate]. rewrite !andb_true_iff in E. destruct E as [[E1 E2] E3].
    do 3 (split; [assumption |]). apply bindO_ret in H as (stmts & H & G). exists stmts. apply mapO_Forall2 in H.
    apply create_all_app in G as (-> & G & _). split; auto.
    assert (map fst stmts = ordered_tables f) as Em.
    { clear G. induction H as [| t [t' pt] l m H _ IH]; simpl; auto. apply bindO_ret in H as (pt' & _ & H). injection H as -> _. cbn [fst]. now rewrite IH. }
    assert (forall t pt, In (t, pt) stmts -> table_stmt f forced t (ts_of (plain_schema f) t) = Ret pt) as Hs.
    { intros t pt Hin. destruct (Forall2_In_r _ _ _ _ H Hin) as (t' & _ & A). apply bindO_ret in A as (pt' & A & B). injection B as -> ->. exact A. }
    split; auto. split.
    { intros t Ht. apply G. rewrite Em. now apply ordered_In. }
    split.
    - intros t pt Hin. assert (In t (ordered_tables f)) as Ht by (rewrite <- Em; now apply (in_map fst) in Hin).
      apply (ordered_ts f Hd Hw) in Ht as (ts & Ht). exists ts. split; auto. rewrite <- (ts_of_In (plain_schema f) t ts); auto. now apply plain_wf.
    - intros t ts Hin. assert (In t (map fst stmts)) as Ht. { rewrite Em. apply (ordered_ts f Hd Hw). eauto. }
      apply in_map_iff in Ht as ([t' pt] & E & Ht). cbn [fst] in E. subst t'. exists pt. split; auto. split.
      + rewrite dget_app. rewrite (G t) by (now apply (in_map fst) in Ht). apply dget_str; auto. rewrite Em. now apply ordered_NoDup.
      + specialize (Hs _ _ Ht). rewrite (ts_of_In (plain_schema f) t ts) in Hs; auto. now apply plain_wf.
  Qed.

  (** ** One table *)

  Lemma stmt_spec : forall t ts pt, table_stmt f forced t ts = Ret pt ->
    exists ks ds, pt_cols pt = ks ++ ds /\ Forall2 (fun x c => key_column f forced t x = Ret c) (tpk ts) ks /\
      Forall2 (fun x c => data_column f forced t x = Ret c) (tdf ts) ds /\
      pt_key pt = map pg_name (tpk ts) /\ pt_rows pt = [] /\ pt_fks pt = map pg_fk (filter (fun k => String.eqb (fk_native k) t) (f_fks f)).
  Proof.
    intros t ts pt H. unfold table_stmt in H. apply bindO_ret in H as (ks & A & H). apply bindO_ret in H as (ds & B & H). injection H as <-.
    exists ks, ds. apply mapO_Forall2 in A, B. auto 10.
  Qed.

  Lemma stmt_exists : forall t ts,
    (forall x, In x (tpk ts) -> exists c, key_column f forced t x = Ret c) ->
    (forall x, In x (tdf ts) -> exists c, data_column f forced t x = Ret c) ->
    exists pt, table_stmt f forced t ts = Ret pt.
  Proof.
    intros t ts H1 H2. unfold table_stmt. destruct (mapO_total (key_column f forced t) (tpk ts)) as (ks & ->); auto.
    destruct (mapO_total (data_column f forced t) (tdf ts)) as (ds & ->); auto. simpl. eauto.
  Qed.

  Lemma key_column_name : forall t x c, key_column f forced t x = Ret c -> c_name c = pg_name x /\ c_notnull c = false /\ c_default c = None /\
    fld_type f forced t x CText = Ret (c_type c).
  Proof. intros t x c H. apply bindO_ret in H as (ty & A & H). injection H as <-. auto. Qed.

  Lemma data_column_name : forall t x c, data_column f forced t x = Ret c -> c_name c = pg_name x /\ c_notnull c = negb (pg_nullable f t x) /\
    c_default c = default_sql f forced t x /\ fld_type f forced t x CFloat = Ret (c_type c).
  Proof. intros t x c H. apply bindO_ret in H as (ty & A & H). injection H as <-. auto. Qed.

  Lemma stmt_names : forall t ts pt, table_stmt f forced t ts = Ret pt -> map c_name (pt_cols pt) = map pg_name (tfields ts).
  Proof.
    intros t ts pt H. apply stmt_spec in H as (ks & ds & -> & A & B & _). unfold tfields. rewrite !map_app. f_equal.
    - induction A as [| x c l m H _ IH]; simpl; auto. rewrite IH. f_equal. now apply key_column_name in H as [-> _].
    - induction B as [| x c l m H _ IH]; simpl; auto. rewrite IH. f_equal. now apply data_column_name in H as [-> _].
  Qed.

  (** The default type of a column without declared type. *)
  Definition default_ctype (ts : tschema) (x : string) : ctype := if mem_str x (tpk ts) then CText else CFloat.

  (** The column of a field. *)
  Lemma stmt_column : forall t ts pt x, names_ok f = true -> In (t, ts) (plain_schema f) -> table_stmt f forced t ts = Ret pt -> In x (tfields ts) ->
    exists c, In c (pt_cols pt) /\ (forall c', In c' (pt_cols pt) -> c_name c' = pg_name x -> c' = c) /\
      find (fun c => String.eqb (c_name c) (pg_name x)) (pt_cols pt) = Some c /\
      c_name c = pg_name x /\ (In x (tpk ts) -> key_column f forced t x = Ret c) /\ (In x (tdf ts) -> data_column f forced t x = Ret c) /\
      fld_type f forced t x (default_ctype ts x) = Ret (c_type c).
  Proof.
    intros t ts pt x Hn Hin H Hx. pose proof (stmt_names _ _ _ H) as En. pose proof (field_names_NoDup f t ts Hn Hin) as Hnd.
    rewrite <- En in Hnd. pose proof (proj2 (plain_wf f Hd) t ts Hin) as Hwf. unfold wf_tschema in Hwf.
    apply stmt_spec in H as (ks & ds & E & A & B & _).
    assert (exists c, In c (pt_cols pt) /\ c_name c = pg_name x /\ (In x (tpk ts) -> key_column f forced t x = Ret c) /\ (In x (tdf ts) -> data_column f forced t x = Ret c) /\
      fld_type f forced t x (default_ctype ts x) = Ret (c_type c)) as (c & C1 & C2 & C3 & C4 & C5).
    { unfold tfields in Hx, Hwf. apply in_app_iff in Hx as [Hx | Hx].
      - destruct (Forall2_In_l _ _ _ _ A Hx) as (c & Hc & K). exists c. rewrite E. split; [apply in_app_iff; auto |].
        destruct (key_column_name _ _ _ K) as (K1 & _ & _ & K2). split; auto. split; auto. split.
        + intros Hx'. exfalso. eapply NoDup_app_disj; eauto.
        + unfold default_ctype. apply mem_str_iff in Hx. now rewrite Hx.
      - destruct (Forall2_In_l _ _ _ _ B Hx) as (c & Hc & K). exists c. rewrite E. split; [apply in_app_iff; auto |].
        destruct (data_column_name _ _ _ K) as (K1 & _ & _ & K2). split; auto. split.
        + intros Hx'. exfalso. eapply NoDup_app_disj; eauto.
        + split; auto. unfold default_ctype. destruct (mem_str x (tpk ts)) eqn:M; auto. apply mem_str_iff in M. exfalso. eapply NoDup_app_disj; eauto. }
    exists c. split; auto. assert (forall c', In c' (pt_cols pt) -> c_name c' = pg_name x -> c' = c) as U.
    { intros c' Hc' Ec. eapply (NoDup_map_inj_in c_name); eauto. congruence. }
    split; auto. split; auto. destruct (find (fun c => String.eqb (c_name c) (pg_name x)) (pt_cols pt)) as [c' |] eqn:F.
    - apply find_some in F as [F1 F2]. apply String.eqb_eq in F2. f_equal. auto.
    - exfalso. apply (find_none _ _ F) in C1. cbn beta in C1. rewrite C2, String.eqb_refl in C1. discriminate.
  Qed.

  Lemma column_of_field : forall t ts pt c, table_stmt f forced t ts = Ret pt -> In c (pt_cols pt) -> exists x, In x (tfields ts) /\ c_name c = pg_name x.
  Proof.
    intros t ts pt c H Hc. pose proof (stmt_names _ _ _ H) as En. apply (in_map c_name) in Hc. rewrite En in Hc.
    apply in_map_iff in Hc as (x & E & Hx). exists x. auto.
  Qed.

  (** ** When the statements succeed *)

  Definition field_type_ok (t : string) (ts : tschema) (x : string) : Prop := exists c, fld_type f forced t x (default_ctype ts x) = Ret c.

  (** A foreign key refers to the whole primary key, with comparable types. *)
  Definition refers_to_key (k : fk) : Prop :=
    (fk_map k <> [] /\ NoDup (map fst (fk_map k))) /\
    forall ts fts, In (fk_native k, ts) (plain_schema f) -> In (fk_foreign k, fts) (plain_schema f) ->
      Permutation (map snd (fk_map k)) (tpk fts) /\
      forall n x, In (n, x) (fk_map k) -> In n (tfields ts) /\
        exists a b, fld_type f forced (fk_native k) n (default_ctype ts n) = Ret a /\
          fld_type f forced (fk_foreign k) x (default_ctype fts x) = Ret b /\ comparable a b = true.

  Theorem schema_possible : forall db,
    names_ok f = true -> forced_ok f forced = true -> no_generics f = true ->
    (forall t, In t (map fst (plain_schema f)) -> dget String.eqb db t = None) ->
    (forall k, In k (f_fks f) -> fk_native k <> fk_foreign k -> ~ reaches (f_fks f) (fk_foreign k) (fk_native k)) ->
    (forall t ts x, In (t, ts) (plain_schema f) -> In x (tpk ts) -> exists c, key_column f forced t x = Ret c) ->
    (forall t ts x, In (t, ts) (plain_schema f) -> In x (tdf ts) -> exists c, data_column f forced t x = Ret c /\ default_text_ok c = true) ->
    (forall k, In k (f_fks f) -> refers_to_key k) ->
    exists db', write_schema f forced true db = Ret db'.
  Proof.
    intros db H1 H2 H3 Hfree Hac Hkeys Hdata Hfks. unfold write_schema, Pg.write_schema, write_schema_full. fold create_all. rewrite H1, H2, H3. cbn [andb].
    set (g := fun t => bindO (table_stmt f forced t (ts_of (plain_schema f) t)) (fun pt => Ret (t, pt))).
    pose proof (plain_wf f Hd) as Hwf.
    assert (exists stmts, mapO g (ordered_tables f) = Ret stmts) as [stmts Es].
    { apply mapO_total. intros t Ht. apply (ordered_ts f Hd Hw) in Ht as (ts & Ht). unfold g. rewrite (ts_of_In _ t ts) by auto.
      destruct (stmt_exists t ts) as (pt & ->); eauto. { intros x Hx. destruct (Hdata _ _ _ Ht Hx) as (c & Hc & _). eauto. } simpl. eauto. }
    rewrite Es. cbn [bindO]. apply mapO_Forall2 in Es.
    assert (forall pre post, ordered_tables f = pre ++ post -> forall m1 m2, stmts = m1 ++ m2 -> List.length m1 = List.length pre ->
              exists db', create_all m2 (db ++ m1) = Ret db') as Hall.
    { intros pre post. revert pre. induction post as [| t post IH]; intros pre Eo m1 m2 Em L.
      - assert (m2 = []) as ->.
        { apply length_zero_iff_nil. assert (List.length stmts = List.length (ordered_tables f)) as Q by (symmetry; eapply Forall2_length'; eauto).
          rewrite Em, Eo, !app_length, L in Q. simpl in Q. lia. }
        eexists. reflexivity.
      - destruct m2 as [| [t' pt] m2].
        { exfalso. assert (List.length stmts = List.length (ordered_tables f)) as Q by (symmetry; eapply Forall2_length'; eauto).
          rewrite Em, Eo, !app_length, L in Q. simpl in Q. lia. }
        assert (Forall2 (fun t tp => g t = Ret tp) pre m1 /\ g t = Ret (t', pt)) as [Hpre Ht].
        { rewrite Eo, Em in Es. clear - Es L. revert m1 L Es. induction pre as [| x pre IH]; intros [| y m1] L Es; try discriminate; simpl in *.
          - inversion Es; subst. auto.
          - inversion Es; subst. destruct (IH m1) as [A B]; auto. }
        unfold g in Ht. apply bindO_ret in Ht as (pt' & Ht & E'). injection E' as <- ->.
        assert (In t (ordered_tables f)) as Hto by (rewrite Eo; apply in_app_iff; simpl; auto).
        pose proof (proj1 (ordered_ts f Hd Hw t) Hto) as (ts & Hts). rewrite (ts_of_In _ t ts) in Ht by auto.
        rewrite create_all_cons. cbn [fst snd].
        assert (map fst m1 = pre) as Em1.
        { clear - Hpre. induction Hpre as [| x [y p] l m H _ IH]; simpl; auto. unfold g in H. apply bindO_ret in H as (? & _ & H). injection H as -> _. now rewrite IH. }
        assert (dget String.eqb (db ++ m1) t = None) as Hnone.
        { rewrite dget_app. rewrite Hfree by (now apply (in_map fst) in Hts). apply dget_str_None. rewrite Em1.
          pose proof (ordered_NoDup f Hd Hw) as N. rewrite Eo in N. apply NoDup_remove_2 in N. intros Hc. apply N. apply in_app_iff. auto. }
        assert (create_table (db ++ m1) t pt = Some (db ++ (m1 ++ [(t, pt)]))) as ->.
        { unfold create_table, Pg.create_table. unfold dmem. rewrite Hnone. cbn [negb]. rewrite dset_absent by auto.
          assert (distinct_b (map c_name (pt_cols pt)) = true) as ->.
          { apply distinct_b_iff. rewrite (stmt_names _ _ _ Ht). eapply field_names_NoDup; eauto. }
          assert (forallb (Pg.default_text_ok pg_text pg_num pg_stamp pg_bool pg_int pg_float pg_other) (pt_cols pt) = true) as ->.
          { apply forallb_forall. intros c Hc. destruct (column_of_field _ _ _ _ Ht Hc) as (x & Hx & Ec).
            destruct (stmt_column t ts pt x H1 Hts Ht Hx) as (c' & C1 & C2 & _ & C3 & C4 & C5 & _). rewrite (C2 c Hc Ec).
            unfold tfields in Hx. apply in_app_iff in Hx as [Hx | Hx].
            - specialize (C4 Hx). apply key_column_name in C4 as (_ & _ & D & _). unfold Pg.default_text_ok, default_value. now rewrite D.
            - destruct (Hdata _ _ _ Hts Hx) as (c2 & D & D'). rewrite (C5 Hx) in D. injection D as <-. exact D'. }
          assert (forallb (fk_accepted ((db ++ m1) ++ [(t, pt)]) pt) (pt_fks pt) = true) as ->; [| now rewrite app_assoc].
          apply forallb_forall. intros pk Hpk. pose proof (stmt_spec _ _ _ Ht) as (_ & _ & _ & _ & _ & Ekey & _ & Efk). rewrite Efk in Hpk.
          apply in_map_iff in Hpk as (k & <- & Hk). apply filter_In in Hk as [Hk Ek]. apply String.eqb_eq in Ek. subst t.
          destruct (Hfks _ Hk) as [[Hne Hnf] Hrk].
          assert (exists fts, In (fk_foreign k, fts) (plain_schema f)) as (fts & Hfts).
          { specialize (Hw k Hk). apply in_map_iff in Hw as ([u fts] & E & Hu). cbn [fst] in E. subst u. eauto. }
          destruct (Hrk _ _ Hts Hfts) as [P Q].
          assert (native_to_foreign (fk_map k) = fk_map k) as En.
          { apply n2f_distinct; auto. apply (Permutation_NoDup (Permutation_sym P)). apply (proj2 Hwf) in Hfts. unfold tfields in Hfts. now apply NoDup_app_l in Hfts. }
          assert (exists ft, dget String.eqb ((db ++ m1) ++ [(fk_native k, pt)]) (fk_foreign k) = Some ft /\ table_stmt f forced (fk_foreign k) fts = Ret ft) as (ft & G & Hft).
          { destruct (string_dec (fk_native k) (fk_foreign k)) as [Es' | Nk].
            - exists pt. rewrite <- Es' in *. split.
              + rewrite dget_app, Hnone. cbn [dget]. now rewrite String.eqb_refl.
              + assert (fts = ts) as -> by (apply schema_get in Hts, Hfts; try apply Hwf; congruence). exact Ht.
            - assert (before (ordered_tables f) (fk_foreign k) (fk_native k)) as (l1 & l2 & El & Hin1).
              { apply (proj2 (ordered_spec f Hd Hw)).
                - now apply (in_map fst) in Hts.
                - exists k. auto.
                - now apply Hac. }
              assert (l1 = pre) as ->.
              { pose proof (ordered_NoDup f Hd Hw) as N. rewrite Eo in El, N. symmetry. eapply split_unique; eauto. }
              rewrite <- Em1 in Hin1. apply in_map_iff in Hin1 as ([u ft] & E & Hin1). cbn [fst] in E. subst u. exists ft. split.
              + rewrite !dget_app. rewrite Hfree by (now apply (in_map fst) in Hfts).
                assert (NoDup (map fst m1)) as N1.
                { rewrite Em1. pose proof (ordered_NoDup f Hd Hw) as N. rewrite Eo in N. now apply NoDup_app_l in N. }
                apply dget_str in Hin1; auto. now rewrite Hin1.
              + destruct (Forall2_In_r _ _ _ _ Hpre Hin1) as (u & _ & Hu). unfold g in Hu. apply bindO_ret in Hu as (pt1 & Hu & Eu).
                injection Eu as -> ->. now rewrite (ts_of_In _ _ fts) in Hu by auto. }
          unfold fk_accepted, pg_fk. cbn [g_table g_native g_foreign]. rewrite En, G.
          pose proof (stmt_spec _ _ _ Hft) as (_ & _ & _ & _ & _ & Ekeyf & _). rewrite Ekeyf.
          assert (Permutation (map (fun nf => pg_name (snd nf)) (fk_map k)) (map pg_name (tpk fts))) as P'.
          { rewrite <- (map_map snd pg_name). now apply Permutation_map. }
          rewrite (Permutation_length P'). rewrite Nat.eqb_refl.
          assert (Nat.eqb (List.length (map pg_name (tpk fts))) 0 = false) as ->.
          { apply Nat.eqb_neq. rewrite <- (Permutation_length P'). rewrite map_length. destruct (fk_map k); [contradiction | discriminate]. }
          cbn [negb andb]. rewrite !andb_true_iff. split; [split |].
          - apply forallb_forall. intros x Hx. apply mem_str_iff. eapply Permutation_in; eauto.
          - apply forallb_forall. intros x Hx. apply mem_str_iff. eapply Permutation_in; [symmetry |]; eauto.
          - apply forallb_forall. intros [n x] Hnx.
            assert (exists n0 x0, In (n0, x0) (fk_map k) /\ n = pg_name n0 /\ x = pg_name x0) as (n0 & x0 & Hm & -> & ->).
            { clear - Hnx. induction (fk_map k) as [| [a b] l IH]; [contradiction |]. simpl in Hnx. destruct Hnx as [E | Hnx].
              - injection E as <- <-. exists a, b. simpl. auto.
              - destruct (IH Hnx) as (a' & b' & A & B). exists a', b'. simpl. auto. }
            cbn [fst snd]. destruct (Q _ _ Hm) as (Hn0 & a & b & Fa & Fb & C).
            destruct (stmt_column _ _ _ _ H1 Hts Ht Hn0) as (cn & _ & _ & Fn & _ & _ & _ & Tn).
            assert (In x0 (tfields fts)) as Hx0.
            { unfold tfields. apply in_app_iff. left. eapply Permutation_in; [exact P |]. now apply (in_map snd) in Hm. }
            destruct (stmt_column _ _ _ _ H1 Hfts Hft Hx0) as (cf & _ & _ & Ff & _ & _ & _ & Tf).
            unfold col_type. rewrite Fn, Ff. cbn [option_map]. rewrite Fa in Tn. rewrite Fb in Tf. injection Tn as <-. injection Tf as <-. exact C. }
        apply (IH (pre ++ [t])).
        + now rewrite <- app_assoc.
        + now rewrite <- app_assoc.
        + rewrite !app_length. simpl. lia. }
    destruct (Hall [] (ordered_tables f) eq_refl [] stmts eq_refl eq_refl) as (db' & H). rewrite app_nil_r in H. eauto.
  Qed.
End Schema.
