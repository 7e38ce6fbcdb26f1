(** * Postgres: the types of the columns, and the schema without keys. *)
From Coq Require Import ZArith Bool List String Ascii Arith Lia Permutation.
From Verif Require Import PyVal PyValFacts PyDict PyDictFacts PyStr ListFacts TypeDict Data FindTypes FindTypesFacts FK Graph GraphFacts
  Obj ObjFacts ObjMore Factory FactoryFacts InfIO InfIOFacts Params Names NamesFacts Utils Json ObjRows JsonFacts TripFacts Pg PgFacts.
Import ListNotations.
Local Open Scope string_scope.
Local Open Scope list_scope.

(** The SQL type named by a string. *)
Inductive type_named : string -> ctype -> Prop :=
| tn_text : type_named "text" CText
| tn_integer : type_named "integer" CInteger
| tn_float : type_named "float" CFloat
| tn_bool : type_named "bool" CBool
| tn_boolean : type_named "boolean" CBool
| tn_timestamp : type_named "timestamp" CTimestamp
| tn_date : type_named "date" (COther "date")
| tn_bytea : type_named "bytea" (COther "bytea").

(** The column type that a declared data type stands for. *)
Inductive type_declared : dtype -> ctype -> Prop :=
| td_time : forall dt, datetime dt = true -> type_declared dt CTimestamp
| td_text : forall dt, datetime dt = false -> strs_truthy (strings_allowed dt) = true -> number_allowed dt = false -> type_declared dt CText
| td_integer : forall dt, datetime dt = false -> strs_truthy (strings_allowed dt) = false -> number_allowed dt = true -> must_be_int dt = true ->
    type_declared dt CInteger
| td_float : forall dt, datetime dt = false -> strs_truthy (strings_allowed dt) = false -> number_allowed dt = true -> must_be_int dt = false ->
    type_declared dt CFloat.

(** The type of the column of field [x] of [t]: forced, or text in the parameters
    table, or as declared, or text for keys and float for data. *)
Inductive column_type (f : factory) (forced : forced_types) (t : string) (ts : tschema) (x : string) : ctype -> Prop :=
| ct_forced : forall s c, dget tf_eqb forced (t, x) = Some s -> type_named s c -> column_type f forced t ts x c
| ct_params : dget tf_eqb forced (t, x) = None -> t = "parameters" -> f_params f <> [] -> column_type f forced t ts x CText
| ct_declared : forall dt c, dget tf_eqb forced (t, x) = None -> (t <> "parameters" \/ f_params f = []) -> field_type f t x = Some dt ->
    type_declared dt c -> column_type f forced t ts x c
| ct_key : dget tf_eqb forced (t, x) = None -> (t <> "parameters" \/ f_params f = []) -> field_type f t x = None ->
    In x (tpk ts) -> column_type f forced t ts x CText
| ct_data : dget tf_eqb forced (t, x) = None -> (t <> "parameters" \/ f_params f = []) -> field_type f t x = None ->
    ~ In x (tpk ts) -> column_type f forced t ts x CFloat.

Lemma tf_eqb_iff : forall a b, tf_eqb a b = true <-> a = b.
Proof.
  intros [t x] [u y]. unfold tf_eqb. cbn [fst snd]. rewrite andb_true_iff, !String.eqb_eq. split; [intros [-> ->] | intros [= -> ->]]; auto.
Qed.

Lemma tf_eqb_refl' : forall a, tf_eqb a a = true.
Proof. intros a. now apply tf_eqb_iff. Qed.
Lemma tf_eqb_sym' : forall a b, tf_eqb a b = tf_eqb b a.
Proof. intros a b. destruct (tf_eqb a b) eqn:E; symmetry; [apply tf_eqb_iff in E; subst; now apply tf_eqb_iff |]. destruct (tf_eqb b a) eqn:F; auto. apply tf_eqb_iff in F. subst. now rewrite tf_eqb_refl' in E. Qed.
Lemma tf_eqb_trans' : forall a b c, tf_eqb a b = true -> tf_eqb b c = true -> tf_eqb a c = true.
Proof. intros a b c H G. apply tf_eqb_iff in H, G. subst. apply tf_eqb_refl'. Qed.

Lemma params_cond : forall f t, String.eqb t "parameters" && has_params f = true <-> t = "parameters" /\ f_params f <> [].
Proof.
  intros f t. rewrite andb_true_iff, String.eqb_eq. unfold has_params. destruct (f_params f); simpl; split; intros [A B]; split; auto; congruence.
Qed.

Lemma ctype_of_named : forall s, mem_str s ["text"; "integer"; "float"; "bool"; "boolean"; "timestamp"; "date"; "bytea"] = true ->
  type_named s (ctype_of s).
Proof.
  intros s H. apply mem_str_iff in H. simpl in H. repeat (destruct H as [<- | H]; [constructor |]). contradiction.
Qed.

Lemma named_unique : forall s c c', type_named s c -> type_named s c' -> c = c'.
Proof. intros s c c' H H'. inversion H; subst; inversion H'; auto. Qed.

Lemma forced_named : forall f forced t x s, forced_ok f forced = true -> dget tf_eqb forced (t, x) = Some s -> type_named s (ctype_of s).
Proof.
  intros f forced t x s H G. apply dget_In in G as (k & _ & Hin). unfold forced_ok in H. rewrite forallb_forall in H. specialize (H _ Hin).
  apply andb_true_iff in H as [_ H]. now apply ctype_of_named.
Qed.

Lemma fld_type_spec : forall f forced t ts x c, forced_ok f forced = true ->
  (fld_type f forced t x (default_ctype ts x) = Ret c <-> column_type f forced t ts x c).
Proof.
  intros f forced t ts x c Hf. unfold fld_type, default_ctype. split.
  - destruct (dget tf_eqb forced (t, x)) as [s |] eqn:E.
    + intros [= <-]. eapply ct_forced; eauto. eapply forced_named; eauto.
    + destruct (String.eqb t "parameters" && has_params f) eqn:P.
      * intros [= <-]. apply params_cond in P as [P Q]. now apply ct_params.
      * assert (t <> "parameters" \/ f_params f = []) as P'.
        { destruct (string_dec t "parameters") as [-> | N]; auto. right. destruct (f_params f) eqn:Q; auto. exfalso.
          assert (String.eqb "parameters" "parameters" && has_params f = true) by (apply params_cond; split; auto; congruence). congruence. }
        destruct (field_type f t x) as [dt |] eqn:D.
        -- destruct (datetime dt) eqn:D1; [intros [= <-]; eapply ct_declared; eauto; now constructor |].
           destruct (number_allowed dt) eqn:D2, (strs_truthy (strings_allowed dt)) eqn:D3; cbn [andb]; try discriminate; intros [= <-].
           ++ eapply ct_declared; eauto. destruct (must_be_int dt) eqn:D4; [apply td_integer | apply td_float]; auto.
           ++ eapply ct_declared; eauto. now apply td_text.
        -- intros [= <-]. destruct (mem_str x (tpk ts)) eqn:M.
           ++ apply mem_str_iff in M. now apply ct_key.
           ++ apply ct_data; auto. intros Hin. apply mem_str_iff in Hin. congruence.
  - assert (forall Q : outcome ctype, (t <> "parameters" \/ f_params f = []) -> (if String.eqb t "parameters" && has_params f then Ret CText else Q) = Q) as Hp.
    { intros Q H. destruct (String.eqb t "parameters" && has_params f) eqn:P; auto. apply params_cond in P as [-> P]. destruct H; contradiction. }
    intros H. destruct H as [s c E N | E P Q | dt c E P D T | E P D K | E P D K].
    + rewrite E. f_equal. eapply named_unique; [| exact N]. eapply forced_named; eauto.
    + rewrite E. assert (String.eqb t "parameters" && has_params f = true) as -> by (now apply params_cond). auto.
    + rewrite E, Hp, D by auto. destruct T as [dt T1 | dt T1 T2 T3 | dt T1 T2 T3 T4 | dt T1 T2 T3 T4]; rewrite T1; auto; rewrite T2, T3; simpl; auto; now rewrite T4.
    + rewrite E, Hp, D by auto. apply mem_str_iff in K. now rewrite K.
    + rewrite E, Hp, D by auto. destruct (mem_str x (tpk ts)) eqn:M; auto. apply mem_str_iff in M. contradiction.
Qed.

(** Every declared type gives exactly one column type unless it allows both
    strings and numbers, or neither. *)
Lemma declared_exists : forall dt,
  (datetime dt = true \/ strs_truthy (strings_allowed dt) <> number_allowed dt) <-> exists c, type_declared dt c.
Proof.
  intros dt. split.
  - intros H. destruct (datetime dt) eqn:D; [exists CTimestamp; now constructor |]. destruct H as [H | H]; [discriminate |].
    destruct (strs_truthy (strings_allowed dt)) eqn:E, (number_allowed dt) eqn:N; try congruence.
    + exists CText. now apply td_text.
    + destruct (must_be_int dt) eqn:M; [exists CInteger; now apply td_integer | exists CFloat; now apply td_float].
  - intros (c & H). destruct H; auto; right; congruence.
Qed.

(** ** Without keys: pgtd.py 213-226 *)

Section Bare.
  Variable pg_text : value -> string.
  Variable pg_num : string -> option num.
  Variable pg_stamp : string -> option Z.
  Variable pg_bool : string -> option bool.
  Variable pg_int : Z -> option Z.
  Variable pg_float : Z -> Z.
  Variable pg_other : string -> value -> option value.

  Let write_schema := write_schema pg_text pg_num pg_stamp pg_bool pg_int pg_float pg_other.

  Variable f : factory.
  Hypothesis Hd : decl_ok (f_decl f) = true.

  Lemma bare_plain : plain_schema (without_keys f) = map (fun tts => (fst tts, mkT [] (tfields (snd tts)))) (plain_schema f).
  Proof.
    unfold plain_schema at 1, without_keys. cbn [f_decl]. induction (plain_schema f) as [| [t ts] l IH]; auto.
    cbn [map flat_map fst snd app]. now rewrite IH.
  Qed.

  Lemma bare_decl_ok : decl_ok (f_decl (without_keys f)) = true.
  Proof.
    pose proof (plain_legal f Hd) as [Hl _]. pose proof Hd as H. unfold decl_ok in H. rewrite !andb_true_iff in H. destruct H as [[[H1 H2] _] H4].
    rewrite forallb_forall in H1, H2, H4. unfold decl_ok, without_keys. cbn [f_decl]. rewrite !andb_true_iff. split; [split; [split |] |].
    - apply forallb_forall. intros td Htd. apply in_map_iff in Htd as ([t ts] & <- & Hin). apply in_plain in Hin. apply (H1 _ Hin).
    - apply forallb_forall. intros td Htd. apply in_map_iff in Htd as ([t ts] & <- & Hin). apply in_plain in Hin. apply (H2 _ Hin).
    - apply distinct_b_iff. rewrite map_map. cbn [fst]. rewrite <- (map_map fst lower). exact Hl.
    - apply forallb_forall. intros td Htd. apply in_map_iff in Htd as ([t ts] & <- & Hin). apply in_plain in Hin. specialize (H4 _ Hin). exact H4.
  Qed.

  Lemma keys_as_text_get : forall forced t ts x, NoDup (map fst forced) -> In (t, ts) (plain_schema f) -> In x (tfields ts) ->
    dget tf_eqb (keys_as_text f forced) (t, x) =
      match dget tf_eqb forced (t, x) with
      | Some s => Some s
      | None => if mem_str x (tpk ts) then match field_type f t x with None => Some "text" | Some _ => None end else None
      end.
  Proof.
    intros forced t ts x Hnf Hin Hx. unfold keys_as_text.
    rewrite (dget_dupdate tf_eqb tf_eqb_refl' tf_eqb_sym' tf_eqb_trans').
    rewrite (last_bind_distinct tf_eqb tf_eqb_sym' tf_eqb_trans') by (now apply (keys_distinct_NoDup tf_eqb tf_eqb_iff)).
    destruct (dget tf_eqb forced (t, x)); auto.
    set (l := flat_map _ _).
    assert (forall s, In ((t, x), s) l <-> s = "text" /\ In x (tpk ts) /\ field_type f t x = None) as Hl.
    { intros s. unfold l. rewrite in_flat_map. split.
      - intros ([u us] & Hu & H). cbn [fst snd] in H. apply in_map_iff in H as (y & E & H). injection E as -> -> <-.
        apply filter_In in H as [H E]. assert (us = ts) as ->.
        { apply schema_get in Hu, Hin; try apply (plain_wf f Hd). congruence. }
        destruct (field_type f t x) eqn:D; [discriminate | auto].
      - intros (-> & H & E). exists (t, ts). split; auto. cbn [fst snd]. apply in_map_iff. exists x. split; auto. apply filter_In. split; auto. now rewrite E. }
    destruct (dget tf_eqb l (t, x)) as [s |] eqn:G.
    - apply dget_In in G as (k & E & Hk). apply tf_eqb_iff in E. subst k. apply Hl in Hk as (-> & Hk & E).
      apply mem_str_iff in Hk. now rewrite Hk, E.
    - destruct (mem_str x (tpk ts)) eqn:M; auto. destruct (field_type f t x) eqn:D; auto. exfalso. apply mem_str_iff in M.
      assert (In ((t, x), "text") l) as H by (apply Hl; auto). apply (proj1 (dget_None tf_eqb _ _) G) in H.
      assert (tf_eqb (t, x) (t, x) = true) by (now apply tf_eqb_iff). congruence.
  Qed.

  Theorem bare_written : forall forced db db', NoDup (map fst forced) -> write_schema f forced false db = Ret db' ->
    names_ok f = true /\ forced_ok f forced = true /\ no_generics f = true /\
    (forall t, In t (map fst (plain_schema f)) -> dget String.eqb db t = None) /\
    (forall t, ~ In t (map fst (plain_schema f)) -> dget String.eqb db' t = dget String.eqb db t) /\
    forall t ts, In (t, ts) (plain_schema f) -> exists pt, dget String.eqb db' t = Some pt /\
      map c_name (pt_cols pt) = map pg_name (tfields ts) /\ pt_key pt = [] /\ pt_fks pt = [] /\ pt_rows pt = [] /\
      forall x, In x (tfields ts) -> exists c, In c (pt_cols pt) /\ c_name c = pg_name x /\
        c_notnull c = negb (pg_nullable f t x) /\
        (t <> "parameters" \/ f_params f = [] -> column_type f forced t ts x (c_type c)).
  Proof.
    intros forced db db' Hnf H. unfold write_schema, Pg.write_schema in H.
    destruct (names_ok f && forced_ok f forced && no_generics f) eqn:E; [| discriminate]. rewrite !andb_true_iff in E. destruct E as [[E1 E2] E3].
    do 3 (split; [assumption |]).
    assert (Pg.write_schema pg_text pg_num pg_stamp pg_bool pg_int pg_float pg_other (without_keys f) (keys_as_text f forced) true db = Ret db') as H' by exact H.
    apply schema_written in H' as (B1 & B2 & B3 & stmts & -> & Em & Hfree & Hs & Ht).
    2: exact bare_decl_ok.
    2: { intros k Hk. contradiction. }
    assert (map fst (plain_schema (without_keys f)) = map fst (plain_schema f)) as En by (rewrite bare_plain, map_map; reflexivity).
    rewrite En in Hfree. split; auto. split.
    { intros t Hn. rewrite dget_app. destruct (dget String.eqb db t); auto. apply dget_str_None. rewrite Em. rewrite ordered_In; [now rewrite En | exact bare_decl_ok |].
      intros k []. }
    intros t ts Hin. assert (In (t, mkT [] (tfields ts)) (plain_schema (without_keys f))) as Hb.
    { rewrite bare_plain. apply in_map_iff. exists (t, ts). auto. }
    destruct (Ht _ _ Hb) as (pt & _ & G & Hst). exists pt. split; auto.
    split; [apply (stmt_names _ _ _ _ _ Hst) |].
    destruct (stmt_spec _ _ _ _ _ Hst) as (ks & ds & _ & _ & _ & Hk & Hr & Hfk). cbn [tpk map] in Hk. split; auto. split; [exact Hfk |]. split; auto.
    intros x Hx. destruct (stmt_column (without_keys f) (keys_as_text f forced) bare_decl_ok t (mkT [] (tfields ts)) pt x B1 Hb Hst Hx) as (c & C1 & _ & _ & C2 & _ & C3 & C4).
    exists c. split; auto. split; auto. specialize (C3 Hx). destruct (data_column_name _ _ _ _ _ C3) as (_ & N & _ & _). split; [exact N |].
    intros Hp. apply fld_type_spec in C4; auto.
    assert (forall dt, field_type (without_keys f) t x = Some dt <-> field_type f t x = Some dt) as Ft by reflexivity.
    assert (field_type (without_keys f) t x = field_type f t x) as Ft' by reflexivity.
    pose proof (keys_as_text_get forced t ts x Hnf Hin Hx) as Kg.
    destruct C4 as [s c' A B | A B C | dt c' A B D T | A B D K | A B D K].
    - rewrite A in Kg. destruct (dget tf_eqb forced (t, x)) as [s' |] eqn:Df.
      + injection Kg as ->. eapply ct_forced; eauto.
      + destruct (mem_str x (tpk ts)) eqn:M; [| discriminate]. destruct (field_type f t x) eqn:D; [discriminate |]. injection Kg as ->.
        inversion B; subst. apply ct_key; auto. now apply mem_str_iff.
    - exfalso. apply C. reflexivity.
    - rewrite A in Kg. destruct (dget tf_eqb forced (t, x)) as [s' |] eqn:Df; [discriminate |]. eapply ct_declared; eauto.
    - contradiction.
    - rewrite A in Kg. destruct (dget tf_eqb forced (t, x)) as [s' |] eqn:Df; [discriminate |]. rewrite Ft' in D. rewrite D in Kg.
      destruct (mem_str x (tpk ts)) eqn:M; [discriminate |]. apply ct_data; auto. intros Hc. apply mem_str_iff in Hc. congruence.
  Qed.
End Bare.
