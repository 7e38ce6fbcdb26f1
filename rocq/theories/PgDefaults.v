(** * Postgres: the DEFAULT of a column whose type is forced or a datetime. *)
From Coq Require Import ZArith Bool List String Ascii Arith Lia Permutation.
From Verif Require Import PyVal PyValFacts PyDict PyDictFacts PyStr ListFacts TypeDict Data FindTypes FindTypesFacts FK FKFacts Graph GraphFacts
  Obj ObjFacts ObjMore Factory FactoryFacts InfIO InfIOFacts Params Names NamesFacts Utils Json ObjRows JsonFacts TripFacts Pg PgFacts PgSchema PgWrite PgTrip PgStore PgMore.
Import ListNotations.
Local Open Scope string_scope.
Local Open Scope list_scope.

(** Without a forced boolean the DEFAULT is the same as without any forced type. *)
Lemma db_default_other : forall f forced t x s, dget tf_eqb forced (t, x) = Some s -> s <> "bool" -> s <> "boolean" ->
  db_default f forced t x = db_default f [] t x.
Proof.
  intros f forced t x s H A B. unfold db_default. rewrite H. cbn [dget].
  repeat match goal with
         | |- context [match ?y with EmptyString => _ | String _ _ => _ end] => is_var y; destruct y
         | |- context [match ?y with Ascii _ _ _ _ _ _ _ _ => _ end] => is_var y; destruct y
         | |- context [if ?b then _ else _] => is_var b; destruct b
         | |- ?l = ?l => reflexivity
         end; try reflexivity; contradiction.
Qed.

Lemma db_default_clause : forall f t x, default_clause f t x (Some (db_default f [] t x)).
Proof.
  intros f t x. unfold db_default. cbn [dget].
  destruct (cell_default (f_defaults f) t x) as [| | b | [| z |] | s | d] eqn:E.
  - now apply dc_none.
  - apply dc_bare. auto.
  - now apply dc_bool.
  - destruct (f_flag f) as [| | | [| m |] | |] eqn:F; try (apply dc_bare; left; exists NInf; repeat split; auto; congruence). now apply dc_ninf.
  - now apply dc_num.
  - destruct (f_flag f) as [| | | [| m |] | |] eqn:F; try (apply dc_bare; left; exists PInf; repeat split; auto; congruence). now apply dc_pinf.
  - destruct s as [| a s]; [now apply dc_empty |]. apply dc_text; auto. discriminate.
  - apply dc_bare. eauto.
Qed.

Section Defaults.
  Variable pg_text : value -> string.
  Variable pg_num : string -> option num.
  Variable pg_stamp : string -> option Z.
  Variable pg_bool : string -> option bool.
  Variable pg_int : Z -> option Z.
  Variable pg_float : Z -> Z.
  Variable pg_other : string -> value -> option value.

  Let write_schema := write_schema pg_text pg_num pg_stamp pg_bool pg_int pg_float pg_other.

  Theorem schema_defaults : forall f forced db db' t ts pt x c, decl_ok (f_decl f) = true -> fks_within (f_fks f) (map fst (plain_schema f)) ->
    write_schema f forced true db = Ret db' -> In (t, ts) (plain_schema f) -> dget String.eqb db' t = Some pt ->
    In x (tdf ts) -> In c (pt_cols pt) -> c_name c = pg_name x ->
    (forall s, dget tf_eqb forced (t, x) = Some "text" -> cell_default (f_defaults f) t x = VStr s -> default_clause f t x (c_default c)) /\
    (dget tf_eqb forced (t, x) = Some "bytea" -> c_default c = None) /\
    (forall dt, field_type f t x = Some dt -> datetime dt = true ->
       dget tf_eqb forced (t, x) <> Some "text" \/ (forall s, cell_default (f_defaults f) t x <> VStr s) -> c_default c = None) /\
    ((forall dt, field_type f t x = Some dt -> datetime dt = false) -> forall s, dget tf_eqb forced (t, x) = Some s ->
       (s = "bool" \/ s = "boolean" -> c_default c = Some (DBool (truthy (cell_default (f_defaults f) t x)))) /\
       (s <> "bool" -> s <> "boolean" -> s <> "bytea" -> default_clause f t x (c_default c))).
  Proof.
    intros f forced db db' t ts pt x c Hd Hw H Hin G Hx Hc Ec.
    apply schema_written in H as (Hn & Hf & Hg & stmts & -> & Em & Hfree & Hs & Ht); auto.
    destruct (Ht _ _ Hin) as (pt' & _ & G' & Hst). rewrite G in G'. injection G' as <-.
    assert (In x (tfields ts)) as Hx' by (unfold tfields; apply in_app_iff; auto).
    destruct (stmt_column f forced Hd t ts pt x Hn Hin Hst Hx') as (c' & _ & C1 & _ & _ & _ & C4 & _).
    rewrite (C1 _ Hc Ec) in *. destruct (data_column_name _ _ _ _ _ (C4 Hx)) as (_ & _ & D & _). rewrite D. clear - f. 
    split; [| split; [| split]].
    - intros s A B. unfold default_sql. rewrite A, B. cbn [String.eqb Ascii.eqb Bool.eqb andb stringish].
      rewrite (db_default_other f forced t x "text") by (auto; discriminate). apply db_default_clause.
    - intros A. unfold default_sql. rewrite A. cbn. now rewrite orb_true_r.
    - intros dt A B C. unfold default_sql. rewrite A, B. cbn [orb].
      destruct (match dget tf_eqb forced (t, x) with Some s' => String.eqb s' "text" | None => false end) eqn:E; auto.
      destruct (dget tf_eqb forced (t, x)) as [s' |]; [| discriminate]. apply String.eqb_eq in E. subst s'.
      destruct C as [C | C]; [now destruct C |]. destruct (cell_default (f_defaults f) t x) eqn:E'; cbn; auto. now destruct (C s).
    - intros A s B. unfold default_sql. rewrite B.
      assert (match field_type f t x with Some dt => datetime dt | None => false end = false) as -> by (destruct (field_type f t x); auto).
      cbn [orb]. split.
      + intros [-> | ->]; cbn; unfold db_default; now rewrite B.
      + intros C1 C2 C3. apply String.eqb_neq in C3. rewrite C3.
        rewrite (db_default_other f forced t x s) by auto. destruct (String.eqb s "text" && _); apply db_default_clause.
  Qed.
End Defaults.
