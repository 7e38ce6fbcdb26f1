(** * Access files: what a call of [write_file] leaves, whether it returns or not. *)
From Coq Require Import ZArith Bool List String Ascii Arith Lia Permutation.
From Verif Require Import PyVal PyValFacts PyDict PyDictFacts PyStr ListFacts TypeDict Data FindTypes FindTypesFacts FK Graph GraphFacts
  Obj ObjFacts ObjMore Factory FactoryFacts InfIO InfIOFacts Params Names NamesFacts Utils UtilsMore Ampl Json ObjRows JsonFacts TripFacts Sql SqlFacts
  Csv CsvMore Pg PgFacts PgWrite PgTrip FileDb FileDbFacts FileDbTrip FileDbWrite.
Import ListNotations.
Local Open Scope string_scope.
Local Open Scope list_scope.

Lemma set_set : forall dt a b, set_rows (set_rows dt a) b = set_rows dt b.
Proof. reflexivity. Qed.

Section Access.
  Variable store : string -> value -> option value.
  Variable key_free : list (list value) -> list value -> bool.
  Variable date_of : value -> option Z.
  Variable bare : string -> bool.
  Variable f : factory.

  Let mdb_cell := mdb_cell date_of f.
  Let mdb_rows := mdb_rows store key_free date_of f.
  Let mdb_tables := mdb_tables store key_free date_of bare f.

  Lemma mdb_row_spec : forall t ts r given, mdb_row date_of f t ts r = Ret given ->
    Forall2 (fun fx g => fst g = fst fx /\ mdb_cell t ts (fst fx) (snd fx) = Ret (snd g)) (combine (tfields ts) r) given.
  Proof.
    intros t ts r given H. unfold mdb_row in H. apply mapO_Forall2 in H. eapply Forall2_imp; [| exact H]. cbn beta. intros [x v] [y w] _ E.
    apply bindO_ret in E as (w' & E & E'). injection E' as <- <-. auto.
  Qed.

  Lemma mdb_rows_spec : forall t ts dt rows old c w ok c' w', (forall r, In r rows -> List.length r = List.length (tfields ts)) ->
    mdb_rows t ts rows (c, w) = (ok, (c', w')) -> find_table w t = Some (set_rows dt old) ->
    exists k new, k <= List.length rows /\ Forall2 (row_as store (mdb_cell t ts) ts dt) (firstn k rows) new /\
      (forall n, find_table w' n = if same_name t n then Some (set_rows dt (old ++ new)) else find_table w n) /\
      (ok = true -> k = List.length rows) /\ (ok = false -> k < List.length rows) /\ (k = 0 -> w' = w) /\
      (tpk ts = [] -> c' = c) /\ (tpk ts <> [] -> (k = 0 -> c' = c) /\ (0 < k -> c' = w')).
  Proof.
    assert (forall t ts dt rows old (c w c' w' : filedb) (ok : bool), find_table w t = Some (set_rows dt old) -> c' = c -> w' = w ->
              (ok = true -> 0 = List.length rows) -> (ok = false -> 0 < List.length rows) ->
              exists k new, k <= List.length rows /\ Forall2 (row_as store (mdb_cell t ts) ts dt) (firstn k rows) new /\
                (forall n, find_table w' n = if same_name t n then Some (set_rows dt (old ++ new)) else find_table w n) /\
                (ok = true -> k = List.length rows) /\ (ok = false -> k < List.length rows) /\ (k = 0 -> w' = w) /\
                (tpk ts = [] -> c' = c) /\ (tpk ts <> [] -> (k = 0 -> c' = c) /\ (0 < k -> c' = w'))) as Hstop.
    { intros t ts dt rows old c w c' w' ok F -> -> H1 H2. exists 0, []. split; [lia |]. split; [constructor |]. split.
      - intros n. destruct (same_name t n) eqn:S; auto. now rewrite app_nil_r, <- (find_cong w _ _ S).
      - split; auto. split; auto. split; auto. split; auto. intros _. split; [auto | lia]. }
    intros t ts dt. induction rows as [| r rows IH]; intros old c w ok c' w' L H F; unfold mdb_rows in H; cbn [FileDb.mdb_rows] in H.
    - injection H as <- <- <-. apply Hstop; auto. discriminate.
    - cbn [fst snd] in H. destruct (mdb_row date_of f t ts r) as [given |] eqn:Hg; [| injection H as <- <- <-; apply Hstop; auto; [discriminate | simpl; lia]].
      destruct (db_insert store key_free w t given) as [db |] eqn:Hi; [| injection H as <- <- <-; apply Hstop; auto; [discriminate | simpl; lia]].
      apply insert_spec in Hi as (dt' & s & F' & N & G). rewrite F in F'. injection F' as <-. cbn [dt_cols dt_rows set_rows] in N, G.
      apply (IH (old ++ [s])) in H as (k & new & K1 & K2 & K3 & K4 & K5 & K6 & K7 & K8).
      2: { intros; apply L; simpl; auto. }
      2: { rewrite G, same_refl. reflexivity. }
      exists (S k), (s :: new). split; [simpl; lia |]. split.
      { cbn [firstn]. constructor; auto. eapply row_as_new; [apply L; simpl; auto | apply mdb_row_spec; exact Hg | exact N]. }
      split.
      { intros n. rewrite K3, G. destruct (same_name t n); auto. now rewrite <- app_assoc. }
      split; [intros E; specialize (K4 E); simpl; lia |]. split; [intros E; specialize (K5 E); simpl; lia |]. split; [discriminate |]. split.
      { intros E. rewrite K7 by auto. now rewrite E. }
      intros E. split; [discriminate |]. intros _. destruct (K8 E) as [K9 K10]. destruct k as [| k]; [| apply K10; lia].
      rewrite (K9 eq_refl), (K6 eq_refl). now destruct (tpk ts).
  Qed.

  (** ** All tables *)

  Definition complete (d : obj) (db now : filedb) (u : string) (us : tschema) : Prop := exists dt rows, find_table db u = Some dt /\
    find_table now u = Some (set_rows dt rows) /\ Forall2 (row_as store (mdb_cell u us) us dt) (full_rows (d u)) rows.

  (** The first [k] rows of the object, and no other row. *)
  Definition partly (k : nat) (d : obj) (db now : filedb) (u : string) (us : tschema) : Prop := exists dt rows, find_table db u = Some dt /\
    find_table now u = Some (set_rows dt rows) /\ Forall2 (row_as store (mdb_cell u us) us dt) (firstn k (full_rows (d u))) rows.

  Lemma complete_partly : forall d db now u us, complete d db now u us -> partly (List.length (full_rows (d u))) d db now u us.
  Proof. intros d db now u us (dt & rows & A & B & C). exists dt, rows. now rewrite firstn_all. Qed.

  Definition ts_for (t : string) : tschema := ts_of (plain_schema f) t.

  (** The tables before the one at which a call stopped. *)
  Definition passed (allow : bool) (d : obj) (db now : filedb) (u : string) : Prop :=
    (complete d db now u (ts_for u) \/ tpk (ts_for u) = [] /\ partly 0 d db now u (ts_for u)) /\
    (allow = false -> is_empty db u = true).

  Definition stopped_at (allow : bool) (d : obj) (db now : filedb) (t : string) : Prop :=
    find_table now t = find_table db t \/
    (allow = false -> is_empty db t = true) /\
    exists k, k < List.length (full_rows (d t)) /\ (tpk (ts_for t) = [] -> k = 0) /\ partly k d db now t (ts_for t).

  Definition stopped (allow : bool) (d : obj) (order : list string) (db now : filedb) : Prop :=
    exists front t back, order = front ++ t :: back /\ (forall u, In u front -> passed allow d db now u) /\ stopped_at allow d db now t /\
      forall n, (forall u, In u (front ++ [t]) -> lower u <> lower n) -> find_table now n = find_table db n.

  Definition inv (allow : bool) (d : obj) (db : filedb) (front : list string) (st : filedb * filedb) : Prop :=
    (forall u, In u front -> passed allow d db (fst st) u /\ complete d db (snd st) u (ts_for u)) /\
    forall n, (forall u, In u front -> lower u <> lower n) -> find_table (fst st) n = find_table db n /\ find_table (snd st) n = find_table db n.

  Lemma is_empty_ext : forall a b t, find_table a t = find_table b t -> is_empty a t = is_empty b t.
  Proof. intros a b t E. unfold is_empty. now rewrite E. Qed.

  Lemma complete_ext : forall d db a b u us, find_table a u = find_table b u -> complete d db a u us -> complete d db b u us.
  Proof. intros d db a b u us E (dt & rows & A & B & C). exists dt, rows. rewrite <- E. auto. Qed.

  Lemma passed_ext : forall allow d db a b u, find_table a u = find_table b u -> passed allow d db a u -> passed allow d db b u.
  Proof.
    intros allow d db a b u E [[H | [H1 (dt & rows & A & B & C)]] H2]; split; auto; [left; eapply complete_ext; eauto |].
    right. split; auto. exists dt, rows. rewrite <- E. auto.
  Qed.

  Lemma mdb_tables_spec : forall allow names d db, obj_ok (plain_schema f) d -> decl_ok (f_decl f) = true ->
    (forall t, dget String.eqb names t = Some t -> exists dt, find_table db t = Some dt) ->
    forall back front st, NoDup (map lower (front ++ back)) -> (forall u, In u (front ++ back) -> In u (map fst (plain_schema f))) ->
    inv allow d db front st ->
    (exists st', mdb_tables allow names d back st = (true, st') /\ inv allow d db (front ++ back) st') \/
    exists c w, mdb_tables allow names d back st = (false, (c, w)) /\ stopped allow d (front ++ back) db c.
  Proof.
    intros allow names d db Hok Hd Hnames. induction back as [| t back IH]; intros front [c w] Hn Hsub [I1 I2]; unfold mdb_tables; cbn [FileDb.mdb_tables].
    - left. exists (c, w). rewrite app_nil_r. split; auto. split; auto.
    - cbn [fst snd] in *.
      assert (forall u, In u front -> same_name t u = false /\ same_name u t = false) as Hdiff.
      { intros u Hu. rewrite same_sym. assert (same_name u t = false) as ->; auto. apply same_neq. intros E. rewrite map_app in Hn.
        eapply NoDup_app_disj in Hn; [apply Hn | apply in_map; exact Hu |]. rewrite E. simpl. auto. }
      assert (forall u, In u front -> lower u <> lower t) as Hdiff' by (intros u Hu; apply same_neq; now apply Hdiff).
      destruct (I2 t Hdiff') as [Ic Iw].
      destruct (_ && bare t && _) eqn:G.
      2: { right. exists c, w. split; auto. exists front, t, back. split; auto. split; [intros u Hu; now apply I1 |]. split; [left; auto |].
           intros n Hno. apply I2. intros u Hu. apply Hno. apply in_app_iff. auto. }
      apply andb_true_iff in G as [G Ge]. apply andb_true_iff in G as [G _].
      destruct (dget String.eqb names t) as [n |] eqn:D; [| discriminate]. apply String.eqb_eq in G. subst n.
      destruct (Hnames t D) as (dt & Fdb). rewrite Fdb in Ic, Iw.
      assert (In t (map fst (plain_schema f))) as Ht. { apply Hsub. apply in_app_iff. simpl. auto. }
      apply in_map_iff in Ht as ([t' ts] & E & Hin). cbn [fst] in E. subst t'.
      assert (ts_of (plain_schema f) t = ts) as Ets by (now apply ts_of_In; [apply plain_wf |]).
      assert (allow = false -> dt_rows dt = []) as Hempty.
      { intros ->. cbn [orb] in Ge. now apply (is_empty_spec w t dt). }
      assert (allow = false -> is_empty db t = true) as Hempty'.
      { intros Ea. unfold is_empty. rewrite Fdb, (Hempty Ea). reflexivity. }
      set (st1 := if allow then (clear_table w t, clear_table w t) else (c, w)).
      assert (exists c1 w1, st1 = (c1, w1) /\ find_table c1 t = Some (set_rows dt []) /\ find_table w1 t = Some (set_rows dt []) /\
                (forall u, In u front -> passed allow d db c1 u /\ complete d db w1 u (ts_for u)) /\
                forall n, (forall u, In u (front ++ [t]) -> lower u <> lower n) -> find_table c1 n = find_table db n /\ find_table w1 n = find_table db n)
        as (c1 & w1 & E1 & C1 & W1 & P1 & Q1).
      { unfold st1. destruct allow.
        - exists (clear_table w t), (clear_table w t). split; auto. rewrite clear_spec, same_refl, Iw. cbn [option_map]. split; auto. split; auto. split.
          + intros u Hu. destruct (I1 u Hu) as [[_ A] B].
            assert (find_table w u = find_table (clear_table w t) u) as E. { rewrite clear_spec. now rewrite (proj1 (Hdiff u Hu)). }
            pose proof (complete_ext _ _ _ _ _ _ E B) as B'. split; auto. split; auto.
          + intros n Hno. rewrite clear_spec. assert (same_name t n = false) as ->. { apply same_neq. apply Hno. apply in_app_iff. simpl. auto. }
            assert (find_table w n = find_table db n) as ->; auto. apply I2. intros u Hu. apply Hno. apply in_app_iff. auto.
        - exists c, w. split; auto. specialize (Hempty eq_refl). rewrite Ic, Iw. rewrite <- Hempty, set_own. split; auto. split; auto. split; auto.
          intros n Hno. apply I2. intros u Hu. apply Hno. apply in_app_iff. auto. }
      rewrite E1. clear st1 E1. rewrite Ets.
      assert (forall r, In r (full_rows (d t)) -> List.length r = List.length (tfields ts)) as Lr by (intros r; apply full_length; now apply Hok).
      fold mdb_rows mdb_tables. destruct (mdb_rows t ts (full_rows (d t)) (c1, w1)) as [ok [c2 w2]] eqn:Er.
      destruct (mdb_rows_spec t ts dt _ [] _ _ _ _ _ Lr Er W1) as (k & new & K1 & K2 & K3 & K4 & K5 & K6 & K7 & K8). cbn [app] in K3.
      (* the committed state *)
      assert (tpk ts = [] /\ c2 = c1 \/ tpk ts <> [] /\ (k = 0 /\ c2 = c1 \/ 0 < k /\ c2 = w2)) as Hc2.
      { destruct (tpk ts) as [| p pk]; [left; auto |]. right. split; [discriminate |]. destruct (K8 ltac:(discriminate)) as [K9 K10].
        destruct k; [left; auto | right; split; [lia | apply K10; lia]]. }
      assert (forall u, In u front -> find_table w2 u = find_table w1 u) as Hfw. { intros u Hu. rewrite K3. now rewrite (proj1 (Hdiff u Hu)). }
      assert (forall u, In u front -> passed allow d db c2 u /\ complete d db w2 u (ts_for u)) as P2.
      { intros u Hu. destruct (P1 u Hu) as [A B].
        assert (complete d db w2 u (ts_for u)) as B' by (eapply complete_ext; [symmetry; now apply Hfw | exact B]).
        split; auto. destruct Hc2 as [[_ ->] | [_ [[_ ->] | [_ ->]]]]; auto. split; [left; exact B' | apply A]. }
      assert (forall n, (forall u, In u (front ++ [t]) -> lower u <> lower n) -> find_table c2 n = find_table db n /\ find_table w2 n = find_table db n) as Q2.
      { intros n Hno. destruct (Q1 n Hno) as [A B].
        assert (find_table w2 n = find_table db n) as B'.
        { rewrite K3. assert (same_name t n = false) as ->; auto. apply same_neq. apply Hno. apply in_app_iff. simpl. auto. }
        split; auto. destruct Hc2 as [[_ ->] | [_ [[_ ->] | [_ ->]]]]; auto. }
      assert (exists k', k' <= k /\ (tpk ts = [] -> k' = 0) /\ (tpk ts <> [] -> k' = k) /\ partly k' d db c2 t ts) as (k' & Hk' & Hk0 & Hk1 & Hpart).
      { destruct Hc2 as [[E ->] | [E [[Ek ->] | [Ek ->]]]].
        - exists 0. split; [lia |]. split; auto. split; [contradiction |]. exists dt, []. split; auto. split; auto. constructor.
        - exists 0. split; [lia |]. split; auto. split; [auto |]. exists dt, []. split; auto. split; auto. constructor.
        - exists k. split; [lia |]. split; [contradiction |]. split; auto. exists dt, new. split; auto. split; auto. rewrite K3, same_refl. reflexivity. }
      destruct ok.
      + specialize (K4 eq_refl). destruct (IH (front ++ [t]) (c2, w2)) as [(st' & A & B) | (c' & w' & A & B)].
        * rewrite <- app_assoc. exact Hn.
        * rewrite <- app_assoc. exact Hsub.
        * split; [| exact Q2]. cbn [fst snd]. intros u Hu. apply in_app_iff in Hu as [Hu | [<- | []]]; [now apply P2 |].
          assert (complete d db w2 t ts) as Hcomp.
          { exists dt, new. split; auto. split; [rewrite K3, same_refl; reflexivity |]. rewrite <- (firstn_all (full_rows (d t))), <- K4. exact K2. }
          unfold ts_for at 1. rewrite Ets. split; auto. split; auto. unfold ts_for. rewrite Ets.
          destruct (tpk ts) as [| p pk] eqn:Ep; [right; split; auto; rewrite <- (Hk0 eq_refl); exact Hpart |].
          left. specialize (Hk1 ltac:(discriminate)). subst k'. destruct Hpart as (dt' & rows & A & B & C). exists dt', rows.
          rewrite K4, firstn_all in C. auto.
        * left. exists st'. split; auto. now rewrite <- app_assoc in B.
        * right. exists c', w'. split; auto. now rewrite <- app_assoc in B.
      + specialize (K5 eq_refl). right. exists c2, w2. split; auto. exists front, t, back. split; auto. split; [intros u Hu; now apply P2 |]. split.
        * right. split; auto. exists k'. split; [lia |]. unfold ts_for. rewrite Ets. auto.
        * intros n Hno. now apply Q2.
  Qed.

  Lemma mdb_tables_names : forall allow names d order st st', mdb_tables allow names d order st = (true, st') ->
    forall t, In t order -> dget String.eqb names t = Some t /\ bare t = true.
  Proof.
    intros allow names d. induction order as [| u order IH]; intros st st' H t Ht; [contradiction |]. unfold mdb_tables in H. cbn [FileDb.mdb_tables] in H.
    destruct (_ && bare u && _) eqn:G; [| discriminate]. apply andb_true_iff in G as [G _]. apply andb_true_iff in G as [G Gb].
    destruct (dget String.eqb names u) as [n |] eqn:D; [| discriminate]. apply String.eqb_eq in G. subst n.
    destruct (FileDb.mdb_rows _ _ _ _ _ _ _ _) as [[|] st2]; [| discriminate]. destruct Ht as [<- | Ht]; auto. eapply IH; eauto.
  Qed.

  Variable can_create : bool.
  Let mdb_write := mdb_write_file store key_free date_of bare can_create f.

  Lemma names_tables : forall db names t, decl_ok (f_decl f) = true -> check_fields f db = Ret names -> dget String.eqb names t = Some t ->
    exists dt, find_table db t = Some dt.
  Proof.
    intros db names t Hd Hc D. unfold check_fields in Hc. apply bindO_ret in Hc as (names' & H & E). destruct (forallb _ names') eqn:F; [| discriminate]. injection E as ->.
    rewrite forallb_forall in F. apply dget_In in D as (t' & E & D). apply String.eqb_eq in E. subst t'. specialize (F _ D). cbn [fst snd] in F.
    destruct (find_table db t) as [dt |]; [eauto | discriminate].
  Qed.

  Lemma start : forall allow d db, inv allow d db [] (db, db).
  Proof. intros allow d db. split; [intros ? [] | auto]. Qed.

  (** A call that returns. *)
  Theorem mdb_written : forall allow order d db p, decl_ok (f_decl f) = true -> obj_ok (plain_schema f) d -> Permutation order (map fst (plain_schema f)) ->
    mdb_write allow order d (Some db) = (true, p) ->
    exists db', p = Some db' /\ all_found f db /\ holds_object store f (FileDb.mdb_cell date_of f) d db db' /\
      (allow = false -> forall t ts dt, In (t, ts) (plain_schema f) -> find_table db t = Some dt -> dt_rows dt = []).
  Proof.
    intros allow order d db p Hd Hok P H. unfold mdb_write, mdb_write_file in H. destruct (negb (no_generics f)); [discriminate |].
    destruct (check_fields f db) as [names |] eqn:Ec; [| discriminate]. fold mdb_tables in H. destruct (mdb_tables allow names d order (db, db)) as [[|] st] eqn:Et; [| discriminate].
    injection H as <-. pose proof (mdb_tables_names _ _ _ _ _ _ Et) as Hnames.
    assert (forall t ts, In (t, ts) (plain_schema f) -> In t order) as Hin'.
    { intros t ts Hin. eapply Permutation_in; [symmetry; exact P |]. now apply (in_map fst) in Hin. }
    destruct (mdb_tables_spec allow names d db Hok Hd (fun t => names_tables db names t Hd Ec) order [] (db, db)) as [(st' & A & B1 & B2) | (c & w & A & _)].
    - eapply Permutation_NoDup; [apply Permutation_map; symmetry; exact P |]. apply (plain_legal f Hd).
    - intros u Hu. eapply Permutation_in; eauto.
    - apply start.
    - rewrite Et in A. injection A as ->. cbn [app] in *. exists (snd st'). split; auto.
      assert (forall t ts, In (t, ts) (plain_schema f) -> ts_for t = ts) as Ets. { intros t ts Hin. apply ts_of_In; auto. now apply plain_wf. }
      split; [| split; [split |]].
      + intros t ts Hin. destruct (check_fields_spec _ _ _ Hd Ec _ _ Hin) as (o & G & D & C). destruct (Hnames t (Hin' _ _ Hin)) as [D' _].
        rewrite D' in D. subst o. split; auto.
      + intros t ts Hin. destruct (B1 t (Hin' _ _ Hin)) as [_ (dt & rows & X & Y & Z)]. rewrite (Ets _ _ Hin) in Z. exists dt, rows. auto.
      + intros n Hno. apply B2. intros u Hu. apply Hno. eapply Permutation_in; eauto.
      + intros Ea t ts dt Hin F. destruct (B1 t (Hin' _ _ Hin)) as [[_ X] _]. apply (is_empty_spec db t dt); auto.
    - rewrite Et in A. discriminate.
  Qed.

  (** A call that raises. *)
  Theorem mdb_failed : forall allow order d db p, decl_ok (f_decl f) = true -> obj_ok (plain_schema f) d -> Permutation order (map fst (plain_schema f)) ->
    mdb_write allow order d (Some db) = (false, p) ->
    exists now, p = Some now /\ (now = db \/ stopped allow d order db now).
  Proof.
    intros allow order d db p Hd Hok P H. unfold mdb_write, mdb_write_file in H. destruct (negb (no_generics f)); [injection H as <-; eauto |].
    destruct (check_fields f db) as [names |] eqn:Ec; [| injection H as <-; eauto]. fold mdb_tables in H.
    destruct (mdb_tables_spec allow names d db Hok Hd (fun t => names_tables db names t Hd Ec) order [] (db, db)) as [(st' & A & B1) | (c & w & A & B)].
    - eapply Permutation_NoDup; [apply Permutation_map; symmetry; exact P |]. apply (plain_legal f Hd).
    - intros u Hu. eapply Permutation_in; eauto.
    - apply start.
    - rewrite A in H. discriminate.
    - rewrite A in H. injection H as <-. cbn [app fst] in *. eauto.
  Qed.

  (** Refusals. *)
  Theorem mdb_refuses : forall order d db t ts dt, decl_ok (f_decl f) = true -> obj_ok (plain_schema f) d -> Permutation order (map fst (plain_schema f)) ->
    In (t, ts) (plain_schema f) -> find_table db t = Some dt -> dt_rows dt <> [] ->
    exists p, mdb_write false order d (Some db) = (false, p).
  Proof.
    intros order d db t ts dt Hd Hok P Hin F Hr. destruct (mdb_write false order d (Some db)) as [[|] p] eqn:E; [| eauto].
    exfalso. apply mdb_written in E as (db' & _ & _ & _ & H); auto. apply Hr. eapply H; eauto.
  Qed.

  (** ** New files *)

  Lemma mdb_cols : forall types t ts, map dc_name (dt_cols (mdb_table f types t ts)) = tfields ts.
  Proof. intros types t ts. unfold mdb_table. cbn [dt_cols]. rewrite map_app, !map_map. cbn [dc_name]. now rewrite !map_id. Qed.

  Theorem mdb_new_file : forall types order, decl_ok (f_decl f) = true -> no_generics f = true -> mdb_types_ok f types = true ->
    Permutation order (map fst (plain_schema f)) ->
    (can_create = false -> mdb_write_schema can_create f types order None = (false, None)) /\
    (can_create = true -> exists db, mdb_write_schema can_create f types order None = (true, Some db) /\ all_found f db /\ file_wf db /\
      (forall t ts, In (t, ts) (plain_schema f) -> find_table db t = Some (mdb_table f types t ts)) /\
      (forall n, (forall t, In t (map fst (plain_schema f)) -> lower t <> lower n) -> find_table db n = None)).
  Proof.
    intros types order Hd Hg Ht P. unfold mdb_write_schema. rewrite Hg, Ht. cbn [andb]. split; intros ->; auto.
    destruct (made_spec (mdb_table f types) f order Hd P (mdb_cols types)) as (A & B & C & D & E).
    fold (made (mdb_table f types) f order). rewrite A by auto. exists (made (mdb_table f types) f order). auto.
  Qed.

  Theorem mdb_write_new : forall allow order d, no_generics f = true ->
    forall db, mdb_write_schema can_create f [] order None = (true, Some db) -> mdb_write allow order d None = mdb_write allow order d (Some db).
  Proof. intros allow order d Hg db H. unfold mdb_write, mdb_write_file. rewrite Hg. cbn [negb]. now rewrite H. Qed.

  (** ** Calls that return *)

  Lemma mdb_rows_ok : forall t ts dt, NoDup (map lower (tfields ts)) -> NoDup (map (fun c => lower (dc_name c)) (dt_cols dt)) ->
    (forall x, In x (tfields ts) -> has_col dt x = true) ->
    forall full new rows c w, (forall r, In r full -> List.length r = List.length (tfields ts)) ->
    find_table w t = Some (set_rows dt rows) -> Forall2 (row_as store (mdb_cell t ts) ts dt) full new -> keys_ok key_free dt (rows ++ new) ->
    exists c' w', mdb_rows t ts full (c, w) = (true, (c', w')) /\
      forall n, find_table w' n = if same_name t n then Some (set_rows dt (rows ++ new)) else find_table w n.
  Proof.
    intros t ts dt Hf Hn Hc. induction full as [| r full IH]; intros new rows c w L F R K; inversion R as [| ? s ? new' R1 R2]; subst; unfold mdb_rows; cbn [FileDb.mdb_rows].
    - exists c, w. split; auto. intros n. rewrite app_nil_r. destruct (same_name t n) eqn:S; auto. now rewrite <- (find_cong w _ _ S).
    - assert (List.length r = List.length (tfields ts)) as Lr by (apply L; simpl; auto).
      destruct (given_exists store (mdb_cell t ts) ts dt r s Lr Hf Hn Hc R1) as (given & G).
      assert (mdb_row date_of f t ts r = Ret given) as ->.
      { unfold mdb_row. apply mapO_Forall2. eapply Forall2_imp; [| exact G]. cbn beta. intros [x v] [y z] _ [E1 E2]. cbn [fst snd] in *.
        fold mdb_cell. rewrite E2. cbn [bindO]. now subst. }
      pose proof (given_names _ _ _ _ Lr G) as Gn.
      destruct (insert_ok store key_free w t dt dt rows given s F eq_refl) as (db1 & E & N).
      + now rewrite Gn.
      + intros x. rewrite Gn. auto.
      + eapply new_row_as; eauto.
      + apply (K rows s new'). reflexivity.
      + cbn [snd fst]. rewrite E. fold mdb_rows.
        destruct (IH new' (rows ++ [s]) (match tpk ts with [] => c | _ => db1 end) db1) as (c2 & w2 & E2 & N2); auto.
        * intros; apply L; simpl; auto.
        * rewrite N, same_refl. reflexivity.
        * rewrite <- app_assoc. exact K.
        * exists c2, w2. split; auto. intros n. rewrite N2, N. destruct (same_name t n); auto. now rewrite <- app_assoc.
  Qed.

  Theorem mdb_succeeds : forall allow order d db new, decl_ok (f_decl f) = true -> no_generics f = true -> file_wf db -> obj_ok (plain_schema f) d -> all_found f db ->
    Permutation order (map fst (plain_schema f)) -> (forall t, In t order -> bare t = true) ->
    (allow = false -> forall t ts dt, In (t, ts) (plain_schema f) -> find_table db t = Some dt -> dt_rows dt = []) ->
    (forall t ts dt, In (t, ts) (plain_schema f) -> find_table db t = Some dt ->
       Forall2 (row_as store (mdb_cell t ts) ts dt) (full_rows (d t)) (new t) /\ keys_ok key_free dt (new t)) ->
    exists db', mdb_write allow order d (Some db) = (true, Some db').
  Proof.
    intros allow order d db new Hd Hg Hwfd Hok Hfound P Hbare Hempty Hrows. pose proof (plain_wf f Hd) as Hwf. unfold mdb_write, mdb_write_file. rewrite Hg. cbn [negb].
    destruct (check_found f db Hd Hfound) as (names & -> & Hnames). fold mdb_tables.
    assert (forall order c w, NoDup (map lower order) -> (forall u, In u order -> In u (map fst (plain_schema f)) /\ bare u = true) ->
              (forall u, In u order -> find_table w u = find_table db u) -> exists st, mdb_tables allow names d order (c, w) = (true, st)) as H.
    { clear P Hbare order. induction order as [| t order IH]; intros c w Hn Hsub Hsame; unfold mdb_tables; cbn [FileDb.mdb_tables]; [eauto |].
      cbn [map] in Hn. apply NoDup_cons_iff in Hn as [N1 N2]. destruct (Hsub t) as [Ht Hb]; [simpl; auto |]. rewrite Hnames, Hb by auto. rewrite String.eqb_refl. cbn [andb snd].
      apply in_map_iff in Ht as ([t' ts] & E & Hin). cbn [fst] in E. subst t'. destruct (Hfound _ _ Hin) as (_ & dt & F & Hc).
      pose proof (Hsame t (or_introl eq_refl)) as Fw. rewrite F in Fw.
      assert (allow || is_empty w t = true) as ->. { destruct allow; auto. unfold is_empty. rewrite Fw, (Hempty eq_refl t ts dt) by auto. reflexivity. }
      rewrite (ts_of_In _ _ _ Hwf Hin). fold mdb_rows.
      assert (exists c1 w1, (if allow then (clear_table w t, clear_table w t) else (c, w)) = (c1, w1) /\ find_table w1 t = Some (set_rows dt []) /\
                forall u, same_name t u = false -> find_table w1 u = find_table w u) as (c1 & w1 & -> & F1 & O1).
      { destruct allow.
        - exists (clear_table w t), (clear_table w t). split; auto. rewrite clear_spec, same_refl, Fw. split; auto. intros u Hu. rewrite clear_spec. now rewrite Hu.
        - exists c, w. split; auto. split; auto. rewrite Fw. f_equal. rewrite <- (Hempty eq_refl t ts dt) by auto. symmetry. apply set_own. }
      destruct (Hrows _ _ _ Hin F) as [R K].
      assert (forall r, In r (full_rows (d t)) -> List.length r = List.length (tfields ts)) as Lr by (intros r; apply full_length; now apply Hok).
      destruct (mdb_rows_ok t ts dt (proj2 (plain_fields f t ts Hd Hin)) (Hwfd _ _ F) Hc (full_rows (d t)) (new t) [] c1 w1 Lr F1 R K) as (c2 & w2 & -> & G2).
      apply IH; auto.
      - intros u Hu. apply Hsub. simpl. auto.
      - intros u Hu. rewrite G2. assert (same_name t u = false) as S. { apply same_neq. intros E. apply N1. rewrite E. now apply in_map. }
        rewrite S, O1 by auto. apply Hsame. simpl. auto. }
    destruct (H order db db) as (st & ->); eauto.
    - eapply Permutation_NoDup; [apply Permutation_map; symmetry; exact P |]. apply (plain_legal f Hd).
    - intros u Hu. split; auto. eapply Permutation_in; eauto.
  Qed.
End Access.
