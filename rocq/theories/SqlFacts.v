(** * SQLite databases: round trip lemmas. *)
From Coq Require Import ZArith Bool List String Ascii Arith Lia Permutation.
From Verif Require Import PyVal PyValFacts PyDict PyDictFacts PyStr ListFacts Data FindTypes FindTypesFacts FK Obj ObjFacts ObjMore
  Factory FactoryFacts InfIO InfIOFacts Params Names NamesFacts Utils UtilsMore Ampl Json ObjRows JsonFacts TripFacts Sql.
Import ListNotations.
Local Open Scope string_scope.
Local Open Scope list_scope.

Section Db.
  Variable date_of : value -> option Z.
  Variable float_of : value -> option value.
  Variable show_date : Z -> text.
  Variable sql_number : string -> option num.
  Variable f : factory.

  Let W := write_data_cell date_of f.
  Let S := stored show_date sql_number f.
  Let R := read_data_cell date_of float_of f.

  (** A cell is converted in tables with a primary key only, bound, stored and
      read. *)
  Definition db_trip (t : string) (ts : tschema) (x : string) (v w : value) : Prop :=
    exists u, match tpk ts with [] => u = v | _ => W t x v = Ret u end /\ R t x (S t ts x u) = Ret w.

  Definition store_row (t : string) (ts : tschema) (r : list value) : list value :=
    map (fun fx => S t ts (fst fx) (snd fx)) (combine (tfields ts) r).
  Definition read_row (t : string) (ts : tschema) (r : list value) : outcome (list value) :=
    mapO (fun fx => R t (fst fx) (snd fx)) (combine (tfields ts) r).

  Lemma row_out : forall t ts r r', tpk ts <> [] -> List.length r = List.length (tfields ts) ->
    Forall2 (fun fx v' => db_trip t ts (fst fx) (snd fx) v') (combine (tfields ts) r) r' ->
    exists u, mapO (fun fx => W t (fst fx) (snd fx)) (combine (tfields ts) r) = Ret u /\ read_row t ts (store_row t ts u) = Ret r'.
  Proof.
    intros t ts r r' Hk. unfold read_row, store_row. generalize (tfields ts) at 1 2 3 4 5 as fields. intros fields. revert r r'.
    induction fields as [| x fields IH]; intros [| v r] r' L H; try discriminate; simpl in *.
    - inversion H; subst. exists []. auto.
    - injection L as L. inversion H as [| ? v' ? r1 (u & A & B) Hr]; subst. destruct (IH _ _ L Hr) as (us & C & D).
      destruct (tpk ts) eqn:E; [contradiction |]. cbn [fst snd] in *. rewrite A, C. exists (u :: us). split; auto.
      simpl. rewrite B, D. reflexivity.
  Qed.

  Lemma row_raw : forall t ts r r', tpk ts = [] -> List.length r = List.length (tfields ts) ->
    Forall2 (fun fx v' => db_trip t ts (fst fx) (snd fx) v') (combine (tfields ts) r) r' ->
    read_row t ts (store_row t ts r) = Ret r'.
  Proof.
    intros t ts r r' Hk. unfold read_row, store_row. generalize (tfields ts) at 1 2 3 4 as fields. intros fields. revert r r'.
    induction fields as [| x fields IH]; intros [| v r] r' L H; try discriminate; simpl in *.
    - inversion H; subst. auto.
    - injection L as L. inversion H as [| ? v' ? r1 (u & A & B) Hr]; subst. rewrite Hk in A. subst u. cbn [fst snd] in *.
      rewrite B, (IH _ _ L Hr). reflexivity.
  Qed.

  (** The rows stored in a table. *)
  Lemma table_out : forall t ts tb tb1, table_ok ts tb ->
    Forall2 (fun r r' => Forall2 (fun fx v' => db_trip t ts (fst fx) (snd fx) v') (combine (tfields ts) r) r')
      (full_rows tb) (full_rows tb1) ->
    exists us, out_rows date_of f t ts tb = Ret us /\
      mapO (read_row t ts) (map (store_row t ts) us) = Ret (full_rows tb1).
  Proof.
    intros t ts tb tb1 Hok H. pose proof (fun r => full_length ts tb r Hok) as L. unfold out_rows. destruct tb as [l | l].
    - assert (tpk ts <> []) as Hk by (unfold table_ok in Hok; destruct (tpk ts); [contradiction | discriminate]).
      revert H L. generalize (full_rows (OKeyed l)) as a, (full_rows tb1) as b. intros a b H L. induction H as [| r r' a b Hr H IH].
      + exists []. auto.
      + destruct IH as (us & A & B). { intros; apply L; simpl; auto. }
        destruct (row_out t ts r r') as (u & C & D); auto. { apply L. simpl. auto. }
        exists (u :: us). fold W in A |- *. cbn [mapO map]. rewrite A, B, C, D. auto.
    - assert (tpk ts = []) as Hk by (unfold table_ok in Hok; destruct (tpk ts); [auto | contradiction]).
      exists l. split; auto. change (full_rows (OListed l)) with l in *. clear Hok. revert H L. generalize (full_rows tb1) as b. intros b H L.
      induction H as [| r r' a b Hr H IH]; auto. cbn [map mapO].
      rewrite (row_raw t ts r r'); auto; [| apply L; simpl; auto]. rewrite IH; auto. intros; apply L; simpl; auto.
  Qed.

  Lemma mapO_firstn {A B} (g : A -> outcome B) : forall n l r, mapO g l = Ret r -> mapO g (firstn n l) = Ret (firstn n r).
  Proof.
    intros n l r H. apply mapO_Forall2 in H. apply mapO_Forall2. revert n. induction H as [| x y l r Hxy _ IH]; intros [| n]; simpl; constructor; auto.
  Qed.

  Lemma combine_firstn_r {A B} : forall n (l : list A) (m : list B), firstn n (combine l m) = combine (firstn n l) (firstn n m).
  Proof. induction n as [| n IH]; intros [| x l] [| y m]; simpl; auto. f_equal; auto. Qed.

  (** Distinct keys are stored as distinct keys. *)
  Lemma stored_unique : forall t ts rows rs, mapO (read_row t ts) rows = Ret rs ->
    NoDup (map (firstn (List.length (tpk ts))) rs) -> keys_unique (List.length (tpk ts)) rows = true.
  Proof.
    intros t ts rows rs H. apply mapO_Forall2 in H. set (n := List.length (tpk ts)).
    induction H as [| r s rows rs Hr H IH]; intros Hn; [reflexivity |]. simpl in Hn |- *. inversion Hn as [| ? ? Hx Hd]; subst.
    rewrite IH by auto. rewrite andb_true_r. apply orb_true_iff. right. apply forallb_forall. intros r' Hr'.
    apply negb_true_iff. apply not_true_is_false. intros E. apply (list_eqb_eq value_eqb value_eqb_eq) in E. apply Hx.
    destruct (Forall2_In_l _ _ _ _ H Hr') as (s' & Hs' & E'). apply in_map_iff. exists s'. split; auto.
    unfold read_row in Hr, E'. apply (mapO_firstn _ n) in Hr, E'. rewrite combine_firstn_r in Hr, E'. rewrite E in Hr. congruence.
  Qed.

  Lemma key_front : forall ts k (r : list value), key_shape ts k -> firstn (List.length (tpk ts)) (key_cells k ++ r) = key_cells k /\
    skipn (List.length (tpk ts)) (key_cells k ++ r) = r.
  Proof.
    intros ts k r H. assert (List.length (tpk ts) = List.length (key_cells k)) as -> by (destruct k; simpl in *; auto).
    now rewrite firstn_app, Nat.sub_diag, firstn_all, app_nil_r, skipn_app, Nat.sub_diag, skipn_all.
  Qed.

  (** The table built from the rows of the database. *)
  Lemma table_back : forall t ts tb rows, wf_tschema ts -> table_ok ts tb ->
    match tb with
    | OKeyed l => no_equal_keys (map fst l) /\ forall k r, In (k, r) l -> k = packed (key_cells k)
    | OListed _ => True
    end ->
    (exists rs, mapO (read_row t ts) rows = Ret rs /\ Permutation rs (full_rows tb)) ->
    exists inp tb', table_in date_of float_of f t ts rows = Ret inp /\
      (forall dv, init_one dv t ts inp = Some tb') /\ in_length inp = out_length tb' /\ reordered tb' tb.
  Proof.
    intros t ts tb rows Hn Hok Hk (rs & H & P). unfold table_in. fold R. fold (read_row t ts). rewrite H. cbn [bindO].
    unfold table_ok in Hok. destruct (tpk ts) as [| p pk] eqn:Ep; destruct tb as [l | l]; try contradiction.
    - cbn [full_rows] in P. exists (TRows (map RSeq rs)), (OListed rs). split; [reflexivity |].
      assert (table_ok ts (OListed rs)) as Hok'.
      { unfold table_ok. rewrite Ep. intros r Hr. apply Hok. eapply Permutation_in; eauto. }
      assert (Forall2 (describes (tfields ts)) (map RSeq rs) (full_rows (OListed rs))) as D.
      { cbn [full_rows]. clear. induction rs; simpl; constructor; auto. now left. }
      split; [| split; [simpl; apply map_length | exact P]].
      intros dv. apply (table_from_rows dv t ts (map RSeq rs) (OListed rs)); auto.
    - rewrite <- Ep in *. assert (tpk ts <> []) as Hne by congruence. destruct Hk as [Hk1 Hk2]. cbn [full_rows] in P.
      apply Permutation_map_inv in P as (l2 & -> & P).
      set (pairs := map _ (map _ l2)).
      assert (pairs = map (fun kr => (fst kr, RSeq (snd kr))) l2) as Epairs.
      { unfold pairs. rewrite map_map. apply map_ext_in. intros [k r] Hin. cbn [fst snd].
        apply (Permutation_in _ (Permutation_sym P)) in Hin. destruct (Hok _ _ Hin) as [H1 H2]. destruct (key_front ts k r H1) as [-> ->].
        f_equal. transitivity (packed (key_cells k)); [| symmetry; exact (Hk2 _ _ Hin)].
        now destruct (key_cells k) as [| v1 [| v2 vs]]. }
      assert (no_equal_keys (map fst l2)) as Hk3.
      { unfold no_equal_keys in *. eapply Permutation_NoDup; [| exact Hk1]. now repeat apply Permutation_map. }
      assert (dict_of pkey_eqb pairs = pairs) as Ed.
      { apply dict_of_distinct. apply no_equal_keys_iff. rewrite Epairs, map_map. exact Hk3. }
      exists (TDict pairs), (OKeyed l2). rewrite Ed. split; [reflexivity |].
      assert (forall k r, In (k, r) l2 -> key_shape ts k /\ List.length r = List.length (tdf ts) /\ k = packed (key_cells k)) as H2.
      { intros k r Hin. apply (Permutation_in _ (Permutation_sym P)) in Hin. destruct (Hok _ _ Hin) as [H1 H2]. eauto. }
      split; [| split; [rewrite Epairs; simpl; apply map_length | simpl; now symmetry]].
      intros dv. unfold init_one. rewrite Ep, <- Ep. rewrite Epairs.
      assert (forallb (fun kr : pkey * rowin => Nat.eqb (keylen (fst kr)) (List.length (tpk ts))) (map (fun kr => (fst kr, RSeq (snd kr))) l2) = true) as ->.
      { apply forallb_forall. intros [k x] Hin. apply in_map_iff in Hin as ([k' r] & E & Hin). injection E as <- <-.
        destruct (H2 _ _ Hin) as [H3 _]. apply Nat.eqb_eq. destruct k'; simpl in *; auto. }
      assert (good_rows (tdf ts) (map snd (map (fun kr => (fst kr, RSeq (snd kr))) l2)) = true) as ->.
      { apply good_rows_iff. intros x Hin. rewrite map_map in Hin. apply in_map_iff in Hin as ([k r] & <- & Hin).
        simpl. now apply (H2 k r Hin). }
      assert (forallb (fun kr : pkey * rowin => key_len_ok (List.length (tpk ts)) (fst kr)) (map (fun kr => (fst kr, RSeq (snd kr))) l2) = true) as ->.
      { apply forallb_forall. intros [k x] Hin. apply in_map_iff in Hin as ([k' r] & E & Hin). injection E as <- <-. cbn [fst snd].
        destruct (H2 _ _ Hin) as (H3 & _ & H4). unfold key_len_ok, key_shape in *. destruct k' as [v | lv].
        - rewrite H3. apply orb_true_r.
        - rewrite <- H3. rewrite Nat.eqb_refl. destruct lv as [| v1 [| v2 lv]]; simpl in *; auto; try discriminate.
          exfalso. destruct (tpk ts); [contradiction | discriminate]. }
      cbn [andb].
      assert (map_opt (fun kr : pkey * rowin => option_map (pair (fst kr)) (row_factory dv t ts (snd kr))) (map (fun kr => (fst kr, RSeq (snd kr))) l2) = Some l2) as ->; auto.
      assert (forall k r, In (k, r) l2 -> List.length r = List.length (tdf ts)) as H5 by (intros k r Hin; now apply (H2 k r Hin)).
      clear - H5. induction l2 as [| [k r] l2 IH]; simpl; auto. rewrite row_factory_seq by (eapply H5; simpl; eauto). simpl.
      rewrite IH; auto. intros; eapply H5; simpl; eauto.
  Qed.

  (** A database with the same rows, each table in any order, and perhaps other
      tables. *)
  Definition db_like (db db' : list (string * list (list value))) : Prop :=
    forall t rows, In (t, rows) db -> exists rows', dget String.eqb db' t = Some rows' /\ Permutation rows rows'.

  Theorem db_round_trip : forall d, decl_ok (f_decl f) = true ->
    obj_ok (plain_schema f) d -> obj_keys (plain_schema f) d -> proper_keys (plain_schema f) d ->
    cells_kept f db_trip d -> params_kept date_of float_of f db_trip d ->
    exists db, write_db date_of show_date sql_number f d = Ret db /\
      forall db', db_like db db' ->
        exists e, sql_create date_of float_of f db' = Ret e /\ forall t ts, In (t, ts) (plain_schema f) -> reordered (e t) (d t).
  Proof.
    intros d Hd Hok Hks Hpr Hc Hp. pose proof (plain_wf f Hd) as Hwf.
    destruct (before_adjustment date_of float_of f db_trip d) as (d1 & Hok1 & Hks1 & Hpr1 & Hrows & Hadj); auto.
    assert (forall t ts, In (t, ts) (plain_schema f) -> exists rows, stored_rows date_of show_date sql_number f t ts (d t) = Ret rows /\
              mapO (read_row t ts) rows = Ret (full_rows (d1 t))) as Hst.
    { intros t ts Hin. destruct (table_out t ts (d t) (d1 t)) as (us & A & B); auto.
      unfold stored_rows. rewrite A. cbn [bindO]. fold S. fold (store_row t ts). change (map (fun r => store_row t ts r) us) with (map (store_row t ts) us).
      set (rows := map (store_row t ts) us) in *.
      assert (keys_unique (List.length (tpk ts)) rows || Nat.eqb (List.length (tpk ts)) 0 = true) as ->.
      { specialize (Hok1 _ _ Hin). specialize (Hks1 _ _ Hin). specialize (Hpr1 _ _ Hin). unfold table_ok in Hok1.
        destruct (tpk ts) as [| p pk] eqn:Ep; [apply orb_true_r |]. rewrite <- Ep in *.
        destruct (d1 t) as [l | l]; [| contradiction]. apply orb_true_iff. left. apply (stored_unique t ts _ _ B).
        cbn [full_rows]. rewrite map_map.
        match goal with |- NoDup ?m => assert (m = map key_cells (map fst l)) as -> end.
        { rewrite map_map. apply map_ext_in. intros [k r] Hk. cbn [fst snd]. destruct (Hok1 _ _ Hk) as [H1 _]. now apply key_front. }
        cbn iota beta in Hpr1. clear - Hks1 Hpr1. unfold no_equal_keys in Hks1.
        apply NoDup_map_inv in Hks1. revert Hks1 Hpr1. induction l as [| [k r] l IH]; simpl; intros Hn Hq; constructor.
        - inversion Hn as [| ? ? Hx _]; subst. intros Hc. apply Hx. apply in_map_iff in Hc as (k' & E & Hc).
          apply in_map_iff in Hc as ([k2 r2] & E2 & Hc). cbn [fst] in E2. subst k2. apply in_map_iff. exists (k', r2). split; auto. cbn [fst].
          rewrite (Hq k r) by auto. rewrite (Hq k' r2) by auto. now rewrite E.
        - apply IH; [now inversion Hn | intros k0 r0 H0; apply (Hq k0 r0); auto]. }
      exists rows. auto. }
    set (out := fun tts => bindO (stored_rows date_of show_date sql_number f (fst tts) (snd tts) (d (fst tts))) (fun rows => Ret (fst tts, rows))).
    assert (exists db, mapO out (plain_schema f) = Ret db) as [db Edb].
    { apply mapO_total. intros [t ts] Hin. destruct (Hst _ _ Hin) as (rows & A & _). unfold out. cbn [fst snd]. rewrite A. simpl. eauto. }
    exists db. split; [exact Edb |]. apply mapO_Forall2 in Edb. intros db' Hdb.
    assert (forall t ts, In (t, ts) (plain_schema f) -> exists rows' inp tb', dget String.eqb db' t = Some rows' /\
              table_in date_of float_of f t ts rows' = Ret inp /\ (forall dv, init_one dv t ts inp = Some tb') /\
              in_length inp = out_length tb' /\ reordered tb' (d1 t)) as Htab.
    { intros t ts Hin. destruct (Hst _ _ Hin) as (rows & A & B). destruct (Forall2_In_l _ _ _ _ Edb Hin) as ([t1 rows1] & Hin1 & E1).
      unfold out in E1. cbn [fst snd] in E1. rewrite A in E1. cbn [bindO] in E1. injection E1 as <- <-.
      destruct (Hdb _ _ Hin1) as (rows' & G & P). exists rows'. apply Permutation_sym in P.
      destruct (mapO_perm (read_row t ts) _ _ _ P B) as (rs & C & Q).
      destruct (table_back t ts (d1 t) rows') as (inp & tb' & X); eauto.
      - now apply Hwf in Hin.
      - specialize (Hks1 _ _ Hin). specialize (Hpr1 _ _ Hin). destruct (d1 t); auto. }
    set (g := fun tts : string * tschema => match dget String.eqb db' (fst tts) with
                            | None => Ret []
                            | Some rows => bindO (table_in date_of float_of f (fst tts) (snd tts) rows) (fun i => Ret [(fst tts, i)])
                            end).
    assert (forall l, (forall t ts, In (t, ts) l -> In (t, ts) (plain_schema f)) -> NoDup (map fst l) -> exists parts (e1 : obj), mapO g l = Ret parts /\
              map fst (List.concat parts) = map fst l /\
              (forall t inp, In (t, inp) (List.concat parts) -> exists ts, In (t, ts) l /\
                 (forall dv, init_one dv t ts inp = Some (e1 t)) /\ in_length inp = out_length (e1 t)) /\
              forall t ts, In (t, ts) l -> reordered (e1 t) (d1 t)) as Hin.
    { induction l as [| [t ts] l IH]; intros Hsub Hnd.
      - exists [], d1. simpl. split; auto. split; auto. split; [intros ? ? [] | intros ? ? []].
      - cbn [map fst] in Hnd. inversion Hnd as [| ? ? Hx Hnd']; subst.
        destruct IH as (parts & e1 & A & B & C & D); auto. { intros; apply Hsub; simpl; auto. }
        assert (In (t, ts) (plain_schema f)) as H1 by (apply Hsub; simpl; auto).
        destruct (Htab _ _ H1) as (rows' & inp & tb' & E & F & G & H & I). exists ([(t, inp)] :: parts).
        exists (fun t0 => if String.eqb t0 t then tb' else e1 t0).
        assert (g (t, ts) = Ret [(t, inp)]) as K. { unfold g. cbn [fst snd]. rewrite E, F. reflexivity. }
        assert (forall t0 ts0, In (t0, ts0) l -> String.eqb t0 t = false) as Hne.
        { intros t0 ts0 H0. apply String.eqb_neq. intros ->. apply Hx. now apply (in_map fst) in H0. }
        cbn [mapO]. rewrite K, A. split; auto. cbn [List.concat app map fst]. split; [now rewrite B |]. split.
        + intros t0 inp0 [H0 | H0].
          * injection H0 as <- <-. exists ts. rewrite String.eqb_refl. simpl. auto.
          * destruct (C _ _ H0) as (ts0 & X & Y). exists ts0. rewrite (Hne _ _ X). simpl. auto.
        + intros t0 ts0 [H0 | H0].
          * injection H0 as <- <-. now rewrite String.eqb_refl.
          * rewrite (Hne _ _ H0). eauto. }
    destruct (Hin (plain_schema f)) as (parts & e1 & A & B & C & D); auto. { apply Hwf. }
    destruct (construct_tables (plain_schema f) (f_defaults f) (dup_mode f) e1 (List.concat parts)) as (e & E & F); auto.
    { rewrite B. apply Hwf. }
    { intros t inp H. destruct (C _ _ H) as (ts & X & Y & Z). exists ts. rewrite Z. auto. }
    { intros t ts H Hno. exfalso. apply Hno. rewrite B. now apply (in_map fst) in H. }
    unfold sql_create. fold g. rewrite A. cbn [bindO]. rewrite E. eexists. split; [reflexivity |].
    intros t ts H. rewrite <- (Hadj _ _ H). apply adjust_reordered. rewrite (F _ _ H). eauto.
  Qed.
End Db.
