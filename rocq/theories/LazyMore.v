(** * Generator tables: database and Excel writers, the constructor, copies, reports. *)
From Coq Require Import ZArith Bool List String Arith Lia Permutation.
From Verif Require Import PyVal PyDict PyStr PyDictFacts ListFacts TypeDict Data FindTypes FindTypesFacts FK FKFacts Obj ObjFacts ObjMore Factory FactoryFacts InfIO Params Names NamesFacts
  Utils Json ObjRows JsonFacts TripFacts Csv CsvFacts CsvRows CsvCells CsvMore Xls Sql FileDb FileDbFacts Lazy LazyFacts LazyRead LazyWrite.
Import ListNotations.
Local Open Scope string_scope.
Local Open Scope list_scope.

(** ** Databases *)

Section Db.
  Variable store : string -> value -> option value.
  Variable key_free : list (list value) -> list value -> bool.
  Variable date_of : value -> option Z.
  Variable float_of : value -> option value.
  Variable sql_default : value -> value.
  Variable bare : string -> bool.
  Variable f : factory.

  Lemma sql_write_ext : forall allow d d' p, (forall t ts, In (t, ts) (plain_schema f) -> d t = d' t) ->
    sql_write_file store key_free date_of sql_default f allow d p = sql_write_file store key_free date_of sql_default f allow d' p.
  Proof.
    intros allow d d' p H. unfold sql_write_file. assert (sql_inserts date_of f d = sql_inserts date_of f d') as ->; [| reflexivity].
    unfold sql_inserts. f_equal. apply mapO_ext. intros [t ts] Hin. cbn [fst snd]. now rewrite (H t ts Hin).
  Qed.

  Theorem sql_same : forall allow path g w d, NoDup (map fst (plain_schema f)) ->
    (forall t ts, In (t, ts) (plain_schema f) -> seen (f_defaults f) t ts (g t) w = Ret (d t)) ->
    gen_sql_write date_of store key_free sql_default f allow path g w =
      match sql_write_file store key_free date_of sql_default f allow d (dget String.eqb (w_dbs w) path) with
      | (ok, Some db) => (ok, set_db w path db)
      | (ok, None) => (ok, w)
      end.
  Proof.
    intros allow path g w d Hn H. destruct (pull_same f g w d Hn H) as (l & E & Hl). unfold gen_sql_write. rewrite E.
    now rewrite (sql_write_ext allow (pulled l) d _ Hl).
  Qed.

  Lemma rows_keep : forall t ts n rows st ok st', mdb_rows store key_free date_of f t ts rows st = (ok, st') -> same_name t n = false ->
    find_table (snd st') n = find_table (snd st) n.
  Proof.
    intros t ts n. induction rows as [| r rows IH]; intros st ok st' H Hn; cbn [mdb_rows] in H; [now injection H as _ <- |].
    destruct (mdb_row date_of f t ts r) as [given |]; [| now injection H as _ <-]. destruct (db_insert store key_free (snd st) t given) as [db |] eqn:Ei; [| now injection H as _ <-].
    rewrite (IH _ _ _ H Hn). cbn [snd]. apply insert_spec in Ei as (dt & s & _ & _ & G). now rewrite G, Hn.
  Qed.

  (** Tables that come later leave the rows alone. *)
  Lemma tables_keep : forall allow names path g n order w st st',
    gen_mdb_tables date_of store key_free bare f allow names path g order w st = (true, st') -> (forall u, In u order -> same_name u n = false) ->
    find_table (snd st') n = find_table (snd st) n.
  Proof.
    intros allow names path g n order. induction order as [| u order IH]; intros w st st' H Hn; cbn [gen_mdb_tables] in H; [now injection H as <- |].
    destruct (_ && _ && _); [| discriminate]. destruct (seen _ _ _ _ _) as [tb |]; [| discriminate].
    destruct (mdb_rows _ _ _ _ _ _ _ _) as [ok st2] eqn:Er. destruct ok; [| discriminate]. rewrite (IH _ _ _ H) by (intros; apply Hn; now right).
    assert (same_name u n = false) as Hu by (apply Hn; now left). rewrite (rows_keep _ _ _ _ _ _ _ Er Hu).
    destruct allow; [| reflexivity]. cbn [snd]. rewrite clear_spec. now rewrite Hu.
  Qed.

  Lemma tables_named : forall allow names path g order w st st',
    gen_mdb_tables date_of store key_free bare f allow names path g order w st = (true, st') -> forall t, In t order -> dget String.eqb names t = Some t.
  Proof.
    intros allow names path g order. induction order as [| u order IH]; intros w st st' H t Hin; [contradiction |]. cbn [gen_mdb_tables] in H.
    destruct (dget String.eqb names u) as [n |] eqn:En; [| discriminate]. destruct (String.eqb n u) eqn:Eu; [| discriminate]. apply String.eqb_eq in Eu as ->.
    cbn [andb] in H. destruct (_ && _) in H; [| discriminate]. destruct (seen _ _ _ _ _); [| discriminate]. destruct (mdb_rows _ _ _ _ _ _ _ _) as [[|] st2]; [| discriminate].
    destruct Hin as [<- | Hin]; [exact En | eapply IH; eauto].
  Qed.

  (** The rows of a generator table that reads the table it is written to are gone. *)
  Theorem mdb_lost : forall read names path g t order w st st', NoDup (map lower order) -> In t order ->
    g t = Lazy (db_source read f path t t (ts_of (plain_schema f) t)) ->
    gen_mdb_tables date_of store key_free bare f true names path g order w st = (true, st') ->
    exists dt, find_table (snd st') t = Some dt /\ dt_rows dt = [].
  Proof.
    intros read names path g t order. induction order as [| u order IH]; intros w st st' N Hin Hg H; [contradiction |]. cbn [gen_mdb_tables] in H.
    cbn [map] in N. inversion N as [| ? ? Nn N']; subst.
    destruct (_ && _ && _); [| discriminate]. destruct Hin as [-> | Hin].
    - rewrite Hg in H. cbn [seen] in H. unfold yields, db_source in H. unfold set_db in H. cbn [w_dbs fst] in H.
      rewrite dget_dset_same in H by apply String.eqb_refl. destruct (find_table (clear_table (snd st) t) t) as [dt |] eqn:Ef; [| discriminate].
      assert (dt_rows dt = []) as Hd.
      { rewrite clear_spec, same_refl in Ef. destruct (find_table (snd st) t); [| discriminate]. injection Ef as <-. reflexivity. }
      destruct (forallb (has_col dt) _); [| discriminate]. unfold db_select in H. rewrite Hd in H. cbn [map mapO bindO full_rows mdb_rows] in H.
      exists dt. split; [| exact Hd]. rewrite <- Ef.
      refine (tables_keep _ _ _ _ t _ _ _ _ H _). intros v Hv. apply same_neq. intros E. apply Nn. rewrite <- E. now apply in_map.
    - destruct (seen _ _ _ _ _); [| discriminate]. destruct (mdb_rows _ _ _ _ _ _ _ _) as [[|] st2]; [| discriminate]. eapply IH; eauto.
  Qed.
End Db.

(** ** Excel *)

Section Excel.
  Variable date_of : value -> option Z.
  Variable float_of : value -> option value.
  Variable show_date : Z -> string.
  Variable saved : value -> outcome value.
  Variable f : factory.


  Lemma xls_write_ext : forall xls pretty d d', (forall t ts, In (t, ts) (plain_schema f) -> d t = d' t) ->
    xls_write date_of show_date saved f xls pretty d = xls_write date_of show_date saved f xls pretty d'.
  Proof.
    intros xls pretty d d' H. unfold xls_write. destruct (write_sheets pretty (map fst (f_decl f))); [| reflexivity]. cbn [bindO].
    apply mapO_ext. intros [t ts] Hin. cbn [fst snd]. now rewrite (H t ts Hin).
  Qed.

  (** .xls: the old file is there until the sheets are filled. *)
  Theorem xls_same : forall xld pretty allow path g w d, NoDup (map fst (plain_schema f)) ->
    (forall t ts, In (t, ts) (plain_schema f) -> seen (f_defaults f) t ts (g t) w = Ret (d t)) ->
    gen_xls_write date_of show_date saved f (Some xld) pretty allow path g w =
      if sheets_differ (map fst (f_decl f)) && (allow || negb (dmem String.eqb (w_books w) path)) then
        match xls_write date_of show_date saved f true pretty d with
        | Ret sheets => (true, set_book w path (mkBook (Some xld) sheets))
        | Raise => (false, w)
        end
      else (false, w).
  Proof.
    intros xld pretty allow path g w d Hn H. destruct (pull_same f g w d Hn H) as (l & E & Hl). unfold gen_xls_write. rewrite E.
    destruct (_ && _); [| reflexivity]. now rewrite (xls_write_ext true pretty (pulled l) d Hl).
  Qed.

  (** .xlsx: a generator table that reads the file raises once the file is removed. *)
  Theorem xlsx_gone : forall pretty path g w t ts, In (t, ts) (plain_schema f) ->
    seen (f_defaults f) t ts (g t) (del_book w path) = Raise -> sheets_differ (map fst (f_decl f)) = true ->
    (exists l, pull f g w = Ret l) ->
    gen_xls_write date_of show_date saved f None pretty true path g w = (false, del_book w path).
  Proof.
    intros pretty path g w t ts Hin H Hs [l E]. unfold gen_xls_write. rewrite E, Hs. cbn [andb orb].
    assert (pull f g (del_book w path) = Raise) as ->; [| reflexivity]. unfold pull. apply (mapO_raise _ _ (t, ts) Hin). cbn [fst snd]. now rewrite H.
  Qed.
End Excel.

(** ** The constructor *)

Section Make.
  Variable f : factory.
  Variable parses : value -> bool.
  Hypothesis Hinv : inv parses f.

  (** With the duplicate check on, a container of rows is refused for a generator table. *)
  Theorem rows_refused : forall w inputs t ts rs, dup_mode f = "assert" -> NoDup (map fst inputs) -> (forall u, In u (map fst inputs) -> In u (map fst (plain_schema f))) ->
    In (t, ts) (plain_schema f) -> In t (f_gens f) -> In (t, GVal (TRows rs)) inputs -> rs <> [] ->
    gen_construct (plain_schema f) (f_defaults f) (dup_mode f) (f_gens f) w inputs = None.
  Proof.
    intros w inputs t ts rs Hm N Hsub Hin Hg Hi Hne. pose proof (plain_wf f (inv_decl _ _ Hinv)) as [Hn _].
    pose proof (gen_construct_each (plain_schema f) (f_defaults f) (dup_mode f) (f_gens f) w inputs Hn N Hsub) as H.
    destruct (gen_construct _ _ _ _ _ _) as [g |]; [| reflexivity]. exfalso. specialize (H t ts Hin).
    apply (str_get inputs t (GVal (TRows rs)) N) in Hi. rewrite Hi in H. unfold gen_one, one in H. apply mem_str_iff in Hg. rewrite Hg in H.
    cbn [init_lazy] in H. destruct (good_rows (tdf ts) rs); [| discriminate]. rewrite Hm in H. cbn [given_length plain_input in_length made_length] in H.
    destruct rs as [| r rs]; [contradiction |]. discriminate H.
  Qed.

  (** The arguments, with containers of rows or functions yielding them for the generator tables. *)
  Definition given (w : world) (inputs : list (string * tablein)) (ginputs : list (string * ginput)) : Prop :=
    Forall2 (fun i gi => fst gi = fst i /\
      (snd gi = GVal (snd i) /\ (In (fst i) (f_gens f) -> dup_mode f <> "assert" /\ exists rs, snd i = TRows rs) \/
       In (fst i) (f_gens f) /\ exists rs s, snd i = TRows rs /\ snd gi = GFun s /\ s w = Ret rs)) inputs ginputs.

  Lemma given_get : forall w inputs ginputs, given w inputs ginputs -> forall t,
    match dget String.eqb inputs t, dget String.eqb ginputs t with
    | None, None => True
    | Some i, Some gi => gi = GVal i /\ (In t (f_gens f) -> dup_mode f <> "assert" /\ exists rs, i = TRows rs) \/
                         In t (f_gens f) /\ exists rs s, i = TRows rs /\ gi = GFun s /\ s w = Ret rs
    | _, _ => False
    end.
  Proof.
    intros w inputs ginputs H t. induction H as [| [u i] [v gi] l m [E H] _ IH]; [exact I |]. cbn [fst snd dget] in *. subst v.
    destruct (String.eqb u t) eqn:Eu; [| exact IH]. apply String.eqb_eq in Eu as <-. exact H.
  Qed.
  Lemma given_names : forall w inputs ginputs, given w inputs ginputs -> map fst ginputs = map fst inputs.
  Proof. intros w inputs ginputs H. induction H as [| i gi l m [E _] _ IH]; [reflexivity |]. cbn [map]. now rewrite E, IH. Qed.

  Theorem made_alike : forall w inputs ginputs, NoDup (map fst inputs) -> (forall u, In u (map fst inputs) -> In u (map fst (plain_schema f))) ->
    given w inputs ginputs ->
    match construct (plain_schema f) (f_defaults f) (dup_mode f) inputs, gen_construct (plain_schema f) (f_defaults f) (dup_mode f) (f_gens f) w ginputs with
    | Some d, Some g => same_rows f w g d
    | None, None => True
    | _, _ => False
    end.
  Proof.
    intros w inputs ginputs N Hsub Hgi. pose proof (plain_wf f (inv_decl _ _ Hinv)) as [Hn _]. pose proof (given_names _ _ _ Hgi) as En.
    set (sch := plain_schema f) in *.
    assert (NoDup (map fst ginputs)) as GN by now rewrite En. assert (forall u, In u (map fst ginputs) -> In u (map fst sch)) as GS by now rewrite En.
    pose proof (construct_each sch (f_defaults f) (dup_mode f) inputs Hn N Hsub) as CE.
    pose proof (gen_construct_each sch (f_defaults f) (dup_mode f) (f_gens f) w ginputs Hn GN GS) as GE.
    assert (forall t ts, In (t, ts) sch ->
      match tab_one sch (f_defaults f) (dup_mode f) t ts (dget String.eqb inputs t), gen_one sch (f_defaults f) (dup_mode f) (f_gens f) w t ts (dget String.eqb ginputs t) with
      | Some tb, Some g => shows f w t ts g tb
      | None, None => True
      | _, _ => False
      end) as Each.
    { intros t ts Hin. pose proof (given_get _ _ _ Hgi t) as G. unfold shows. destruct (mem_str t (f_gens f)) eqn:Eg.
      - destruct (gens_plain f parses Hinv t ts Hin Eg) as [Hk Hne]. pose proof Eg as Eg'. apply mem_str_iff in Eg'.
        destruct (dget String.eqb inputs t) as [i |]; destruct (dget String.eqb ginputs t) as [gi |]; try contradiction.
        + destruct G as [[-> G] | (_ & rs & s & -> & -> & Es)].
          * destruct (G Eg') as [Hm (rs & ->)]. rewrite rows_one by auto. unfold gen_one, one. rewrite Eg. cbn [init_lazy].
            destruct (good_rows (tdf ts) rs) eqn:Er; [| exact I]. destruct (good_rows_made (f_defaults f) t ts rs Hne Er) as [l El]. rewrite El. cbn [option_map].
            apply String.eqb_neq in Hm. rewrite Hm. cbn [andb given_length plain_input]. split; [eauto |]. cbn [seen]. unfold yields. cbn [bindO].
            pose proof (rows_both (f_defaults f) t ts rs) as R. rewrite El in R. now rewrite R.
          * pose proof (lazy_one sch (f_defaults f) (dup_mode f) (f_gens f) w t ts s Eg Hk Hne) as L. rewrite Es in L.
            destruct (tab_one sch _ _ t ts (Some (TRows rs))) as [tb |]; [| now rewrite L]. destruct L as [-> L]. split; [eauto | exact L].
        + unfold tab_one, gen_one, one, no_rows. rewrite Eg, Hk. split; [eauto | reflexivity].
      - assert (dget String.eqb ginputs t = option_map GVal (dget String.eqb inputs t)) as ->.
        { destruct (dget String.eqb inputs t) as [i |]; destruct (dget String.eqb ginputs t) as [gi |]; try contradiction; [| reflexivity].
          destruct G as [[-> _] | [Hc _]]; [reflexivity |]. apply mem_str_iff in Hc. congruence. }
        rewrite stored_one by auto. destruct (tab_one sch _ _ t ts _); simpl; auto. }
    destruct (construct sch (f_defaults f) (dup_mode f) inputs) as [d |]; destruct (gen_construct sch (f_defaults f) (dup_mode f) (f_gens f) w ginputs) as [g |].
    - intros t ts Hin. apply shows_same. pose proof (Each t ts Hin) as E. now rewrite (CE t ts Hin), (GE t ts Hin) in E.
    - destruct GE as (t & ts & Hin & GE). pose proof (Each t ts Hin) as E. rewrite (CE t ts Hin), GE in E. exact E.
    - destruct CE as (t & ts & Hin & CE). pose proof (Each t ts Hin) as E. rewrite (GE t ts Hin), CE in E. exact E.
    - exact I.
  Qed.

  (** ** Copies *)

  (** An object with generator tables as they should be. *)
  Definition gobj_ok (g : gobj) : Prop := forall t ts, In (t, ts) (plain_schema f) ->
    match g t with Stored tb => mem_str t (f_gens f) = false /\ table_ok ts tb | Lazy _ => mem_str t (f_gens f) = true end.

  Lemma yields_length : forall t ts s w rs, NoDup (tdf ts) -> yields (f_defaults f) t ts s w = Ret rs -> forall r, In r rs -> List.length r = List.length (tdf ts).
  Proof.
    intros t ts s w rs Hn H r Hr. unfold yields in H. destruct (s w) as [xs |]; [| discriminate]. cbn [bindO] in H. apply mapO_Forall2 in H.
    destruct (Forall2_In_r _ _ _ _ H Hr) as (x & _ & E). cbv beta in E. destruct (row_factory (f_defaults f) t ts x) as [r' |] eqn:Ex; [| discriminate].
    injection E as ->. apply row_factory_iff in Ex; [| exact Hn]. now apply fits_length in Ex.
  Qed.

  Lemma row_again : forall t ts r, NoDup (tdf ts) -> List.length r = List.length (tdf ts) -> tdf ts <> [] ->
    row_factory (f_defaults f) t ts (RDict (combine (tdf ts) r)) = Some r.
  Proof.
    intros t ts r Hn Hl Hne. destruct (row_factory (f_defaults f) t ts (RDict (combine (tdf ts) r))) as [r' |] eqn:E.
    - apply row_factory_iff in E; [| exact Hn]. f_equal. eapply fits_own_cells; eauto.
    - exfalso. unfold row_factory in E. destruct (tdf ts) as [| x xs] eqn:Et; [contradiction |]. rewrite <- Et in *.
      assert (forallb (fun fv => mem_str (fst fv) (tdf ts)) (combine (tdf ts) r) = true) as Ef.
      { apply forallb_forall. intros [x' v] Hx. apply in_combine_l in Hx. cbn [fst]. now apply mem_str_iff. }
      rewrite Ef in E. discriminate.
  Qed.
  Lemma rows_good_again : forall ts (rs : list row), good_rows (tdf ts) (map (fun r => RDict (combine (tdf ts) r)) rs) = true.
  Proof.
    intros ts rs. unfold good_rows. apply forallb_forall. intros x Hx. apply in_map_iff in Hx as (r & <- & _). apply forallb_forall. intros [y v] Hy.
    apply in_combine_l in Hy. cbn [fst]. now apply mem_str_iff.
  Qed.
  Lemma rows_again : forall t ts (rs : list row), NoDup (tdf ts) -> tdf ts <> [] -> (forall r, In r rs -> List.length r = List.length (tdf ts)) ->
    mapO (fun x => match row_factory (f_defaults f) t ts x with Some r => Ret r | None => Raise end) (map (fun r => RDict (combine (tdf ts) r)) rs) = Ret rs.
  Proof.
    intros t ts rs Hn Hne. induction rs as [| r rs IH]; intros H; [reflexivity |]. cbn [map mapO]. rewrite row_again by (auto; apply H; now left).
    rewrite IH by (intros; apply H; now right). reflexivity.
  Qed.

  (** The copy of an object shows the same rows as the object, now and later. *)
  Theorem copy_follows : forall w g, gobj_ok g -> (exists l, pull f g w = Ret l) ->
    exists h, gen_copy f w g = Ret h /\ gobj_ok h /\ forall t ts w', In (t, ts) (plain_schema f) -> seen (f_defaults f) t ts (h t) w' = seen (f_defaults f) t ts (g t) w'.
  Proof.
    intros w g Hok [l El]. pose proof (plain_wf f (inv_decl _ _ Hinv)) as [Hn Hnf]. set (sch := plain_schema f) in *.
    set (d := fun t => match g t with Stored tb => tb | Lazy _ => match dget String.eqb sch t with Some ts => no_rows ts | None => OListed [] end end : otable).
    assert (obj_ok sch d) as Hd.
    { intros t ts Hin. unfold d. pose proof (Hok t ts Hin) as H. destruct (g t) as [tb | s]; [tauto |]. apply (str_get _ _ _ Hn) in Hin. rewrite Hin.
      unfold table_ok, no_rows. destruct (tpk ts); simpl; tauto. }
    destruct (as_dict_round_trip sch (f_defaults f) (dup_mode f) d (conj Hn Hnf) Hd) as (e & Ee & Hde).
    assert (map fst (as_dict sch d) = map fst sch) as Na by (unfold as_dict; rewrite map_map; reflexivity).
    assert (map fst (copied f g) = map fst sch) as Nc by (unfold copied; rewrite map_map; reflexivity).
    assert (NoDup (map fst (as_dict sch d))) as A1 by now rewrite Na. assert (forall u, In u (map fst (as_dict sch d)) -> In u (map fst sch)) as A2 by now rewrite Na.
    assert (NoDup (map fst (copied f g))) as C1 by now rewrite Nc. assert (forall u, In u (map fst (copied f g)) -> In u (map fst sch)) as C2 by now rewrite Nc.
    pose proof (construct_each sch (f_defaults f) (dup_mode f) (as_dict sch d) Hn A1 A2) as CE. rewrite Ee in CE.
    pose proof (gen_construct_each sch (f_defaults f) (dup_mode f) (f_gens f) w (copied f g) Hn C1 C2) as GE.
    assert (forall t ts, In (t, ts) sch -> exists h, gen_one sch (f_defaults f) (dup_mode f) (f_gens f) w t ts (dget String.eqb (copied f g) t) = Some h /\
      match h with Stored tb => mem_str t (f_gens f) = false /\ table_ok ts tb | Lazy _ => mem_str t (f_gens f) = true end /\
      forall w', seen (f_defaults f) t ts h w' = seen (f_defaults f) t ts (g t) w') as Each.
    { intros t ts Hin. pose proof (Hok t ts Hin) as Ht. assert (NoDup (tdf ts)) as Nt by (pose proof (Hnf t ts Hin) as X; unfold wf_tschema, tfields in X; now apply NoDup_app_r in X).
      assert (forall X (k : string * tschema -> X), dget String.eqb (map (fun tts => (fst tts, k tts)) sch) t = Some (k (t, ts))) as Hget.
      { intros X k. apply str_get; [now rewrite map_map |]. apply in_map_iff. exists (t, ts). auto. }
      unfold copied. fold sch. rewrite Hget. cbn [fst snd]. destruct (g t) as [tb | s] eqn:Eg.
      - destruct Ht as [Hg Htb]. exists (Stored tb). split; [| split; [auto | reflexivity]]. specialize (CE t ts Hin). unfold as_dict in CE. rewrite Hget in CE.
        cbn [fst snd] in CE. rewrite (Hde t ts Hin) in CE. unfold d in CE. rewrite Eg in CE.
        pose proof (stored_one sch (f_defaults f) (dup_mode f) (f_gens f) w t ts) as S.
        destruct tb as [kl | rl]; [specialize (S (Some (TDict (map (fun kr => (fst kr, RDict (combine (tdf ts) (snd kr)))) kl))) Hg) |
                                   specialize (S (Some (TRows (map (fun r => RDict (combine (tdf ts) r)) rl))) Hg)]; cbn [option_map] in S; rewrite S, CE; reflexivity.
      - destruct (gens_plain f parses Hinv t ts Hin Ht) as [Hk Hne]. eexists. split; [| split].
        + unfold gen_one, one. rewrite Ht. cbn [init_lazy given_length plain_input].
          assert (exists rs, yields (f_defaults f) t ts s w = Ret rs) as [rs Er].
          { destruct (mapO_member _ _ _ (t, ts) El Hin) as [y Hy]. cbn [fst snd] in Hy. rewrite Eg in Hy. cbn [seen] in Hy.
            destruct (yields (f_defaults f) t ts s w); [eauto | discriminate]. }
          rewrite Er. cbn [bindO]. rewrite rows_good_again. rewrite andb_false_r. reflexivity.
        + exact Ht.
        + intros w'. cbn [seen]. unfold yields at 1. destruct (yields (f_defaults f) t ts s w') as [rs |] eqn:Er; [| reflexivity]. cbn [bindO].
          rewrite rows_again; auto. intros r Hr. eapply yields_length; eauto. }
    unfold gen_copy. rewrite El. cbn [bindO]. fold sch. destruct (gen_construct sch (f_defaults f) (dup_mode f) (f_gens f) w (copied f g)) as [h |].
    - exists h. split; [reflexivity |]. split.
      + intros t ts Hin. destruct (Each t ts Hin) as (h' & E & A & _). rewrite (GE t ts Hin) in E. injection E as ->. exact A.
      + intros t ts w' Hin. destruct (Each t ts Hin) as (h' & E & _ & A). rewrite (GE t ts Hin) in E. injection E as ->. apply A.
    - exfalso. destruct GE as (t & ts & Hin & E). destruct (Each t ts Hin) as (h' & E' & _). congruence.
  Qed.
End Make.

(** ** Reports *)

Section Reports.
  Variable parses : value -> bool.
  Variable sch : schema.
  Variable gens : list string.
  Variable d : dat.
  Hypothesis Hsch : wf_schema sch.
  Hypothesis Hd : wf_dat sch d.
  Hypothesis Hg : forall t ts, In (t, ts) sch -> In t gens -> tpk ts = [].

  Definition without_gens : dat := fun t => if mem_str t gens then Listed [] else d t.
  Lemma without_wf : wf_dat sch without_gens.
  Proof.
    intros t ts Hin. unfold without_gens. destruct (mem_str t gens) eqn:E; [| now apply Hd]. apply mem_str_iff in E. pose proof (Hg t ts Hin E) as Hk.
    split; [exact Hk | intros r []].
  Qed.
  Lemma without_failing : forall tys t x rid v, failing parses sch tys without_gens t x rid v <-> mem_str t gens = false /\ failing parses sch tys d t x rid v.
  Proof.
    intros tys t x rid v. unfold failing, without_gens. destruct (mem_str t gens).
    - split; [| intros [E _]; discriminate E]. intros (ts & k & r & dt & _ & [_ (i & E & _)] & _). destruct i; discriminate E.
    - tauto.
  Qed.

  Theorem types_exact : forall tys rep, wf_types sch tys -> gen_type_failures parses sch tys gens d PInf = Some rep ->
    forall t x rid, reports_row rep t x rid <-> mem_str t gens = false /\ exists v, failing parses sch tys d t x rid v.
  Proof.
    intros tys rep Ht H t x rid. unfold gen_type_failures in H. destruct (find_types_exact parses sch tys without_gens rep Hsch Ht without_wf H) as [A _].
    rewrite A. split.
    - intros [v Hv]. apply without_failing in Hv as [E Hv]. eauto.
    - intros [E [v Hv]]. exists v. apply without_failing. auto.
  Qed.
End Reports.

(** ** Lists and dicts for generator tables *)

Lemma map_opt_ext2 {A B} (h : A -> option B) : forall l l', Forall2 (fun a a' => h a = h a') l l' -> map_opt h l = map_opt h l'.
Proof. induction 1 as [| a a' l l' E _ IH]; [reflexivity |]. cbn [map_opt]. now rewrite E, IH. Qed.

Lemma list_as_function f w inputs inputs' : dup_mode f <> "assert" ->
  Forall2 (fun i i' => fst i' = fst i /\ (snd i' = snd i \/
    In (fst i) (f_gens f) /\ exists n, snd i = GRef n /\ snd i' = GFun (fun w => Ret (the_list w n)))) inputs inputs' ->
  gen_construct (plain_schema f) (f_defaults f) (dup_mode f) (f_gens f) w inputs =
  gen_construct (plain_schema f) (f_defaults f) (dup_mode f) (f_gens f) w inputs'.
Proof.
  intros M F. unfold gen_construct. assert (String.eqb (dup_mode f) "assert" = false) as -> by now apply String.eqb_neq. cbn [andb].
  rewrite (map_opt_ext2 _ inputs inputs'); [reflexivity |].
  induction F as [| [t i] [t' i'] l l' [E H] _ IH]; constructor; auto. cbn [fst snd] in *. subst t'. destruct H as [-> | [G (n & -> & ->)]]; [reflexivity |].
  destruct (dget String.eqb (plain_schema f) t) as [ts |]; [| reflexivity]. apply mem_str_iff in G. rewrite G. reflexivity.
Qed.

Lemma dict_refused f w inputs t l : In t (f_gens f) -> In (t, GVal (TDict l)) inputs ->
  gen_construct (plain_schema f) (f_defaults f) (dup_mode f) (f_gens f) w inputs = None.
Proof.
  intros G H. unfold gen_construct.
  match goal with |- match ?m with _ => _ end = _ => assert (m = None) as ->; [| reflexivity] end.
  induction inputs as [| i inputs IH]; [destruct H |]. cbn [map_opt]. destruct H as [-> | H].
  - cbn [fst snd]. destruct (dget String.eqb (plain_schema f) t) as [ts |]; [| reflexivity]. apply mem_str_iff in G. rewrite G. reflexivity.
  - rewrite (IH H). match goal with |- match ?x with _ => _ end = _ => destruct x end; reflexivity.
Qed.
