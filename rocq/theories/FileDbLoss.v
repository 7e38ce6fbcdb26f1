(** * Database files: rows lost when reading, and duplicate keys. *)
From Coq Require Import ZArith Bool List String Ascii Arith Lia Permutation.
From Verif Require Import PyVal PyValFacts PyDict PyDictFacts PyStr ListFacts TypeDict Data FindTypes FindTypesFacts FK Graph GraphFacts
  Obj ObjFacts ObjMore Factory FactoryFacts InfIO InfIOFacts Params Names NamesFacts Utils UtilsMore Ampl Json ObjRows JsonFacts JsonDups TripFacts Sql SqlFacts
  Csv CsvMore Pg PgFacts PgWrite PgTrip PgRead FileDb FileDbFacts FileDbTrip FileDbDups.
Import ListNotations.
Local Open Scope string_scope.
Local Open Scope list_scope.

Lemma dupdate_lost' {V} : forall (l d : list (pkey * V)),
  keys_distinct pkey_eqb (map fst d) ->
  (List.length (dupdate pkey_eqb d l) = List.length d + List.length l <->
   keys_distinct pkey_eqb (map fst (d ++ l))).
Proof.
  induction l as [| [k v] l IH]; intros d Hd.
  - rewrite app_nil_r. simpl. split; [auto | lia].
  - unfold dupdate. cbn [fold_left fst snd]. fold (dupdate pkey_eqb (dset pkey_eqb d k v) l).
    destruct (dget pkey_eqb d k) as [w |] eqn:E.
    + pose proof (dupdate_length pkey_eqb l (dset pkey_eqb d k v)) as Hl. rewrite dset_length in Hl.
      unfold dmem in Hl. rewrite E in Hl. simpl. split; [lia |].
      intros Hk. exfalso. apply dget_In in E as (k' & Ek & Hin).
      rewrite map_app in Hk. apply no_equal_keys_iff in Hk. unfold no_equal_keys in Hk. rewrite map_app in Hk.
      apply (NoDup_app_disj _ _ (canon_key k) Hk).
      * apply pkey_eqb_iff in Ek. rewrite <- Ek. apply in_map, in_map_iff. exists (k', w). auto.
      * simpl. auto.
    + rewrite (dset_absent pkey_eqb) by auto.
      assert (keys_distinct pkey_eqb (map fst (d ++ [(k, v)]))) as Hd'.
      { rewrite map_app. simpl. apply (keys_distinct_app_single pkey_eqb); auto.
        intros k' Hin. apply in_map_iff in Hin as ([k1 v1] & <- & Hin). simpl.
        apply (proj1 (dget_None pkey_eqb d k) E k1 v1 Hin). }
      specialize (IH _ Hd'). rewrite app_length, <- app_assoc in IH. cbn [app List.length] in *.
      rewrite <- IH. lia.
Qed.

Lemma packed_distinct : forall n (ks : list (list value)), n <> 0 -> (forall k, In k ks -> List.length k = n) ->
  (keys_distinct pkey_eqb (map packed ks) <-> forall k, occurrences k ks <= 1).
Proof.
  intros n ks Hn. induction ks as [| a ks IH]; intros L.
  - split; [intros _ k; unfold occurrences; simpl; lia | simpl; auto].
  - cbn [map keys_distinct]. rewrite IH by (intros; apply L; simpl; auto).
    assert (forall k, In k ks -> pkey_eqb (packed a) (packed k) = key_pyeq a k) as E.
    { intros k Hk. pose proof (packed_inj_canon a k) as Q. rewrite <- pkey_eqb_iff in Q.
      assert (List.length a = List.length k) as La by (rewrite (L a), (L k); simpl; auto). specialize (Q La).
      destruct (pkey_eqb (packed a) (packed k)), (key_pyeq a k); intuition congruence. }
    split.
    + intros [H1 H2] k. unfold occurrences. cbn [filter]. destruct (key_pyeq a k) eqn:Ea; [| apply H2]. cbn [List.length].
      rewrite filter_none; [simpl; lia |]. intros b Hb. specialize (H1 (packed b) (in_map packed _ _ Hb)). rewrite E in H1 by auto.
      destruct (key_pyeq b k) eqn:Eb; auto. rewrite <- H1. symmetry. eapply key_pyeq_trans; [exact Ea |]. now rewrite key_pyeq_sym.
    + intros H. split.
      * intros k' Hk'. apply in_map_iff in Hk' as (k & <- & Hk). rewrite E by auto. destruct (key_pyeq a k) eqn:Ea; auto. exfalso.
        specialize (H k). unfold occurrences in H. cbn [filter] in H. rewrite Ea in H. cbn [List.length] in H.
        assert (In k (filter (fun k' => key_pyeq k' k) ks)) as X by (apply filter_In; split; auto; now apply key_pyeq_iff).
        destruct (filter (fun k' => key_pyeq k' k) ks); [contradiction | simpl in H; lia].
      * intros k. specialize (H k). unfold occurrences in *. cbn [filter] in H. destruct (key_pyeq a k); simpl in H; lia.
Qed.

Lemma adjust_length : forall date_of float_of f d t, out_length (adjust_params date_of float_of f d t) = out_length (d t).
Proof.
  intros. unfold adjust_params. destruct (_ && _); auto. destruct (d t); auto. simpl. now rewrite map_length.
Qed.

Section Loss.
  Variable date_of : value -> option Z.
  Variable float_of : value -> option value.
  Variable read : factory -> string -> string -> value -> outcome value.

  (** When reading returns: the rows of a keyed table are all there iff no two have the same key. *)
  Theorem file_lost : forall f R db e t ts n dt, decl_ok (f_decl f) = true -> In (t, ts) (plain_schema f) -> tpk ts <> [] ->
    get_db_table (map fst db) t = Ret (Some n) -> find_table db n = Some dt ->
    (forall r x v, In r (db_select dt (tpk ts)) -> In (x, v) (combine (tpk ts) r) -> read f t x v = Ret (R v)) ->
    read_file date_of float_of read f db = Ret e ->
    out_length (e t) <= List.length (dt_rows dt) /\
    (out_length (e t) = List.length (dt_rows dt) <-> forall k, occurrences k (file_keys R db t ts) <= 1).
  Proof.
    intros f R db e t ts n dt Hd Hin Hk Hn Hdt HR H. pose proof (plain_wf f Hd) as Hwf.
    unfold read_file in H. apply bindO_ret in H as (names & Hc & H). apply bindO_ret in H as (parts & Hp & H). set (g := fun tts : string * tschema => _) in Hp.
    destruct (construct _ _ _ _) as [d |] eqn:Ec; [| discriminate]. injection H as <-. rewrite adjust_length.
    assert (dget String.eqb names t = Some n) as Hg.
    { unfold check_fields in Hc. apply bindO_ret in Hc as (names' & Hf & Hc). destruct (forallb _ names'); [| discriminate]. injection Hc as ->.
      apply names_found_spec in Hf as [Hf _]. destruct (Hf t) as (o & A & B); [now apply (in_map fst) in Hin |]. rewrite Hn in A. injection A as <-. exact B. }
    assert (NoDup (map fst (List.concat parts)) /\ exists inp, table_arg (read f) t ts (db_select dt (tfields ts)) = Ret inp /\ In (t, inp) (List.concat parts)) as (Hnd & inp & Hi & Hti).
    { apply mapO_Forall2 in Hp.
      assert (forall x p, In x (plain_schema f) -> g x = Ret p -> p = [] \/ exists i, p = [(fst x, i)]) as Hone.
      { intros x p _ E. unfold g in E. destruct (dget String.eqb names (fst x)); [| injection E as <-; auto]. destruct (find_table db s); [| discriminate].
        apply bindO_ret in E as (i & _ & E). injection E as <-. eauto. }
      split.
      - destruct Hwf as [Hnd _]. revert Hone Hnd Hp. clear. generalize (plain_schema f) as l. intros l Hone Hnd F.
        assert (NoDup (map fst (List.concat parts)) /\ forall t, In t (map fst (List.concat parts)) -> In t (map fst l)) as [A _]; auto.
        induction F as [| x p l parts E _ IH]; [split; [constructor | simpl; auto] |]. cbn [map] in Hnd. apply NoDup_cons_iff in Hnd as [N1 N2].
        destruct IH as [A B]; auto. { intros; apply Hone; simpl; auto. }
        destruct (Hone x p) as [-> | (i & ->)]; simpl; auto. split; [constructor; auto |]. intros t [<- | Ht]; auto.
      - destruct (Forall2_In_l _ _ _ _ Hp Hin) as (p & Hpp & E). unfold g in E. cbn [fst snd] in E. rewrite Hg, Hdt in E.
        apply bindO_ret in E as (i & E1 & E2). injection E2 as <-. exists i. split; auto. apply in_concat. exists [(t, i)]. simpl. auto. }
    destruct (construct_holds _ _ _ _ _ Hwf Hnd Ec) as [Hh _]. specialize (Hh _ _ _ Hin Hti).
    unfold table_arg in Hi. apply bindO_ret in Hi as (rs & Hrs & Hi). apply mapO_Forall2 in Hrs. injection Hi as Hi.
    set (pair := fun r : list value => _) in Hi.
    assert (inp = TDict (dict_of pkey_eqb (map pair rs))) as Ei. { destruct (tpk ts); [contradiction | congruence]. }
    assert (out_length (d t) = List.length (dict_of pkey_eqb (map pair rs))) as ->.
    { rewrite Ei in Hh. unfold holds in Hh. destruct (tpk ts); [contradiction |]. destruct Hh as (m & -> & F). apply Forall2_length in F. simpl. congruence. }
    assert (map packed (file_keys R db t ts) = map fst (map pair rs)) as Ek.
    { unfold file_keys. rewrite Hn, Hdt. unfold db_select in *. clear Hi Ei Hh. revert rs Hrs HR. generalize (dt_rows dt) as rows.
      induction rows as [| r rows IH]; intros rs Hrs HR; inversion Hrs as [| a b c rs0 Hr Hrs0 X Y]; subst; auto. cbn [map]. f_equal; [clear IH | ].
      - unfold pair. cbn [fst]. unfold tfields in Hr. rewrite map_app, combine_app_eq in Hr by (now rewrite map_length). apply mapO_Forall2, Forall2_app_inv_l in Hr as (r1 & r2 & F1 & F2 & ->).
        assert (List.length r1 = List.length (tpk ts)) as L1. { apply Forall2_length in F1. rewrite combine_length, map_length in F1. lia. }
        rewrite <- L1, firstn_app, firstn_all, Nat.sub_diag, firstn_O, app_nil_r. transitivity (packed r1); [| destruct r1 as [| a0 [| b0 l0]]; reflexivity]. f_equal.
        assert (forall x v, In (x, v) (combine (tpk ts) (map (db_cell dt r) (tpk ts))) -> read f t x v = Ret (R v)) as Q.
        { intros x v. apply HR. simpl. auto. }
        clear - F1 Q. revert F1 Q. generalize (tpk ts) as fs. intros fs. revert r1. induction fs as [| x fs IH]; intros r1 F1 Q; inversion F1 as [| a b c d E F X Y]; subst; auto.
        cbn [map]. cbn [fst snd] in E. rewrite (Q x) in E by (simpl; auto). injection E as <-. f_equal. apply IH; auto. intros; apply Q; simpl; auto.
      - apply IH; auto.
        intros r0 x v H0. apply HR. simpl. auto. }
    assert (List.length (dt_rows dt) = List.length (map pair rs)) as ->.
    { apply Forall2_length in Hrs. rewrite map_length, <- Hrs. unfold db_select. now rewrite map_length. }
    pose proof (dupdate_length pkey_eqb (map pair rs) []) as Hl. pose proof (dupdate_lost' (map pair rs) [] I) as Q. unfold dict_of. cbn [List.length plus app] in *.
    split; auto. rewrite Q, <- Ek. apply packed_distinct with (List.length (tpk ts)). { destruct (tpk ts); [contradiction | discriminate]. }
    intros k Hkk. unfold file_keys in Hkk. rewrite Hn, Hdt in Hkk. apply in_map_iff in Hkk as (r & <- & Hr). rewrite map_length.
    unfold db_select in Hr. apply in_map_iff in Hr as (r0 & <- & _). now rewrite map_length.
  Qed.

  (** Rows are lost exactly in the tables reported, provided the keys are read as the report reads them. *)
  Theorem file_lost_reported : forall f R db e rep t ts n dt, decl_ok (f_decl f) = true ->
    (forall t ts x v, In (t, ts) (plain_schema f) -> tpk ts <> [] -> read (duplicate_focused f) t x v = Ret (R v)) ->
    In (t, ts) (plain_schema f) -> tpk ts <> [] -> get_db_table (map fst db) t = Ret (Some n) -> find_table db n = Some dt ->
    (forall r x v, In r (db_select dt (tpk ts)) -> In (x, v) (combine (tpk ts) r) -> read f t x v = Ret (R v)) ->
    read_file date_of float_of read f db = Ret e -> file_duplicates date_of float_of read f db = Ret rep ->
    ((exists l, In (t, l) rep) <-> out_length (e t) < List.length (dt_rows dt)).
  Proof.
    intros f R db e rep t ts n dt Hd Hfoc Hin Hk Hn Hdt HR He Hr.
    destruct (file_lost f R db e t ts n dt Hd Hin Hk Hn Hdt HR He) as [Hle Hiff].
    destruct (file_duplicates_exact date_of float_of read f R db Hd Hfoc) as (rep' & Hr' & A & B).
    { intros t0 ts0 H1 H2. unfold read_file in He. apply bindO_ret in He as (names & Hc & _). unfold check_fields in Hc. apply bindO_ret in Hc as (names' & Hf & Hc).
      destruct (forallb _ names') eqn:F; [| discriminate]. injection Hc as ->. apply names_found_spec in Hf as [N1 N2].
      destruct (N1 t0) as (o & G1 & G2); [now apply (in_map fst) in H1 |]. exists o. split; auto. intros n0 ->.
      rewrite forallb_forall in F. apply dget_In in G2 as (t1 & E & G2). apply String.eqb_eq in E. subst t1. specialize (F _ G2). cbn [fst snd] in F.
      destruct (find_table db n0) as [dt0 |]; [| discriminate]. exists dt0. split; auto. intros x Hx. rewrite forallb_forall in F. apply F.
      rewrite (ts_of_In _ t0 ts0 (plain_wf f Hd) H1). unfold tfields. apply in_or_app. auto. }
    rewrite Hr in Hr'. injection Hr' as <-. specialize (B _ _ Hin Hk). split.
    - intros (l & Hl). destruct (A _ _ Hl) as (Hne & _ & _). destruct l as [| [k m] l]; [congruence |].
      assert (m = occurrences k (file_keys R db t ts) /\ 1 < m) as [E1 E2].
      { apply B. exists ((k, m) :: l), k. split; auto. split; [simpl; auto |]. now apply key_pyeq_iff. }
      assert (out_length (e t) <> List.length (dt_rows dt)) as N; [| lia]. intros E. rewrite Hiff in E. specialize (E k). lia.
    - intros Hlt. destruct (existsb (fun k => 1 <? occurrences k (file_keys R db t ts))%nat (file_keys R db t ts)) eqn:X.
      + apply existsb_exists in X as (k & _ & X). apply Nat.ltb_lt in X. destruct (proj2 (B k _) (conj eq_refl X)) as (l & k' & H1 & _). eauto.
      + exfalso. assert (out_length (e t) = List.length (dt_rows dt)) as E; [| lia]. apply Hiff. intros k.
        destruct (le_lt_dec (occurrences k (file_keys R db t ts)) 1) as [| Hg]; auto. exfalso.
        destruct (filter (fun k' => key_pyeq k' k) (file_keys R db t ts)) as [| k0 l] eqn:E; [unfold occurrences in Hg; rewrite E in Hg; simpl in Hg; lia |].
        assert (In k0 (filter (fun k' => key_pyeq k' k) (file_keys R db t ts))) as H0 by (rewrite E; simpl; auto). apply filter_In in H0 as [H0 H1].
        apply not_true_iff_false in X. apply X. apply existsb_exists. exists k0. split; auto. apply Nat.ltb_lt. now rewrite (occurrences_cong _ _ _ H1).
  Qed.
End Loss.
