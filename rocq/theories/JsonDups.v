(** * JSON: which cells come back, and the duplicates report. *)
From Coq Require Import ZArith Bool List String Ascii Arith Lia Permutation.
From Verif Require Import PyVal PyValFacts PyDict PyDictFacts PyStr ListFacts TypeDict Data FindTypes FindTypesFacts FK Obj ObjFacts ObjMore
  Factory FactoryFacts InfIO InfIOFacts Params Names NamesFacts Utils UtilsMore Json ObjRows JsonFacts.
Import ListNotations.
Local Open Scope string_scope.
Local Open Scope list_scope.

(** ** Cells *)

Section Cells.
  Variable date_of : value -> option Z.
  Variable float_of : value -> option value.
  Variable show_date : Z -> string.
  Variable f : factory.

  Definition not_datetime (v : value) : Prop := forall d, v <> VDate d.

  Lemma write_no_date t x v : not_datetime v -> json_write_cell date_of show_date f t x v = fst (write_cell date_of (mkIO f []) t x v).
  Proof. intros H. destruct v; auto. now destruct (H z). Qed.

  Lemma trip_na t x v : is_table f t = true -> t <> "parameters" -> f_flag f = VStr "N/A" -> not_datetime v ->
    kept date_of float_of f t x v -> cell_trip date_of float_of show_date f t x v v.
  Proof.
    intros Ht Hp Hf Hd Hk. unfold cell_trip. rewrite write_no_date by auto.
    apply (round_trip_na date_of float_of (mkIO f []) (mkIO f [])); auto. apply reached_fresh.
  Qed.

  Lemma trip_numeric t x v m : is_table f t = true -> t <> "parameters" -> f_flag f = VNum m -> good_flag (VNum m) = true -> not_datetime v ->
    kept date_of float_of f t x v ->
    (forall n, v = VNum n -> n = PInf \/ n = NInf ->
       kept date_of float_of f t x (VNum m) /\ kept date_of float_of f t x (VNum (num_opp m))) ->
    (forall n, v = VNum n -> n = PInf \/ n = NInf \/ within m n) ->
    cell_trip date_of float_of show_date f t x v v.
  Proof.
    intros Ht Hp Hf Hg Hd Hk H1 H2. unfold cell_trip. rewrite write_no_date by auto.
    apply (round_trip_numeric date_of float_of (mkIO f []) (mkIO f [])) with (m := m); auto; apply reached_fresh.
  Qed.

  Lemma trip_none t x v : is_table f t = true -> t <> "parameters" -> f_flag f = VNone -> not_datetime v ->
    kept date_of float_of f t x v ->
    (forall dt, field_type f t x = Some dt -> valid_data (is_date date_of) dt v = true) ->
    fst (write_cell date_of (mkIO f []) t x v) <> Raise ->
    cell_trip date_of float_of show_date f t x v v.
  Proof.
    intros Ht Hp Hf Hd Hk H1 H2. unfold cell_trip. rewrite write_no_date by auto.
    apply (round_trip_none date_of float_of (mkIO f []) (mkIO f [])); auto; apply reached_fresh.
  Qed.

  Lemma trip_date t x d dt : is_table f t = true -> t <> "parameters" -> field_type f t x = Some dt -> datetime dt = true ->
    date_of (VStr (show_date d)) = Some d -> cell_trip date_of float_of show_date f t x (VDate d) (VDate d).
  Proof.
    intros Ht Hp Hf Hd Hs. exists (VStr (show_date d)). split; auto. unfold json_read_cell, read_cell. cbn [io_fac].
    rewrite Ht. cbn [negb]. apply String.eqb_neq in Hp. rewrite Hp, Hf, Hd. cbn [is_null negb andb adjust]. now rewrite Hs.
  Qed.

  (** A datetime in a field without a type comes back as its text. *)
  Lemma trip_untyped_date t x d : is_table f t = true -> t <> "parameters" -> field_type f t x = None -> f_flag f = VStr "N/A" ->
    forall v', cell_trip date_of float_of show_date f t x (VDate d) v' <-> v' = VStr (show_date d).
  Proof.
    intros Ht Hp Hf Hflag v'.
    assert (json_read_cell date_of float_of f t x (VStr (show_date d)) = Ret (VStr (show_date d))) as E.
    { unfold json_read_cell, read_cell. cbn [io_fac]. rewrite Ht. cbn [negb]. apply String.eqb_neq in Hp. rewrite Hp, Hf, Hflag.
      unfold munge. rewrite Hf. reflexivity. }
    unfold cell_trip. cbn [json_write_cell]. split.
    - intros (w & A & B). injection A as <-. rewrite E in B. now injection B.
    - intros ->. eauto.
  Qed.
End Cells.

(** ** Duplicates *)

(** Entries of a JSON object have different names. *)
Definition dict_rows (rows : list rowin) : Prop :=
  forall l, In (RDict l) rows -> NoDup (map fst l).

Lemma keys_tables_In : forall sch t ts, In (t, ts) (keyed_tables sch) <-> In (t, ts) sch /\ tpk ts <> [].
Proof.
  intros sch t ts. unfold keyed_tables. rewrite filter_In. cbn [snd]. rewrite negb_true_iff, Nat.eqb_neq.
  destruct (tpk ts); simpl; intuition; try discriminate; auto.
Qed.

Lemma filter_names_nodup : forall (sch : schema) p, NoDup (map fst sch) -> NoDup (map fst (filter p sch)).
Proof.
  induction sch as [| a sch IH]; intros p H; simpl; auto. inversion H as [| ? ? Hn Hd]; subst.
  destruct (p a); simpl; auto. constructor; auto. intros Hc. apply Hn.
  apply in_map_iff in Hc as (b & Hb & Hin). apply filter_In in Hin as [Hin _]. rewrite <- Hb. now apply in_map.
Qed.

Lemma all_data_In : forall sch t ts, In (t, ts) (all_data sch) <-> exists ts0, In (t, ts0) sch /\ tpk ts0 <> [] /\ ts = mkT [] (tfields ts0).
Proof.
  intros sch t ts. unfold all_data. rewrite in_map_iff. split.
  - intros ([t0 ts0] & E & Hin). injection E as <- <-. apply keys_tables_In in Hin. cbn [fst snd]. exists ts0. tauto.
  - intros (ts0 & Hin & Hne & ->). exists (t, ts0). split; auto. now apply keys_tables_In.
Qed.

Lemma all_data_wf : forall sch, wf_schema sch -> wf_schema (all_data sch).
Proof.
  intros sch [H1 H2]. split.
  - unfold all_data. rewrite map_map. cbn [fst]. unfold keyed_tables. now apply filter_names_nodup.
  - intros t ts Hin. apply all_data_In in Hin as (ts0 & Hin & _ & ->). unfold wf_tschema, tfields. cbn [tpk tdf app].
    now apply H2 in Hin.
Qed.

Lemma fits_both : forall ts t x r kr, wf_tschema ts -> (forall l, x = RDict l -> NoDup (map fst l)) ->
  fits [] t (mkT [] (tfields ts)) x r -> fits_keyed ts x kr -> tpk ts <> [] ->
  fst kr = packed (firstn (List.length (tpk ts)) r) /\ List.length r = List.length (tfields ts).
Proof.
  intros ts t x r kr Hn Hd Hf (cells & Hl & Hc & Hk & _) Hne. fold (tfields ts) in *.
  assert (r = cells) as ->.
  { destruct x as [l | l | v]; simpl in Hf.
    - destruct Hc as [_ ->]. destruct Hf as (_ & Hlen & Hf). cbn [tdf] in *. apply (row_ext (tfields ts)); auto.
      intros g Hg. specialize (Hf g Hg). unfold cell_at in Hf. cbn [tdf] in Hf. rewrite Hf.
      rewrite dget_combine_map by auto. f_equal. unfold given, dget_or.
      rewrite (last_bind_distinct String.eqb).
      + now destruct (dget String.eqb l g).
      + intros a b. apply String.eqb_sym.
      + intros a b c Ha Hb. apply String.eqb_eq in Ha, Hb. subst. apply String.eqb_refl.
      + apply (keys_distinct_NoDup String.eqb String.eqb_eq). now apply Hd.
    - destruct Hf as [_ ->]. now subst.
    - destruct Hf as [_ ->]. now subst. }
  split; auto.
Qed.

Lemma key_row : forall ts (r : list value), wf_tschema ts -> List.length r = List.length (tfields ts) ->
  key_in_row (tpk ts) (combine (tfields ts) r) (firstn (List.length (tpk ts)) r).
Proof.
  intros ts r Hn Hl. unfold key_in_row, tfields in *. unfold wf_tschema, tfields in Hn.
  assert (forall i g v, nth_error (tpk ts) i = Some g -> nth_error r i = Some v ->
            dget String.eqb (combine (tpk ts ++ tdf ts) r) g = Some v) as H.
  { intros i g v Hi Hr. apply (dget_combine _ _ i); auto. rewrite nth_error_app1; auto. apply nth_error_Some. congruence. }
  assert (List.length (tpk ts) <= List.length r) as Hle by (rewrite Hl, app_length; lia).
  clear Hn Hl. revert H. set (src := combine (tpk ts ++ tdf ts) r). clearbody src. revert r Hle.
  induction (tpk ts) as [| p pk IH]; intros r Hle H; simpl; [constructor |].
  destruct r as [| v r]; simpl in *; [lia |]. constructor.
  - apply (H 0); auto.
  - apply IH; [lia |]. intros i g w Hi Hr. apply (H (S i)); auto.
Qed.

Lemma packed_cells_back : forall l, l <> [] -> key_cells (packed l) = l.
Proof. intros [| a [| b l]] H; auto; congruence. Qed.

Lemma packed_inj_canon : forall a b, List.length a = List.length b ->
  (canon_key (packed a) = canon_key (packed b) <-> key_pyeq a b = true).
Proof.
  intros a b Hl. rewrite key_pyeq_iff. destruct a as [| x [| y a]], b as [| x' [| y' b]]; simpl in *; try discriminate; split; intros H; try congruence.
Qed.

(** The keys of [rows] in table [ts]. *)
Lemma dup_keys : forall t ts rows ks l, wf_tschema ts -> tpk ts <> [] -> dict_rows rows ->
  keys_of_rows ts rows ks -> Forall2 (fits [] t (mkT [] (tfields ts))) rows l ->
  Forall2 (key_in_row (tpk ts)) (map (combine (tfields ts)) l) (map key_cells ks).
Proof.
  intros t ts rows ks l Hn Hne Hd Hk. revert l. unfold keys_of_rows in Hk.
  induction Hk as [| x k rows ks (r0 & Hk) _ IH]; intros l Hf; inversion Hf as [| ? r ? l' Hr Hl]; subst; simpl; constructor.
  - destruct (fits_both ts t x r (k, r0)) as [A B]; auto. { intros l ->. apply Hd. simpl. auto. }
    cbn [fst] in A. subst k. rewrite packed_cells_back.
    + now apply key_row.
    + unfold tfields in B. rewrite app_length in B. destruct (tpk ts) as [| p pk]; [congruence |]. destruct r; [simpl in B; lia |].
      discriminate.
  - apply IH; auto. intros m Hm. apply Hd. simpl. auto.
Qed.

Definition duplicate_reports (rtn : list (string * list (key * nat))) (t : string) (k : pkey) (n : nat) : Prop :=
  exists d k', In (t, d) rtn /\ In (k', n) d /\ key_pyeq k' (key_cells k) = true.

(** How many of [ks] are the key [k] under Python's [==]. *)
Definition times (k : pkey) (ks : list pkey) : nat := List.length (filter (fun k' => pkey_eqb k' k) ks).

Lemma occurrences_times : forall ts k ks, tpk ts <> [] -> List.length (key_cells k) = List.length (tpk ts) -> k = packed (key_cells k) ->
  (forall k', In k' ks -> List.length (key_cells k') = List.length (tpk ts) /\ k' = packed (key_cells k')) ->
  occurrences (key_cells k) (map key_cells ks) = times k ks.
Proof.
  intros ts k ks Hne Hk Hp. unfold occurrences, times. induction ks as [| k' ks IH]; intros H; simpl; auto.
  assert (key_pyeq (key_cells k') (key_cells k) = pkey_eqb k' k) as ->.
  { destruct (H k') as [A B]; [simpl; auto |].
    pose proof (packed_inj_canon (key_cells k') (key_cells k) ltac:(congruence)) as E. rewrite <- Hp, <- B, <- pkey_eqb_iff in E.
    destruct (key_pyeq (key_cells k') (key_cells k)), (pkey_eqb k' k); intuition congruence. }
  destruct (pkey_eqb k' k); simpl; rewrite IH; auto; intros; apply H; simpl; auto.
Qed.

Lemma keys_shape : forall ts rows ks k, tpk ts <> [] -> keys_of_rows ts rows ks -> In k ks ->
  List.length (key_cells k) = List.length (tpk ts) /\ k = packed (key_cells k).
Proof.
  intros ts rows ks k Hne Hk Hin. destruct (Forall2_In_r _ _ _ _ Hk Hin) as (x & _ & r & (cells & Hl & _ & E & _)).
  cbn [fst] in E. subst k. rewrite packed_cells_back.
  - split; auto. rewrite firstn_length, Hl, app_length. lia.
  - rewrite app_length in Hl. destruct (tpk ts); [congruence |]. destruct cells; [simpl in Hl; lia | discriminate].
Qed.

(** The rows that the literal key holds. *)
Definition doc_rows (doc : jdoc) (t : string) : list rowin := dget_or String.eqb doc t [].

Theorem json_duplicates_spec : forall sch doc, wf_schema sch -> NoDup (map fst doc) ->
  (forall t ts, In (t, ts) sch -> tpk ts <> [] -> dict_rows (doc_rows doc t) /\ exists ks, keys_of_rows ts (doc_rows doc t) ks) ->
  exists rtn, json_duplicates sch doc = Ret rtn /\
    (forall t, In t (map fst rtn) -> exists ts, In (t, ts) sch /\ tpk ts <> []) /\
    (forall t d, In (t, d) rtn -> exists k n, In (k, n) d) /\
    forall t ts ks, In (t, ts) sch -> tpk ts <> [] -> keys_of_rows ts (doc_rows doc t) ks ->
      (forall d k n, In (t, d) rtn -> In (k, n) d -> exists k0, In k0 ks /\ k = key_cells k0 /\ n = times k0 ks /\ 1 < n) /\
      (forall k, In k ks -> 1 < times k ks -> duplicate_reports rtn t k (times k ks)).
Proof.
  intros sch doc Hwf Hn Hrows. unfold json_duplicates.
  set (inputs := map (fun kr : string * list rowin => (fst kr, TRows (snd kr)))
                   (filter (fun kr => mem_str (fst kr) (map fst (keyed_tables sch))) doc)).
  pose proof (all_data_wf sch Hwf) as Hwf'.
  assert (NoDup (map fst inputs)) as Hni.
  { unfold inputs. rewrite map_map. cbn [fst]. clear - Hn. induction doc as [| a doc IH]; simpl; [constructor |].
    inversion Hn as [| ? ? Hx Hd]; subst. destruct (mem_str (fst a) _); simpl; auto. constructor; auto. intros Hc. apply Hx.
    apply in_map_iff in Hc as (b & Hb & Hin). apply filter_In in Hin as [Hin _]. rewrite <- Hb. now apply in_map. }
  assert (forall t inp, In (t, inp) inputs <-> exists ts, In (t, ts) sch /\ tpk ts <> [] /\ In (t, doc_rows doc t) doc /\ inp = TRows (doc_rows doc t)) as Hin.
  { intros t inp. unfold inputs. rewrite in_map_iff. split.
    - intros ([t0 rows] & E & Hf). injection E as <- <-. apply filter_In in Hf as [Hf Hm]. cbn [fst] in Hm.
      apply mem_str_iff in Hm. apply in_map_iff in Hm as ([t1 ts] & E & Hk). cbn [fst] in E. subst t1.
      apply keys_tables_In in Hk as [A B]. exists ts. cbn [fst snd].
      assert (doc_rows doc t0 = rows) as ->. { unfold doc_rows, dget_or. now rewrite (proj2 (dget_In_NoDup _ _ _ Hn) Hf). }
      auto.
    - intros (ts & A & B & C & ->). exists (t, doc_rows doc t). split; auto. apply filter_In. split; auto. cbn [fst].
      apply mem_str_iff. apply in_map_iff. exists (t, ts). split; auto. now apply keys_tables_In. }
  assert (exists td, construct (all_data sch) [] "assert" inputs = Some td) as [td Htd].
  { apply construct_assert; auto. split.
    - intros t inp Hi. apply Hin in Hi as (ts & A & B & C & ->). exists (mkT [] (tfields ts)). split.
      + apply all_data_In. eauto.
      + unfold good_input. cbn [tpk tdf]. intros x Hx. destruct (Hrows _ _ A B) as (_ & ks & Hk).
        destruct (Forall2_In_l _ _ _ _ Hk Hx) as (k & _ & r & (cells & Hl & Hc & _)).
        destruct x as [l | l | v]; simpl in *.
        * apply Hc.
        * unfold tfields. now subst.
        * subst. simpl in Hl. unfold tfields. lia.
    - intros t ts rows ks Hi Hs Hne _. apply all_data_In in Hs as (ts0 & _ & _ & ->). now destruct Hne. }
  rewrite Htd. apply construct_holds in Htd as [Hh He]; auto.
  set (rowf := fun t => match td t with OListed l => map (combine (tfields (ts_of sch t))) l | OKeyed _ => [] end).
  set (pks := map (fun tts : string * tschema => (fst tts, tpk (snd tts))) (keyed_tables sch)).
  assert (forall t ts, In (t, ts) sch -> ts_of sch t = ts) as Hts.
  { intros t ts H. unfold ts_of, dget_or. now rewrite (proj2 (schema_get _ _ _ (proj1 Hwf)) H). }
  assert (forall t ts ks, In (t, ts) sch -> tpk ts <> [] -> keys_of_rows ts (doc_rows doc t) ks ->
            Forall2 (key_in_row (tpk ts)) (rowf t) (map key_cells ks)) as Hkeys.
  { intros t ts ks A B Hk. unfold rowf. rewrite (Hts _ _ A). destruct (Hrows _ _ A B) as (Hd & _ & _).
    assert (In (t, mkT [] (tfields ts)) (all_data sch)) as A' by (apply all_data_In; eauto).
    destruct (in_dec string_dec t (map fst inputs)) as [Hi | Hi].
    - apply in_map_iff in Hi as ([t0 inp] & E & Hi). cbn [fst] in E. subst t0. pose proof (Hh _ _ _ A' Hi) as H.
      apply Hin in Hi as (ts1 & _ & _ & _ & ->). unfold holds in H. cbn [tpk] in H. destruct H as (l & -> & Hf).
      eapply dup_keys; eauto. apply Hwf in A. exact A.
    - rewrite (He _ _ A' Hi). cbn [tpk map]. assert (doc_rows doc t = []) as E.
      { unfold doc_rows, dget_or. destruct (dget String.eqb doc t) as [rows |] eqn:Eg; auto. exfalso. apply Hi.
        apply in_map_iff. exists (t, TRows rows). split; auto. apply Hin. exists ts.
        assert (doc_rows doc t = rows) as -> by (unfold doc_rows, dget_or; now rewrite Eg).
        apply dget_In_NoDup in Eg; auto. }
      rewrite E in Hk. inversion Hk. constructor. }
  assert (forall t flds, In (t, flds) pks <-> exists ts, In (t, ts) sch /\ tpk ts <> [] /\ flds = tpk ts) as Hpks.
  { intros t flds. unfold pks. rewrite in_map_iff. split.
    - intros ([t0 ts] & E & H). injection E as <- <-. apply keys_tables_In in H. cbn [fst snd]. exists ts. tauto.
    - intros (ts & A & B & ->). exists (t, ts). split; auto. now apply keys_tables_In. }
  assert (NoDup (map fst pks)) as Hnp.
  { unfold pks. rewrite map_map. cbn [fst]. unfold keyed_tables. apply filter_names_nodup. apply Hwf. }
  destruct (find_duplicates_total pks rowf) as (rtn & Hr).
  { intros t flds H. apply Hpks in H as (ts & A & B & ->). destruct (Hrows _ _ A B) as (_ & ks & Hk). eauto. }
  exists rtn. split; [exact Hr |]. split; [| split].
  - intros t Ht. apply in_map_iff in Ht as ([t0 d] & <- & Ht). destruct (find_duplicates_reports _ _ _ _ _ Hr Ht) as (H & _).
    apply in_map_iff in H as ([t1 flds] & E & H). cbn [fst] in *. subst t1. apply Hpks in H as (ts & A & B & _). eauto.
  - intros t d Ht. destruct (find_duplicates_reports _ _ _ _ _ Hr Ht) as (_ & H & _). destruct d as [| [k n] d]; [congruence |].
    exists k, n. simpl. auto.
  - intros t ts ks A B Hk.
    assert (In (t, tpk ts) pks) as Hp by (apply Hpks; eauto).
    pose proof (find_duplicates_counts _ _ _ _ _ _ Hnp Hr Hp (Hkeys _ _ _ A B Hk)) as Hc.
    pose proof (fun k => keys_shape ts _ _ k B Hk) as Hsh. split.
    + intros d k n Hd Hkn.
      pose proof (proj1 (Hc k n)) as Hc1. destruct Hc1 as [E L]. { exists d, k. split; auto. split; auto. apply key_pyeq_refl. }
      destruct (find_duplicates_spec _ _ _ Hr) as [_ S]. apply S in Hd as (flds' & ks' & Q1 & Q2 & -> & _).
      assert (flds' = tpk ts) as -> by (eapply nodup_fst_eq; eauto).
      assert (ks' = map key_cells ks) as ->.
      { pose proof (Hkeys _ _ _ A B Hk) as Q3. apply keys_of_iff in Q2, Q3. congruence. }
      apply dups_In in Hkn. apply in_map_iff in Hkn as (k0 & <- & Hk0). exists k0. destruct (Hsh _ Hk0) as [X Y].
      split; auto. split; auto. split; auto. subst n. apply (occurrences_times ts); auto.
    + intros k Hin' L. apply (Hc (key_cells k) (times k ks)). split; auto. destruct (Hsh _ Hin') as [X Y].
      symmetry. apply (occurrences_times ts); auto.
Qed.

Lemma times_pos : forall k ks, In k ks -> 0 < times k ks.
Proof.
  intros k ks H. unfold times. assert (In k (filter (fun k' => pkey_eqb k' k) ks)) as Hin.
  { apply filter_In. split; auto. apply pkey_eqb_refl. }
  destruct (filter _ ks); [contradiction | simpl; lia].
Qed.

Lemma filter_none {A} (p : A -> bool) : forall l, (forall x, In x l -> p x = false) -> filter p l = [].
Proof. induction l as [| x l IH]; intros H; simpl; auto. rewrite (H x); simpl; auto. apply IH. intros. apply H. simpl. auto. Qed.

Lemma no_equal_times : forall ks, no_equal_keys ks <-> forall k, In k ks -> times k ks = 1.
Proof.
  intros ks. rewrite <- no_equal_keys_iff. induction ks as [| a ks IH]; simpl.
  - split; auto. intros _ k [].
  - split.
    + intros [H1 H2] k Hk. unfold times. simpl. destruct (pkey_eqb a k) eqn:E.
      * simpl. f_equal. rewrite filter_none; auto. intros b Hb.
        destruct (pkey_eqb b k) eqn:E2; auto. rewrite <- (H1 b Hb). rewrite pkey_eqb_sym in E2.
        symmetry. eapply pkey_eqb_trans; eauto.
      * destruct Hk as [-> | Hk]; [now rewrite pkey_eqb_refl in E |]. now apply IH.
    + intros H. split.
      * intros b Hb. destruct (pkey_eqb a b) eqn:E; auto. specialize (H b (or_intror Hb)). unfold times in H. simpl in H.
        rewrite E in H. simpl in H. pose proof (times_pos b ks Hb). unfold times in *. lia.
      * apply IH. intros k Hk. specialize (H k (or_intror Hk)). pose proof (times_pos k ks Hk). unfold times in *. simpl in H.
        destruct (pkey_eqb a k); simpl in H; lia.
Qed.
