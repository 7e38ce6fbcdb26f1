(** * Specification and correctness of find_foreign_key_failures. *)
From Coq Require Import ZArith Bool List String Arith Lia.
From Verif Require Import PyVal PyValFacts PyDict PyDictFacts ListFacts Data FindTypes FindTypesFacts
  ReplaceFacts Report FK.
Import ListNotations.

(** ** Specification *)

(** What add_foreign_key accepts (ticdatfactory.py 541-581). *)
Definition wf_fk (sch : schema) (f : fk) : Prop :=
  exists nts fts,
    In (fk_native f, nts) sch /\ In (fk_foreign f, fts) sch /\ fk_map f <> [] /\
    (forall nf ff, In (nf, ff) (fk_map f) -> In nf (tpk nts ++ tdf nts) /\ In ff (tpk fts ++ tdf fts)) /\
    NoDup (map fst (fk_map f)).

(** No two native fields are mapped to the same foreign field. *)
Definition distinct_foreign (f : fk) : Prop := NoDup (map snd (fk_map f)).

(** Child row (k, r) and parent row (k', r') agree on all mapped pairs. *)
Definition agree (nts fts : tschema) (m : list (string * string)) (k : key) (r : row) (k' : key) (r' : row)
  : Prop :=
  forall nf ff v w, In (nf, ff) m -> cell_in nts k r nf v -> cell_in fts k' r' ff w -> pyeq v w = true.

(** The child row (k, r) finds a parent. *)
Definition matched (sch : schema) (d : dat) (f : fk) (k : key) (r : row) : Prop :=
  exists nts fts rid' k' r',
    In (fk_native f, nts) sch /\ In (fk_foreign f, fts) sch /\
    row_in (d (fk_foreign f)) rid' k' r' /\ agree nts fts (fk_map f) k r k' r'.

(** Row [rid] of the native table has no parent. *)
Definition orphan (sch : schema) (d : dat) (f : fk) (rid : rowid) : Prop :=
  exists k r, row_in (d (fk_native f)) rid k r /\ ~ matched sch d f k r.

(** The mapped native values of a row. *)
Definition native_cells (sch : schema) (f : fk) (k : key) (r : row) (vals : list value) : Prop :=
  exists nts, In (fk_native f, nts) sch /\
    Forall2 (fun nf v => cell_in nts k r (fst nf) v) (fk_map f) vals.

Definition fk_reports_row (rep : freport) (f : fk) (rid : rowid) : Prop :=
  exists vals rids, In (f, (vals, rids)) rep /\ In rid rids.
Definition fk_reports_value (rep : freport) (f : fk) (v : list value) : Prop :=
  exists vals rids, In (f, (vals, rids)) rep /\ In v vals.
Definition fk_listed (rep : freport) : nat :=
  list_sum (map (fun e => List.length (snd (snd e))) rep).

(** ** Equality tests *)

Lemma list_eqb_eq {A} (eqb : A -> A -> bool) : (forall a b, eqb a b = true <-> a = b) ->
  forall l l', list_eqb eqb l l' = true <-> l = l'.
Proof.
  intros H. induction l as [| x l IH]; intros [| y l']; simpl; split; intros E; try discriminate; auto.
  - apply andb_prop in E as [E1 E2]. apply H in E1. apply IH in E2. now subst.
  - injection E as -> ->. apply andb_true_intro. split; [now apply H | now apply IH].
Qed.

Lemma fk_eqb_eq : forall a b, fk_eqb a b = true <-> a = b.
Proof.
  intros [n f m] [n' f' m']. unfold fk_eqb. simpl. split.
  - intros H. apply andb_prop in H as [H H3]. apply andb_prop in H as [H1 H2].
    apply String.eqb_eq in H1, H2. apply (list_eqb_eq pair_eqb tf_eqb_eq) in H3. now subst.
  - intros E. injection E as -> -> ->. rewrite !String.eqb_refl. simpl.
    now apply (list_eqb_eq pair_eqb tf_eqb_eq).
Qed.

(** ** Cells *)

Lemma index_of_nth : forall l i f, NoDup l -> nth_error l i = Some f -> index_of f l = i.
Proof.
  induction l as [| x l IH]; intros [| i] f Hnd H; simpl in *; try discriminate.
  - injection H as ->. now rewrite String.eqb_refl.
  - inversion Hnd; subst. destruct (String.eqb x f) eqn:E.
    + apply String.eqb_eq in E. subst. apply nth_error_In in H. contradiction.
    + f_equal. auto.
Qed.

Lemma getcell_cell_in : forall ts k r f v,
  wf_tschema ts -> List.length k = List.length (tpk ts) -> cell_in ts k r f v -> getcell ts k r f = v.
Proof.
  intros ts k r f v Hts Hk (i & Hf & Hv). unfold getcell.
  unfold wf_tschema, tfields in Hts.
  destruct (list_eqb String.eqb [f] (tpk ts)) eqn:E.
  - apply (list_eqb_eq _ String.eqb_eq) in E. rewrite <- E in *.
    destruct k as [| x [| y k]]; try discriminate.
    destruct i as [| i]; simpl in *.
    + injection Hv as ->. reflexivity.
    + inversion Hts; subst. exfalso. apply H1. eapply nth_error_In; eauto.
  - destruct (lt_dec i (List.length (tpk ts))) as [Hi | Hi].
    + rewrite nth_error_app1 in Hf by auto. rewrite nth_error_app1 in Hv by lia.
      rewrite dget_combine_None.
      * rewrite (index_of_nth _ i) by (eauto using NoDup_app_l). now apply nth_error_nth.
      * intros Hin. eapply NoDup_app_disj; eauto using nth_error_In.
    + rewrite nth_error_app2 in Hf by lia. rewrite nth_error_app2 in Hv by lia. rewrite Hk in Hv.
      rewrite (dget_combine _ _ (i - List.length (tpk ts)) f v); auto. eapply NoDup_app_r; eauto.
Qed.

Lemma key_pyeq_map {A} (g h : A -> value) : forall l,
  key_pyeq (map g l) (map h l) = true <-> forall x, In x l -> pyeq (g x) (h x) = true.
Proof.
  unfold key_pyeq. induction l as [| x l IH]; simpl; split.
  - intros _ y [].
  - auto.
  - intros H y [-> | Hy]; apply andb_prop in H as [H1 H2]; auto. apply IH; auto.
  - intros H. rewrite H by auto. simpl. apply IH. auto.
Qed.

Lemma map_getcell_pk : forall ts k r,
  wf_tschema ts -> List.length k = List.length (tpk ts) -> map (getcell ts k r) (tpk ts) = k.
Proof.
  intros ts k r Hts Hk. apply nth_error_ext. intros i. rewrite nth_error_map.
  destruct (nth_error (tpk ts) i) as [f |] eqn:E; simpl.
  - destruct (nth_error_ex k i) as [v Hv].
    { rewrite Hk. eapply nth_error_Some_lt; eauto. }
    rewrite Hv. f_equal. apply getcell_cell_in; auto. exists i.
    assert (i < List.length (tpk ts)) by (eapply nth_error_Some_lt; eauto).
    rewrite !nth_error_app1 by lia. auto.
  - symmetry. apply nth_error_None. apply nth_error_None in E. lia.
Qed.

Lemma table_data_spec : forall fts tb fields lk,
  wf_tschema fts -> wf_table fts tb -> fields <> [] ->
  (existsb (fun k' => key_pyeq k' lk) (table_data fts tb fields) = true <->
   exists rid k' r', row_in tb rid k' r' /\ key_pyeq (map (getcell fts k' r') fields) lk = true).
Proof.
  intros fts tb fields lk Hts Hwf Hne. unfold table_data.
  destruct (list_eqb String.eqb fields (tpk fts)) eqn:E.
  - apply (list_eqb_eq _ String.eqb_eq) in E. destruct tb as [l | l].
    + rewrite existsb_exists. split.
      * intros (k' & Hin & Ek). apply in_map_iff in Hin as ([k0 r0] & E0 & Hin). simpl in E0. subst k0.
        exists (RPk k'), k', r0. split; [simpl; auto |]. rewrite E, map_getcell_pk; auto.
        destruct Hwf as (_ & _ & Hl). now apply Hl in Hin.
      * intros (rid & k' & r' & [Hin ->] & Ek). exists k'. split.
        { apply in_map_iff. exists (k', r'). auto. }
        rewrite E, map_getcell_pk in Ek; auto. destruct Hwf as (_ & _ & Hl). now apply Hl in Hin.
    + destruct Hwf as [Hpk _]. congruence.
  - assert (existsb (fun k' => key_pyeq k' lk)
      (set_of key_pyeq (map (fun rkr => map (getcell fts (snd (fst rkr)) (snd rkr)) fields) (rows_of tb))) =
      existsb (fun k' => key_pyeq k' lk)
       (map (fun rkr => map (getcell fts (snd (fst rkr)) (snd rkr)) fields) (rows_of tb))) as ->.
    { apply (smem_set_of key_pyeq key_pyeq_trans). }
    rewrite existsb_exists. split.
    + intros (k0 & Hin & Ek). apply in_map_iff in Hin as ([[rid k'] r'] & E0 & Hin). simpl in E0. subst k0.
      apply rows_of_In in Hin. eauto.
    + intros (rid & k' & r' & Hin & Ek). eexists. split; [| exact Ek].
      apply in_map_iff. exists (rid, k', r'). simpl. split; auto. now apply rows_of_In.
Qed.

(** ** The foreign-to-native dictionary *)

Lemma f2n_distinct : forall m, NoDup (map snd m) -> foreign_to_native m = map (fun nf => (snd nf, fst nf)) m.
Proof.
  intros m H. unfold foreign_to_native. apply dict_of_distinct.
  apply keys_distinct_NoDup; [apply String.eqb_eq |]. rewrite map_map. simpl. exact H.
Qed.

Lemma n2f_distinct : forall m, NoDup (map fst m) -> NoDup (map snd m) -> native_to_foreign m = m.
Proof.
  intros m H1 H2. unfold native_to_foreign. rewrite f2n_distinct, map_map by auto. cbn [fst snd].
  assert (map (fun x : string * string => (fst x, snd x)) m = m) as -> by (clear; induction m as [| [a b] m IH]; simpl; congruence).
  apply dict_of_distinct. now apply (keys_distinct_NoDup String.eqb String.eqb_eq).
Qed.

Lemma f2n_get : forall m nf ff, NoDup (map snd m) ->
  (dget String.eqb (foreign_to_native m) ff = Some nf <-> In (nf, ff) m).
Proof.
  intros m nf ff H. rewrite f2n_distinct by auto.
  assert (NoDup (map fst (map (fun nf : string * string => (snd nf, fst nf)) m))) as Hnd
    by (rewrite map_map; exact H).
  rewrite dget_In_NoDup by auto. rewrite in_map_iff. split.
  - intros ([a b] & E & Hin). simpl in E. injection E as -> ->. auto.
  - intros Hin. exists (nf, ff). auto.
Qed.

Lemma ffs_In : forall fts m ff, NoDup (map snd m) ->
  (In ff (ffs_of fts m) <-> In ff (tfields fts) /\ exists nf, In (nf, ff) m).
Proof.
  intros fts m ff H. unfold ffs_of. rewrite filter_In. unfold dmem. split.
  - intros [H1 H2]. split; auto. destruct (dget String.eqb (foreign_to_native m) ff) eqn:E; try discriminate.
    apply f2n_get in E; eauto.
  - intros [H1 (nf & H2)]. split; auto. apply f2n_get in H2; auto. now rewrite H2.
Qed.

Lemma fk_fails_iff : forall sch d f rid k r,
  wf_schema sch -> wf_dat sch d -> wf_fk sch f -> distinct_foreign f ->
  row_in (d (fk_native f)) rid k r ->
  (fk_fails sch d f k r = false <-> matched sch d f k r).
Proof.
  intros sch d f rid k r Hs Hd (nts & fts & Hn & Hf & Hne & Hflds & Hnd) Hdf Hrow.
  assert (wf_tschema nts) as Hwn by (now apply (proj2 Hs) in Hn).
  assert (wf_tschema fts) as Hwf by (now apply (proj2 Hs) in Hf).
  pose proof (row_in_key_length _ _ _ _ _ (Hd _ _ Hn) Hrow) as Hk.
  unfold fk_fails. rewrite (ts_of_In _ _ _ Hs Hn), (ts_of_In _ _ _ Hs Hf).
  rewrite negb_false_iff, table_data_spec; auto.
  2:{ destruct (fk_map f) as [| [nf ff] m] eqn:Em; [congruence |]. intros E.
      assert (In ff (ffs_of fts ((nf, ff) :: m))) as H.
      { apply ffs_In; [unfold distinct_foreign in Hdf; now rewrite Em in Hdf |].
        split; [apply (Hflds nf ff); now left |]. exists nf. now left. }
      rewrite E in H. destruct H. }
  unfold look_up. split.
  - intros (rid' & k' & r' & Hrow' & E). rewrite key_pyeq_map in E.
    exists nts, fts, rid', k', r'. repeat split; auto.
    intros nf ff v w Hin Hv Hw.
    assert (In ff (ffs_of fts (fk_map f))) as Hff.
    { apply ffs_In; auto. split; eauto. now apply Hflds in Hin. }
    specialize (E _ Hff). unfold dget_or in E. pose proof Hin as Hin'.
    apply f2n_get in Hin'; auto. rewrite Hin' in E.
    rewrite (getcell_cell_in _ _ _ _ _ Hwn Hk Hv) in E.
    rewrite (getcell_cell_in fts k' r' ff w) in E; auto.
    + rewrite pyeq_sym. auto.
    + eapply row_in_key_length; eauto.
  - intros (nts' & fts' & rid' & k' & r' & Hn' & Hf' & Hrow' & Hag).
    assert (nts' = nts) as -> by (rewrite <- (ts_of_In _ _ _ Hs Hn'); now apply ts_of_In).
    assert (fts' = fts) as -> by (rewrite <- (ts_of_In _ _ _ Hs Hf'); now apply ts_of_In).
    exists rid', k', r'. split; auto. apply key_pyeq_map. intros ff Hff.
    apply ffs_In in Hff as [Hff (nf & Hin)]; auto.
    unfold dget_or. pose proof Hin as Hin'. apply f2n_get in Hin'; auto. rewrite Hin'.
    destruct (Hflds _ _ Hin) as [Hnf _].
    destruct (cell_in_exists nts _ _ _ _ _ (Hd _ _ Hn) Hrow Hnf) as (v & Hv).
    destruct (cell_in_exists fts _ _ _ _ _ (Hd _ _ Hf) Hrow' Hff) as (w & Hw).
    rewrite (getcell_cell_in _ _ _ _ _ Hwn Hk Hv).
    rewrite (getcell_cell_in fts k' r' ff w); auto.
    + rewrite pyeq_sym. eapply Hag; eauto.
    + eapply row_in_key_length; eauto.
Qed.

(** ** Events *)

Definition fk_cands (d : dat) (fks : list fk) : list (fk * (rowid * key * row)) :=
  flat_map (fun f => map (fun rkr => (f, rkr)) (rows_of (d (fk_native f)))) fks.

Definition fk_bad (sch : schema) (d : dat) (c : fk * (rowid * key * row)) : bool :=
  fk_fails sch d (fst c) (snd (fst (snd c))) (snd (snd c)).

Definition fk_ev (sch : schema) (c : fk * (rowid * key * row)) : fk_event :=
  mkFe (fst c) (fst (fst (snd c))) (native_values sch (fst c) (snd (fst (snd c))) (snd (snd c))).

Definition fk_events (sch : schema) (fks : list fk) (d : dat) : list fk_event :=
  map (fk_ev sch) (filter (fk_bad sch d) (fk_cands d fks)).

Lemma populate_fks_flat : forall sch fks d mx,
  populate_fks sch fks d mx = gpopulate fk_eqb key_pyeq fe_fk fe_val fe_row mx (fk_events sch fks d).
Proof.
  intros sch fks d mx. unfold populate_fks, gpopulate, fk_events.
  rewrite for_each_map, <- for_each_filter. unfold fk_cands. rewrite <- for_each_flat.
  f_equal. f_equal. apply for_each_ext. intros f s _. rewrite for_each_map.
  apply for_each_ext. intros [[rid k] r] s' _. unfold fk_bad. simpl.
  destruct (fk_fails sch d f k r); reflexivity.
Qed.

Definition freport_of (evs : list fk_event) : freport := greport_of fk_eqb key_pyeq fe_fk fe_val fe_row evs.

Lemma find_fks_all : forall sch fks d,
  find_foreign_key_failures sch fks d PInf = Some (freport_of (fk_events sch fks d)).
Proof.
  intros sch fks d. unfold find_foreign_key_failures. simpl. rewrite populate_fks_flat, gpopulate_all.
  reflexivity.
Qed.

Lemma find_fks_bounded : forall sch fks d mx n,
  num_ltb (of_int 0) mx = true -> rounds_up mx n ->
  find_foreign_key_failures sch fks d mx = Some (freport_of (firstn n (fk_events sch fks d))).
Proof.
  intros sch fks d mx n H1 H2. unfold find_foreign_key_failures. rewrite H1.
  rewrite populate_fks_flat, (gpopulate_bounded _ _ _ _ _ _ n) by auto. reflexivity.
Qed.

Lemma fk_events_NoDup : forall sch fks d,
  wf_dat sch d -> (forall f, In f fks -> wf_fk sch f) -> NoDup fks ->
  NoDup (map (gid fe_fk fe_row) (fk_events sch fks d)).
Proof.
  intros sch fks d Hd Hfks Hnd. unfold fk_events. rewrite map_map.
  apply (filter_NoDup_map (fun c => gid fe_fk fe_row (fk_ev sch c))).
  unfold fk_cands. rewrite map_flat_map.
  apply (NoDup_flat_map _ (fun f => f) (fun x : fk * rowid => fst x)).
  - now rewrite map_id.
  - intros f Hf. destruct (Hfks f Hf) as (nts & _ & Hn & _). rewrite map_map.
    unfold gid. simpl.
    assert (map (fun x : rowid * key * row => (f, rid_canon (fst (fst x)))) (rows_of (d (fk_native f))) =
            map (fun c => (f, c)) (map (fun x => rid_canon (fst (fst x))) (rows_of (d (fk_native f)))))
      as -> by now rewrite map_map.
    apply FinFun.Injective_map_NoDup; [congruence |].
    apply (rows_of_NoDup nts). auto.
  - intros f y _ Hy. rewrite map_map in Hy. apply in_map_iff in Hy as (x & <- & _). reflexivity.
Qed.

Lemma fk_events_In : forall sch fks d e,
  In e (fk_events sch fks d) <->
  exists k r, In (fe_fk e) fks /\ row_in (d (fk_native (fe_fk e))) (fe_row e) k r /\
    fk_fails sch d (fe_fk e) k r = true /\ fe_val e = native_values sch (fe_fk e) k r.
Proof.
  intros sch fks d [f rid v]. unfold fk_events. rewrite in_map_iff. simpl. split.
  - intros ([f0 [[rid0 k] r]] & E & Hin). unfold fk_ev in E. simpl in E. injection E as E1 E2 E3. subst f0 rid0.
    apply filter_In in Hin as [Hin Hb]. unfold fk_cands in Hin.
    apply in_flat_map in Hin as (f1 & Hf1 & Hin). apply in_map_iff in Hin as ([[rid1 k1] r1] & E & Hin).
    injection E as E4 E5 E6 E7. subst f1 rid1 k1 r1. exists k, r. apply rows_of_In in Hin. auto.
  - intros (k & r & Hf & Hrow & Hb & Hv). exists (f, (rid, k, r)). split; [unfold fk_ev; simpl; now rewrite Hv |].
    apply filter_In. split; auto. unfold fk_cands. apply in_flat_map. exists f. split; auto.
    apply in_map_iff. exists (rid, k, r). split; auto. now apply rows_of_In.
Qed.

Lemma native_values_cells : forall sch d f rid k r,
  wf_schema sch -> wf_dat sch d -> wf_fk sch f -> row_in (d (fk_native f)) rid k r ->
  forall vals, native_cells sch f k r vals <-> vals = native_values sch f k r.
Proof.
  intros sch d f rid k r Hs Hd (nts & fts & Hn & Hf & Hne & Hflds & Hnd) Hrow vals.
  assert (wf_tschema nts) as Hwn by (now apply (proj2 Hs) in Hn).
  pose proof (row_in_key_length _ _ _ _ _ (Hd _ _ Hn) Hrow) as Hk.
  unfold native_values. rewrite (ts_of_In _ _ _ Hs Hn). split.
  - intros (nts' & Hn' & HF).
    assert (nts' = nts) as -> by (rewrite <- (ts_of_In _ _ _ Hs Hn'); now apply ts_of_In).
    clear Hne Hflds Hnd. induction HF as [| [nf ff] v m vs Hc HF IH]; simpl; auto.
    f_equal; auto. symmetry. now apply getcell_cell_in.
  - intros ->. exists nts. split; auto. clear Hne Hnd.
    induction (fk_map f) as [| [nf ff] m IH]; simpl; constructor.
    + simpl. destruct (Hflds nf ff (or_introl eq_refl)) as [Hnf _].
      destruct (cell_in_exists nts _ _ _ _ _ (Hd _ _ Hn) Hrow Hnf) as (v & Hv).
      now rewrite (getcell_cell_in _ _ _ _ _ Hwn Hk Hv).
    + apply IH. intros nf' ff' Hin. apply Hflds. now right.
Qed.

(** ** Main theorem *)

Theorem find_fks_exact : forall sch fks d rep,
  wf_schema sch -> wf_dat sch d -> NoDup fks ->
  (forall f, In f fks -> wf_fk sch f /\ distinct_foreign f) ->
  find_foreign_key_failures sch fks d PInf = Some rep ->
  (forall f rid, fk_reports_row rep f rid <-> In f fks /\ orphan sch d f rid) /\
  (forall f vals, fk_reports_value rep f vals ->
     exists rid k r, fk_reports_row rep f rid /\ row_in (d (fk_native f)) rid k r /\
                     native_cells sch f k r vals) /\
  (forall f rid k r vals, fk_reports_row rep f rid -> row_in (d (fk_native f)) rid k r ->
     native_cells sch f k r vals -> exists vals', fk_reports_value rep f vals' /\ key_pyeq vals' vals = true) /\
  (forall f vals rids, In (f, (vals, rids)) rep -> rids <> [] /\ vals <> []) /\
  NoDup (map fst rep).
Proof.
  intros sch fks d rep Hs Hd Hnd Hfks H. rewrite find_fks_all in H. injection H as <-.
  assert (forall f, In f fks -> wf_fk sch f) as Hwf by (intros f Hf; now apply Hfks).
  pose proof (fk_events_NoDup sch fks d Hd Hwf Hnd) as Hev.
  assert (forall f rid k r, In f fks -> row_in (d (fk_native f)) rid k r ->
            (fk_fails sch d f k r = true <-> ~ matched sch d f k r)) as Hfail.
  { intros f rid k r Hf Hrow. destruct (Hfks f Hf) as [Hw Hdf].
    rewrite <- (fk_fails_iff sch d f rid k r Hs Hd Hw Hdf Hrow). destruct (fk_fails sch d f k r); split; congruence. }
  assert (forall f rid, fk_reports_row (freport_of (fk_events sch fks d)) f rid <->
            In f fks /\ orphan sch d f rid) as Hrows.
  { intros f rid.
    assert (fk_reports_row (freport_of (fk_events sch fks d)) f rid <->
            exists e, In e (fk_events sch fks d) /\ fe_fk e = f /\ fe_row e = rid) as ->.
    { apply (greport_of_rows fk_eqb fk_eqb_eq); auto. }
    split.
    - intros (e & He & <- & <-). apply fk_events_In in He as (k & r & Hf & Hrow & Hb & _).
      split; auto. exists k, r. split; auto. eapply Hfail; eauto.
    - intros (Hf & k & r & Hrow & Hm). exists (mkFe f rid (native_values sch f k r)).
      split; auto. apply fk_events_In. exists k, r. repeat split; auto. eapply Hfail; eauto. }
  split; [exact Hrows |]. split; [| split; [| split]].
  - intros f vals Hv.
    apply (greport_of_values fk_eqb fk_eqb_eq key_pyeq key_pyeq_refl key_pyeq_trans) in Hv; auto.
    destruct Hv as (e & He & <- & <-). pose proof He as He'.
    apply fk_events_In in He as (k & r & Hf & Hrow & Hb & Hv).
    exists (fe_row e), k, r. repeat split; auto.
    + apply (greport_of_rows fk_eqb fk_eqb_eq); eauto.
    + eapply native_values_cells; eauto.
  - intros f rid k r vals Hr Hrow Hc. pose proof Hr as Hr'. apply Hrows in Hr' as [Hf _].
    apply (greport_of_rows fk_eqb fk_eqb_eq) in Hr as (e & He & <- & <-); auto.
    pose proof He as He'. apply fk_events_In in He as (k0 & r0 & _ & Hrow0 & Hb & Hv).
    destruct (Hwf _ Hf) as (nts & _ & Hn & _).
    destruct (row_in_canon nts _ _ _ _ _ _ _ (Hd _ _ Hn) Hrow Hrow0 (rowid_pyeq_refl _)) as (_ & -> & ->).
    apply (greport_of_values fk_eqb fk_eqb_eq key_pyeq key_pyeq_refl key_pyeq_trans); auto.
    exists e. repeat split; auto. rewrite Hv. symmetry. eapply native_values_cells; eauto.
  - intros f vals rids Hin.
    eapply (greport_of_nonempty fk_eqb fk_eqb_eq key_pyeq key_pyeq_refl key_pyeq_trans); eauto.
  - apply (greport_of_keys_NoDup fk_eqb fk_eqb_eq).
Qed.

Theorem find_fks_bounded_spec : forall sch fks d mx n rep repm,
  wf_schema sch -> wf_dat sch d -> NoDup fks -> (forall f, In f fks -> wf_fk sch f) ->
  num_ltb (of_int 0) mx = true -> rounds_up mx n ->
  find_foreign_key_failures sch fks d PInf = Some rep ->
  find_foreign_key_failures sch fks d mx = Some repm ->
  fk_listed repm = Nat.min n (fk_listed rep) /\
  (forall f rid, fk_reports_row repm f rid -> fk_reports_row rep f rid) /\
  (forall f v, fk_reports_value repm f v ->
     exists v', fk_reports_value rep f v' /\ key_pyeq v' v = true).
Proof.
  intros sch fks d mx n rep repm Hs Hd Hnd Hwf Hpos Hn H1 H2.
  rewrite find_fks_all in H1. injection H1 as <-.
  rewrite (find_fks_bounded _ _ _ _ n) in H2 by auto. injection H2 as <-.
  pose proof (fk_events_NoDup sch fks d Hd Hwf Hnd) as Hev.
  pose proof (firstn_NoDup_map (gid fe_fk fe_row) n _ Hev) as Hev'.
  split; [| split].
  - unfold freport_of.
    pose proof (greport_of_count fk_eqb fk_eqb_eq key_pyeq fe_fk fe_val fe_row _ Hev) as E1.
    pose proof (greport_of_count fk_eqb fk_eqb_eq key_pyeq fe_fk fe_val fe_row _ Hev') as E2.
    transitivity (List.length (firstn n (fk_events sch fks d))); [exact E2 |].
    rewrite firstn_length. f_equal. symmetry. exact E1.
  - intros f rid H. apply (greport_of_rows fk_eqb fk_eqb_eq) in H as (e & He & H); auto.
    apply (greport_of_rows fk_eqb fk_eqb_eq); auto. exists e. split; auto. eapply firstn_incl; eauto.
  - intros f v H.
    apply (greport_of_values fk_eqb fk_eqb_eq key_pyeq key_pyeq_refl key_pyeq_trans) in H as (e & He & H); auto.
    apply (greport_of_values fk_eqb fk_eqb_eq key_pyeq key_pyeq_refl key_pyeq_trans); auto.
    exists e. split; auto. eapply firstn_incl; eauto.
Qed.
