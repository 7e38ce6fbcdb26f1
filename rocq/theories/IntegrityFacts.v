(** * Facts about the integrity report. *)
From Coq Require Import ZArith Bool List String Arith Lia.
From Verif Require Import PyVal PyValFacts PyDict PyDictFacts ListFacts TypeDict Data FindTypes FindTypesFacts
  FK FKFacts PanFKFacts PanTypes PanTypesFacts Integrity.
Import ListNotations.
Local Open Scope list_scope.

(** ** Specification *)

(** [ids] names row [r] of a table: its primary key cells, or all its cells if the table has no primary key,
    then None up to length [n]. *)
Definition identifies (n : nat) (ts : tschema) (r : row) (ids : list value) : Prop :=
  let fs := if match tpk ts with [] => true | _ => false end then tdf ts else tpk ts in
  List.length ids = n /\
  (forall j f v, nth_error fs j = Some f -> cell_in ts [] r f v -> nth_error ids j = Some v) /\
  (forall j, List.length fs <= j -> j < n -> nth_error ids j = Some VNone).

(** Row [i] of [t] has the primary key of an earlier row. *)
Definition repeats_key (sch : schema) (d : pdat) (t : string) (i : nat) : Prop :=
  exists ts r j r', In (t, ts) sch /\ tpk ts <> [] /\ nth_error (d t) i = Some r /\ nth_error (d t) j = Some r' /\ j < i /\
    key_pyeq (firstn (List.length (tpk ts)) r') (firstn (List.length (tpk ts)) r) = true.

(** ** Flags *)

Lemma keep_In : forall rows flags r, List.length flags = List.length rows ->
  (In r (keep_flagged rows flags) <-> exists i, nth_error rows i = Some r /\ nth_error flags i = Some true).
Proof.
  unfold keep_flagged. induction rows as [| x rows IH]; intros [| b flags] r H; simpl in *; try discriminate.
  - split; [intros [] | intros (i & Hi & _); destruct i; discriminate].
  - injection H as H. specialize (IH flags r H). destruct b; simpl; rewrite IH; split.
    + intros [<- | (i & H1 & H2)]; [exists 0; auto | exists (S i); auto].
    + intros ([| i] & H1 & H2); simpl in *; [left; congruence | right; eauto].
    + intros (i & H1 & H2). exists (S i). auto.
    + intros ([| i] & H1 & H2); simpl in *; [discriminate | eauto].
Qed.

Lemma dup_flags_length : forall keys seen, List.length (dup_flags seen keys) = List.length keys.
Proof. induction keys; intros; simpl; auto. Qed.

Lemma dup_flags_nth : forall keys seen i, nth_error (dup_flags seen keys) i = Some true <->
  exists k, nth_error keys i = Some k /\
    ((exists k', In k' seen /\ key_pyeq k' k = true) \/
     exists j k', j < i /\ nth_error keys j = Some k' /\ key_pyeq k' k = true).
Proof.
  induction keys as [| k0 keys IH]; intros seen i; simpl.
  - split; [destruct i; discriminate | intros (k & H & _); destruct i; discriminate].
  - destruct i as [| i]; simpl.
    + split.
      * intros E. injection E as E. apply existsb_exists in E as (k' & H1 & H2). exists k0. split; auto. left. eauto.
      * intros (k & E & [(k' & H1 & H2) | (j & k' & H & _)]); [| lia]. injection E as <-. f_equal. apply existsb_exists. eauto.
    + rewrite IH. split.
      * intros (k & E & [(k' & [<- | H1] & H2) | (j & k' & H1 & H2 & H3)]); exists k; split; auto.
        -- right. exists 0, k0. split; [lia | auto].
        -- left. eauto.
        -- right. exists (S j), k'. split; [lia | auto].
      * intros (k & E & [(k' & H1 & H2) | ([| j] & k' & H1 & H2 & H3)]); exists k; split; auto.
        -- left. exists k'. split; auto. now right.
        -- simpl in H2. injection H2 as ->. left. exists k'. split; auto. now left.
        -- right. exists j, k'. split; [lia | auto].
Qed.

Lemma list_eq_nth {A} : forall l m : list A, (forall i, nth_error l i = nth_error m i) -> l = m.
Proof.
  induction l as [| x l IH]; intros [| y m] H; auto.
  - specialize (H 0). discriminate.
  - specialize (H 0). discriminate.
  - f_equal; [specialize (H 0); simpl in H; congruence | apply IH; intros i; apply (H (S i))].
Qed.

Lemma firstn_nth {A} : forall n (l : list A) i, nth_error (firstn n l) i = if Nat.ltb i n then nth_error l i else None.
Proof.
  induction n as [| n IH]; intros [| x l] [| i]; simpl; auto.
  - destruct (Nat.ltb (S i) (S n)); reflexivity.
  - rewrite IH. reflexivity.
Qed.

Lemma key_cells : forall ts r, wf_tschema ts -> List.length r = List.length (tfields ts) ->
  map (pcell ts r) (tpk ts) = firstn (List.length (tpk ts)) r.
Proof.
  intros ts r Hw H. apply list_eq_nth. intros i. rewrite firstn_nth, nth_error_map. unfold tfields in H. rewrite app_length in H.
  destruct (Nat.ltb_spec i (List.length (tpk ts))) as [Hi | Hi].
  - destruct (nth_error (tpk ts) i) as [f |] eqn:Ef; [| apply nth_error_None in Ef; lia].
    destruct (nth_error r i) as [v |] eqn:Ev; [| apply nth_error_None in Ev; unfold row in *; lia].
    simpl. f_equal. unfold pcell, dget_or. rewrite (dget_combine (tfields ts) r i f v); auto.
    unfold tfields. rewrite nth_error_app1 by auto. exact Ef.
  - assert (nth_error (tpk ts) i = None) as -> by (apply nth_error_None; lia). reflexivity.
Qed.

(** ** The report *)

Lemma id_cells_identify : forall n ts r, wf_tschema ts -> List.length (id_fields ts) <= n ->
  List.length (tfields ts) <= List.length r -> identifies n ts r (id_cells n ts r).
Proof.
  intros n ts r Hw Hn Hr. unfold identifies, id_cells.
  assert ((if match tpk ts with [] => true | _ => false end then tdf ts else tpk ts) = id_fields ts) as -> by (unfold id_fields; destruct (tpk ts); reflexivity).
  assert (exists rest, tfields ts = id_fields ts ++ rest) as (rest & Hf).
  { unfold id_fields, tfields. destruct (tpk ts); [exists []; now rewrite app_nil_r | eauto]. }
  assert (List.length (id_fields ts) <= List.length r) as Hl by (rewrite Hf, app_length in Hr; lia).
  assert (List.length (firstn (List.length (id_fields ts)) r) = List.length (id_fields ts)) as Hfl by (rewrite firstn_length; unfold row in *; lia).
  split; [| split].
  - rewrite app_length, Hfl, repeat_length. lia.
  - intros j f v Hj (i & Hi & Hv). simpl in Hv.
    assert (j < List.length (id_fields ts)) as Hlt by (apply nth_error_Some; congruence).
    rewrite nth_error_app1 by lia. rewrite firstn_nth. apply Nat.ltb_lt in Hlt as Hb. rewrite Hb.
    assert (i = j) as ->; [| exact Hv].
    assert (nth_error (tpk ts ++ tdf ts) j = Some f) as Hj'.
    { change (tpk ts ++ tdf ts) with (tfields ts). rewrite Hf, nth_error_app1 by auto. exact Hj. }
    unfold wf_tschema, tfields in Hw. rewrite NoDup_nth_error in Hw. apply Hw; [apply nth_error_Some; congruence | congruence].
  - intros j H1 H2. rewrite nth_error_app2 by lia. rewrite Hfl. apply nth_error_repeat. lia.
Qed.

Lemma longest_ge : forall sch t ts, In (t, ts) sch -> List.length (id_fields ts) <= longest sch.
Proof.
  intros sch t ts. unfold longest. induction sch as [| [t0 ts0] sch IH]; simpl; [tauto |].
  intros [E | H]; [injection E as -> ->; lia | apply IH in H; lia].
Qed.

Section Report.
  Variable parses : value -> bool.
  Variables (sch : schema) (tys : types) (fks : list fk) (preds : list ((string * string) * pred_fail)) (d : pdat).
  Hypothesis Hs : wf_schema sch.
  Hypothesis Hd : wf_pdat sch d.

  Lemma find_dups_In : forall t rows, In (t, rows) (find_dups sch d) ->
    exists ts, In (t, ts) sch /\ tpk ts <> [] /\ rows = keep_flagged (d t) (dup_flags [] (map (fun r => map (pcell ts r) (tpk ts)) (d t))).
  Proof.
    intros t rows H. apply in_flat_map in H as ([t0 ts] & Hin & H). simpl in H.
    destruct (tpk ts) as [| p0 pk0] eqn:Ep; [destruct H |].
    match type of H with In _ (if ?c then _ else _) => destruct c eqn:E; simpl in H; [| tauto] end.
    destruct H as [H | []]. injection H as <- <-. exists ts. split; [auto |]. split; [congruence |]. now rewrite Ep.
  Qed.

  Lemma dups_rows : forall t r, (exists rows, In (t, rows) (find_dups sch d) /\ In r rows) <->
    exists i, repeats_key sch d t i /\ nth_error (d t) i = Some r.
  Proof.
    intros t r. split.
    - intros (rows & H & Hr). apply find_dups_In in H as (ts & Hin & Hpk & ->).
      apply keep_In in Hr as (i & H1 & H2); [| now rewrite dup_flags_length, map_length].
      apply dup_flags_nth in H2 as (k & H2 & [(k' & [] & _) | (j & k' & Hj & H3 & H4)]).
      rewrite nth_error_map, H1 in H2. simpl in H2. rewrite nth_error_map in H3.
      destruct (nth_error (d t) j) as [r' |] eqn:Ej; [| discriminate]. simpl in H3. injection H2 as <-. injection H3 as <-.
      rewrite !key_cells in H4 by (first [eapply (proj2 Hs); eauto | eapply Hd; eauto using nth_error_In]).
      exists i. split; auto. exists ts, r, j, r'. auto 8.
    - intros (i & (ts & r0 & j & r' & Hin & Hpk & H1 & H2 & Hj & Hk) & Hr).
      assert (r0 = r) as -> by congruence.
      set (fl := dup_flags [] (map (fun r => map (pcell ts r) (tpk ts)) (d t))).
      assert (nth_error fl i = Some true) as Hi.
      { apply dup_flags_nth. exists (map (pcell ts r) (tpk ts)). rewrite nth_error_map, H1. split; auto. right.
        exists j, (map (pcell ts r') (tpk ts)). rewrite nth_error_map, H2. split; auto. split; auto.
        rewrite !key_cells by (first [eapply (proj2 Hs); eauto | eapply Hd; eauto using nth_error_In]). exact Hk. }
      exists (keep_flagged (d t) fl). split.
      + apply in_flat_map. exists (t, ts). split; auto. simpl. unfold fl in *. destruct (tpk ts) as [| p0 pk0] eqn:Ep; [congruence |].
        match goal with |- context [if ?c then _ else _] => assert (c = true) as -> end; [| now left].
        apply existsb_exists. exists true. split; auto. eapply nth_error_In. exact Hi.
      + apply keep_In; [unfold fl; now rewrite dup_flags_length, map_length | eauto].
  Qed.

  Lemma ts_unique : forall t ts ts', In (t, ts) sch -> In (t, ts') sch -> ts = ts'.
  Proof. intros t ts ts' H H'. rewrite <- (ts_of_In sch t ts), <- (ts_of_In sch t ts') by auto. reflexivity. Qed.

  Lemma ids_ok : forall t ts r, In (t, ts) sch -> In r (d t) -> identifies (longest sch) ts r (id_cells (longest sch) (ts_of sch t) r).
  Proof.
    intros t ts r H Hr. rewrite (ts_of_In sch t ts) by auto. apply id_cells_identify.
    - eapply (proj2 Hs); eauto.
    - eapply longest_ge; eauto.
    - unfold tfields. erewrite (Hd t ts r); eauto.
  Qed.

  Theorem report_exact : forall e, wf_types sch tys -> good_pan_fks sch fks ->
    integrity_solve parses sch [] tys fks preds d = Some e ->
    (forall t ids, In (t, ids) (e_dups e) <->
       exists i ts r, repeats_key sch d t i /\ In (t, ts) sch /\ nth_error (d t) i = Some r /\ ids = id_cells (longest sch) ts r) /\
    (forall t f ids, In (t, f, ids) (e_types e) <->
       exists i ts r v, pan_failing parses sch tys d t f i v /\ In (t, ts) sch /\ nth_error (d t) i = Some r /\ ids = id_cells (longest sch) ts r) /\
    (forall f ids, In (f, ids) (e_fks e) <->
       exists i ts r, In f fks /\ orphan (pan_schema sch) (as_dat d) f (RIdx i) /\ In (fk_native f, ts) sch /\
         nth_error (d (fk_native f)) i = Some r /\ ids = id_cells (longest sch) ts r).
  Proof.
    intros e Ht Hg H. unfold integrity_solve in H. destruct sch as [| s0 sch0] eqn:Esch; [discriminate |].
    rewrite <- Esch in *. clear s0 sch0 Esch.
    destruct (pan_find_types parses sch tys d PInf) as [trep |] eqn:Et; [| discriminate]. injection H as <-. cbn [e_dups e_types e_fks].
    pose proof (pan_find_exact_types parses sch tys d trep Hs Ht Hd Et) as (_ & T1 & T2).
    pose proof (pan_find_exact sch fks d Hs Hd Hg) as (F1 & F2).
    split; [| split].
    - intros t ids. rewrite in_flat_map. split.
      + intros ([t0 rows] & H1 & H2). simpl in H2. apply in_map_iff in H2 as (r & E & Hr). injection E as -> <-.
        apply find_dups_In in H1 as Hts. destruct Hts as (ts & Hin & _).
        destruct (proj1 (dups_rows t r) (ex_intro _ rows (conj H1 Hr))) as (i & Hi & Hn).
        exists i, ts, r. rewrite (ts_of_In sch t ts) by auto. auto.
      + intros (i & ts & r & H1 & Hin & H2 & ->).
        destruct (proj2 (dups_rows t r) (ex_intro _ i (conj H1 H2))) as (rows & H3 & H4).
        exists (t, rows). split; auto. simpl. apply in_map_iff. exists r. rewrite (ts_of_In sch t ts) by auto. auto.
    - intros t f ids. rewrite in_flat_map. split.
      + intros ([[t0 f0] fl] & H1 & H2). simpl in H2. apply in_map_iff in H2 as (r & E & Hr). injection E as -> -> <-.
        apply T1 in H1 as Hl. apply keep_In in Hr as (i & Hn & Hb); [| tauto].
        destruct (proj1 (T2 t f i) (ex_intro _ fl (conj H1 Hb))) as (v & Hv).
        pose proof Hv as ((ts & r0 & j & Hin & _) & _).
        exists i, ts, r, v. rewrite (ts_of_In sch t ts) by auto. auto.
      + intros (i & ts & r & v & H1 & Hin & H2 & ->).
        destruct (proj2 (T2 t f i) (ex_intro _ v H1)) as (fl & H3 & H4).
        exists ((t, f), fl). split; auto. simpl. apply in_map_iff. exists r. rewrite (ts_of_In sch t ts) by auto. split; auto.
        apply keep_In; [now apply T1 in H3 | eauto].
    - intros f ids. rewrite in_flat_map. split.
      + intros ([f0 fl] & H1 & H2). simpl in H2. apply in_map_iff in H2 as (r & E & Hr). injection E as -> <-.
        apply F2 in H1 as Hl. apply keep_In in Hr as (i & Hn & Hb); [| tauto].
        destruct (proj1 (F1 f i) (ex_intro _ fl (conj H1 Hb))) as (Hf & Ho).
        destruct (Hg f Hf) as ((nts & fts & Hn1 & _) & _).
        exists i, nts, r. rewrite (ts_of_In sch (fk_native f) nts) by auto. auto 6.
      + intros (i & ts & r & Hf & H1 & Hin & H2 & ->).
        destruct (proj2 (F1 f i) (conj Hf H1)) as (fl & H3 & H4).
        exists (f, fl). split; auto. simpl. apply in_map_iff. exists r. rewrite (ts_of_In sch (fk_native f) ts) by auto. split; auto.
        apply keep_In; [now apply F2 in H3 | eauto].
  Qed.
End Report.

(** The fields that name a row. *)
Definition naming (ts : tschema) : list string :=
  if match tpk ts with [] => true | _ => false end then tdf ts else tpk ts.

(** [n] is the width of the widest name. *)
Definition widest (sch : schema) (n : nat) : Prop :=
  (forall t ts, In (t, ts) sch -> List.length (naming ts) <= n) /\
  (exists t ts, In (t, ts) sch /\ List.length (naming ts) = n).

Lemma naming_id : forall ts, naming ts = id_fields ts.
Proof. intros ts. unfold naming, id_fields. destruct (tpk ts); reflexivity. Qed.

Lemma longest_widest : forall sch, sch <> [] -> widest sch (longest sch).
Proof.
  intros sch H. split.
  - intros t ts Hin. rewrite naming_id. eapply longest_ge; eauto.
  - unfold longest. induction sch as [| [t ts] sch IH]; [congruence |]. simpl.
    destruct sch as [| s0 sch0].
    + exists t, ts. simpl. rewrite naming_id, Nat.max_0_r. auto.
    + destruct IH as (t' & ts' & Hin & E); [discriminate |].
      destruct (Nat.max_spec (List.length (id_fields ts))
        (fold_right Nat.max 0 (map (fun tts => List.length (id_fields (snd tts))) (s0 :: sch0)))) as [[_ ->] | [_ ->]].
      * exists t', ts'. split; [now right | exact E].
      * exists t, ts. split; [now left | now rewrite naming_id].
Qed.

Lemma widest_unique : forall sch n m, widest sch n -> widest sch m -> n = m.
Proof.
  intros sch n m [A (t & ts & H & <-)] [B (t' & ts' & H' & <-)]. apply Nat.le_antisymm; eauto.
Qed.

Lemma identifies_unique : forall n ts r ids ids', wf_tschema ts -> List.length (tfields ts) <= List.length r ->
  List.length (naming ts) <= n ->
  identifies n ts r ids -> identifies n ts r ids' -> ids = ids'.
Proof.
  intros n ts r ids ids' Hw Hr Hn (L & A & B) (L' & A' & B'). fold (naming ts) in *. apply list_eq_nth. intros i.
  destruct (Nat.lt_ge_cases i (List.length (naming ts))) as [Hi | Hi].
  - destruct (nth_error (naming ts) i) as [f |] eqn:Ef; [| apply nth_error_None in Ef; lia].
    assert (exists v, cell_in ts [] r f v) as (v & Hv).
    { assert (In f (tpk ts ++ tdf ts)) as Hf.
      { apply nth_error_In in Ef. unfold naming in Ef. apply in_or_app. destruct (tpk ts); simpl in *; auto. }
      apply In_nth_error in Hf as (j & Hj). assert (j < List.length (tpk ts ++ tdf ts)) as Hlt by (apply nth_error_Some; congruence).
      destruct (nth_error r j) as [v |] eqn:Ev; [exists v, j; auto |]. apply nth_error_None in Ev. unfold tfields, row in *. lia. }
    rewrite (A i f v), (A' i f v); auto.
  - destruct (Nat.lt_ge_cases i n) as [Hi' | Hi'].
    + rewrite B, B'; auto.
    + assert (nth_error ids i = None) as -> by (apply nth_error_None; lia). symmetry. apply nth_error_None. lia.
Qed.

Lemma no_elements {A} : forall l : list A, List.length l = 0 <-> forall x, ~ In x l.
Proof.
  intros [| x l]; simpl; split; intros H; auto; try discriminate. exfalso. apply (H x). now left.
Qed.

Lemma nothing_found : forall e, err_count e = 0 <->
  (forall x, ~ In x (e_dups e)) /\ (forall x, ~ In x (e_types e)) /\ (forall x, ~ In x (e_fks e)) /\ (forall x, ~ In x (e_preds e)).
Proof.
  intros e. rewrite <- !no_elements. unfold err_count. lia.
Qed.

Section Named.
  Variable parses : value -> bool.
  Variables (sch : schema) (tys : types) (fks : list fk) (preds : list ((string * string) * pred_fail)) (d : pdat).

  Theorem report_named : forall n e, wf_schema sch -> wf_pdat sch d -> wf_types sch tys -> good_pan_fks sch fks -> widest sch n ->
    integrity_solve parses sch [] tys fks preds d = Some e ->
    (forall t ids, In (t, ids) (e_dups e) <->
       exists i ts r, repeats_key sch d t i /\ In (t, ts) sch /\ nth_error (d t) i = Some r /\ identifies n ts r ids) /\
    (forall t f ids, In (t, f, ids) (e_types e) <->
       exists i ts r v, pan_failing parses sch tys d t f i v /\ In (t, ts) sch /\ nth_error (d t) i = Some r /\ identifies n ts r ids) /\
    (forall f ids, In (f, ids) (e_fks e) <->
       exists i ts r, In f fks /\ orphan (pan_schema sch) (as_dat d) f (RIdx i) /\ In (fk_native f, ts) sch /\
         nth_error (d (fk_native f)) i = Some r /\ identifies n ts r ids).
  Proof.
    intros n e Hs Hd Ht Hg Hn H. pose proof (report_exact parses sch tys fks preds d Hs Hd e Ht Hg H) as (A & B & C).
    assert (longest sch = n) as <-.
    { eapply widest_unique; eauto. apply longest_widest. destruct Hn as [_ (t & ts & Hin & _)]. intros ->. destruct Hin. }
    assert (forall t ts r ids, In (t, ts) sch -> In r (d t) -> (ids = id_cells (longest sch) ts r <-> identifies (longest sch) ts r ids)) as K.
    { intros t ts r ids Hin Hr.
      assert (identifies (longest sch) ts r (id_cells (longest sch) ts r)) as Hid.
      { apply id_cells_identify; [eapply (proj2 Hs); eauto | eapply longest_ge; eauto |].
        unfold tfields. erewrite (Hd t ts r); eauto. }
      split; [intros ->; exact Hid |]. intros H'. apply (identifies_unique (longest sch) ts r ids _ (proj2 Hs t ts Hin)); auto.
      - unfold tfields. erewrite (Hd t ts r); eauto.
      - exact (proj1 Hn t ts Hin). }
    split; [| split].
    - intros t ids. rewrite A. split; intros (i & ts & r & H1 & H2 & H3 & H4); exists i, ts, r; (split; [auto |]); (split; [auto |]); (split; [auto |]);
        apply (K t ts r ids H2 (nth_error_In _ _ H3)); auto.
    - intros t f ids. rewrite B. split; intros (i & ts & r & v & H1 & H2 & H3 & H4); exists i, ts, r, v; (split; [auto |]); (split; [auto |]); (split; [auto |]);
        apply (K t ts r ids H2 (nth_error_In _ _ H3)); auto.
    - intros f ids. rewrite C. split; intros (i & ts & r & H0 & H1 & H2 & H3 & H4); exists i, ts, r; (split; [auto |]); (split; [auto |]); (split; [auto |]); (split; [auto |]);
        apply (K (fk_native f) ts r ids H2 (nth_error_In _ _ H3)); auto.
  Qed.

  Theorem report_clean : forall e, wf_schema sch -> wf_pdat sch d -> wf_types sch tys -> good_pan_fks sch fks ->
    (forall tp rows, In (tp, PFRows rows) preds -> rows <> []) ->
    integrity_solve parses sch [] tys fks preds d = Some e ->
    (err_count e = 0 <->
     (forall t i, ~ repeats_key sch d t i) /\ (forall t f i v, ~ pan_failing parses sch tys d t f i v) /\
     (forall f i, In f fks -> ~ orphan (pan_schema sch) (as_dat d) f (RIdx i)) /\ preds = []).
  Proof.
    intros e Hs Hd Ht Hg Hp H. pose proof (report_exact parses sch tys fks preds d Hs Hd e Ht Hg H) as (A & B & C).
    rewrite nothing_found.
    assert ((forall x, ~ In x (e_preds e)) <-> preds = []) as ->.
    { unfold integrity_solve in H. destruct sch as [| s0 sch0] eqn:Es; [discriminate |]. rewrite <- Es in *.
      destruct (pan_find_types _ _ _ _ _); [| discriminate]. injection H as <-. cbn [e_preds]. split.
      - intros H. destruct preds as [| [tp pf] ps]; auto. exfalso. simpl in H.
        destruct pf as [rows | msg].
        + destruct rows as [| r rows]; [now apply (Hp tp []); [now left |] |].
          eapply H. apply in_or_app. left. left. reflexivity.
        + eapply H. left. reflexivity.
      - intros ->. intros x []. }
    split; intros (H1 & H2 & H3 & H4).
    - split; [| split; [| split]]; auto.
      + intros t i Hi. pose proof Hi as (ts & r & j & r' & Hin & _ & Hr & _).
        eapply (H1 (t, _)). apply A. exists i, ts, r. split; eauto.
      + intros t f i v Hv. pose proof Hv as ((ts & r & j & Hin & Hr & _) & _).
        eapply (H2 (t, f, _)). apply B. exists i, ts, r, v. split; eauto.
      + intros f i Hf Ho. assert (exists r, nth_error (d (fk_native f)) i = Some r) as (r & Hr).
        { destruct Ho as (k & r & Hrow & _). simpl in Hrow. destruct Hrow as (_ & i' & Hr & E). injection E as <-. eauto. }
        destruct (Hg f Hf) as ((nts & fts & Hn & _) & _).
        eapply (H3 (f, _)). apply C. exists i, nts, r. eauto 8.
    - split; [| split; [| split]]; auto.
      + intros [t ids] Hx. apply A in Hx as (i & ts & r & Hi & _). now apply H1 in Hi.
      + intros [[t f] ids] Hx. apply B in Hx as (i & ts & r & v & Hi & _). now apply H2 in Hi.
      + intros [f ids] Hx. apply C in Hx as (i & ts & r & Hf & Hi & _). now apply (H3 f i) in Hi.
  Qed.
End Named.
