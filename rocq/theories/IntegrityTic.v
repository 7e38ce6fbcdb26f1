(** * The integrity report of TicDat data against the finders of TicDatFactory. *)
From Coq Require Import ZArith Bool List String Arith Lia.
From Verif Require Import PyVal PyValFacts PyDict PyDictFacts ListFacts TypeDict Data FindTypes FindTypesFacts
  FK FKFacts PanFKFacts PanTypes PanTypesFacts Integrity IntegrityFacts.
Import ListNotations.
Local Open Scope list_scope.

Lemma rows_of_row_in : forall tb i rid k r, nth_error (rows_of tb) i = Some (rid, k, r) -> row_in tb rid k r.
Proof.
  intros [l | l] i rid k r H; simpl in *.
  - rewrite nth_error_map in H. destruct (nth_error l i) as [[k0 r0] |] eqn:E; [| discriminate]. simpl in H. injection H as <- <- <-.
    split; auto. eapply nth_error_In; eauto.
  - rewrite nth_error_map in H. destruct (nth_error (enum_from 0 l) i) as [[j r0] |] eqn:E; [| discriminate]. simpl in H. injection H as <- <- <-.
    split; auto. exists j. split; auto.
    assert (forall (l : list row) n i j r, nth_error (enum_from n l) i = Some (j, r) -> j = n + i /\ nth_error l i = Some r) as K.
    { clear. induction l as [| x l IH]; intros n i j r H; simpl in *; [destruct i; discriminate |].
      destruct i as [| i]; simpl in H; [injection H as <- <-; split; auto; lia |]. apply IH in H as [-> H]. split; auto. lia. }
    apply K in E as [-> E]. exact E.
Qed.

(** A row identifier names one row. *)
Lemma row_in_det : forall ts tb rid k r k' r', wf_table ts tb -> row_in tb rid k r -> row_in tb rid k' r' -> k = k' /\ r = r'.
Proof.
  intros ts [l | l] rid k r k' r' Hw H H'; simpl in *.
  - destruct H as [H ->], H' as [H' E]. injection E as <-. split; auto. destruct Hw as (_ & Hd & _).
    unfold distinct_keys in Hd. rewrite map_map in Hd.
    assert ((k, r) = (k, r')) as E; [| congruence].
    clear -Hd H H'. induction l as [| x l IH]; simpl in *; [tauto |]. apply NoDup_cons_iff in Hd as [Hn Hd].
    destruct H as [-> | H], H' as [H' | H']; auto.
    + exfalso. apply Hn. apply in_map_iff. exists (k, r'). auto.
    + subst x. exfalso. apply Hn. apply in_map_iff. exists (k, r). auto.
  - destruct H as (-> & i & H & ->), H' as (-> & j & H' & E). injection E as <-. split; auto. congruence.
Qed.

Lemma row_in_rows_of : forall tb rid k r, row_in tb rid k r -> exists i, nth_error (rows_of tb) i = Some (rid, k, r).
Proof.
  intros [l | l] rid k r H; simpl in *.
  - destruct H as [H ->]. apply In_nth_error in H as (i & H). exists i. rewrite nth_error_map, H. reflexivity.
  - destruct H as (-> & i & H & ->). exists i. rewrite nth_error_map.
    assert (forall (l : list row) n i r, nth_error l i = Some r -> nth_error (enum_from n l) i = Some (n + i, r)) as K.
    { clear. induction l as [| x l IH]; intros n i r H; simpl in *; [destruct i; discriminate |].
      destruct i as [| i]; simpl in *; [injection H as ->; now rewrite Nat.add_0_r |]. rewrite (IH (S n) i r H). f_equal. f_equal. lia. }
    rewrite (K l 0 i r H). reflexivity.
Qed.

Lemma pan_of_nth : forall d t i, nth_error (pan_of d t) i = option_map (fun x => snd (fst x) ++ snd x) (nth_error (rows_of (d t)) i).
Proof. intros. unfold pan_of. apply nth_error_map. Qed.

Lemma pan_of_wf : forall sch d, wf_dat sch d -> wf_pdat sch (pan_of d).
Proof.
  intros sch d H t ts r Hin Hr. apply In_nth_error in Hr as (i & Hi). rewrite pan_of_nth in Hi.
  destruct (nth_error (rows_of (d t)) i) as [[[rid k] r0] |] eqn:E; [| discriminate]. simpl in Hi. injection Hi as <-.
  apply rows_of_row_in in E. specialize (H t ts Hin). unfold row in *. rewrite !app_length.
  destruct (d t) as [l | l]; simpl in *.
  - destruct H as (_ & _ & H), E as [E _]. apply H in E as [E1 E2]. lia.
  - destruct H as (Hp & H), E as (-> & j & E & _). rewrite Hp. simpl. apply H. eapply nth_error_In; eauto.
Qed.

Theorem same_type_failures : forall parses sch tys d rep prep t i rid k r f,
  wf_schema sch -> wf_types sch tys -> wf_dat sch d ->
  find_data_type_failures parses sch tys d PInf = Some rep ->
  pan_find_types parses sch tys (pan_of d) PInf = Some prep ->
  In t (map fst sch) -> nth_error (rows_of (d t)) i = Some (rid, k, r) ->
  (pan_flagged prep t f i <-> reports_row rep t f rid).
Proof.
  intros parses sch tys d rep prep t i rid k r f Hs Ht Hd H1 H2 Hin Hi.
  pose proof (find_types_exact parses sch tys d rep Hs Ht Hd H1) as (A & _).
  pose proof (pan_find_exact_types parses sch tys (pan_of d) prep Hs Ht (pan_of_wf sch d Hd) H2) as (_ & _ & B).
  rewrite A, B. split; intros (v & Hv); exists v.
  - destruct Hv as ((ts & r0 & j & Hts & Hr & Hf & Hc) & dt & He & Hb).
    rewrite pan_of_nth, Hi in Hr. simpl in Hr. injection Hr as <-.
    exists ts, k, r, dt. split; auto. split; [eapply rows_of_row_in; eauto |]. split; [exists j; auto | auto].
  - destruct Hv as (ts & k0 & r0 & dt & Hts & Hr & (j & Hf & Hc) & He & Hb).
    destruct (row_in_det ts (d t) rid k r k0 r0) as [-> ->]; auto; [eapply rows_of_row_in; eauto |].
    split; [| eauto]. exists ts, (k0 ++ r0), j. rewrite pan_of_nth, Hi. auto.
Qed.

Lemma matched_pan : forall sch d f k r, matched sch d f k r <-> matched (pan_schema sch) (as_dat (pan_of d)) f [] (k ++ r).
Proof.
  intros sch d f k r. split.
  - intros (nts & fts & rid' & k' & r' & Hn & Hf & Hr & Ha). apply row_in_rows_of in Hr as (i & Hi).
    exists (mkT [] (tpk nts ++ tdf nts)), (mkT [] (tpk fts ++ tdf fts)), (RIdx i), [], (k' ++ r').
    split; [apply pan_schema_In; eauto |]. split; [apply pan_schema_In; eauto |]. split.
    + simpl. split; auto. exists i. rewrite pan_of_nth, Hi. auto.
    + exact Ha.
  - intros (nts' & fts' & rid' & k' & r' & Hn & Hf & Hr & Ha).
    apply pan_schema_In in Hn as (nts & Hn & ->). apply pan_schema_In in Hf as (fts & Hf & ->).
    simpl in Hr. destruct Hr as (-> & i & Hi & ->). rewrite pan_of_nth in Hi.
    destruct (nth_error (rows_of (d (fk_foreign f))) i) as [[[rid0 k0] r0] |] eqn:E; [| discriminate]. simpl in Hi. injection Hi as <-.
    exists nts, fts, rid0, k0, r0. split; auto. split; auto. split; [eapply rows_of_row_in; eauto | exact Ha].
Qed.

Theorem same_fk_failures : forall sch fks d rep i rid k r f,
  wf_schema sch -> wf_dat sch d -> NoDup fks ->
  (forall f, In f fks -> wf_fk sch f /\ distinct_foreign f /\ no_overwrite (fk_map f)) ->
  find_foreign_key_failures sch fks d PInf = Some rep ->
  nth_error (rows_of (d (fk_native f))) i = Some (rid, k, r) ->
  (flagged (pan_find sch fks (pan_of d)) f i <-> fk_reports_row rep f rid).
Proof.
  intros sch fks d rep i rid k r f Hs Hd Hnd Hg H Hi.
  pose proof (find_fks_exact sch fks d rep Hs Hd Hnd (fun f Hf => conj (proj1 (Hg f Hf)) (proj1 (proj2 (Hg f Hf)))) H) as (A & _).
  pose proof (pan_find_exact sch fks (pan_of d) Hs (pan_of_wf sch d Hd) (fun f Hf => conj (proj1 (Hg f Hf)) (proj2 (proj2 (Hg f Hf))))) as (B & _).
  rewrite A, B. split; intros [Hf Ho]; (split; [auto |]).
  - destruct Ho as (k0 & r0 & Hrow & Hm). simpl in Hrow. destruct Hrow as (-> & j & Hj & E). injection E as <-.
    rewrite pan_of_nth, Hi in Hj. simpl in Hj. injection Hj as <-.
    exists k, r. split; [eapply rows_of_row_in; eauto |]. intros H'. now apply matched_pan in H'.
  - destruct Ho as (k0 & r0 & Hrow & Hm). destruct (Hg f Hf) as ((nts & fts & Hn & _) & _).
    destruct (row_in_det nts (d (fk_native f)) rid k r k0 r0) as [-> ->]; auto; [eapply rows_of_row_in; eauto |].
    exists [], (k0 ++ r0). split; [simpl; split; auto; exists i; rewrite pan_of_nth, Hi; auto |]. intros H'. now apply matched_pan in H'.
Qed.

(** TicDat data never repeats a key. *)
Lemma no_repeats : forall sch d t i, wf_schema sch -> wf_dat sch d -> ~ repeats_key sch (pan_of d) t i.
Proof.
  intros sch d t i Hs Hd (ts & r & j & r' & Hin & Hpk & Hr & Hr' & Hj & Hk). rewrite pan_of_nth in Hr, Hr'.
  specialize (Hd t ts Hin). destruct (d t) as [l | l] eqn:Ed; [| now destruct Hd]. simpl in Hr, Hr'. rewrite !nth_error_map in Hr, Hr'.
  destruct (nth_error l i) as [[k x] |] eqn:Ei; [| discriminate]. destruct (nth_error l j) as [[k' x'] |] eqn:Ej; [| discriminate].
  simpl in Hr, Hr'. injection Hr as <-. injection Hr' as <-. destruct Hd as (_ & Hd & Hl).
  apply nth_error_In in Ei as Ii. apply nth_error_In in Ej as Ij. apply Hl in Ii as [L1 _], Ij as [L2 _].
  assert (firstn (List.length (tpk ts)) (k ++ x) = k) as E1 by (rewrite <- L1, firstn_app, Nat.sub_diag, firstn_all; simpl; apply app_nil_r).
  assert (firstn (List.length (tpk ts)) (k' ++ x') = k') as E2 by (rewrite <- L2, firstn_app, Nat.sub_diag, firstn_all; simpl; apply app_nil_r).
  rewrite E1, E2 in Hk. apply key_pyeq_iff in Hk. unfold distinct_keys in Hd. rewrite map_map in Hd.
  rewrite NoDup_nth_error in Hd. assert (j = i); [| lia]. apply Hd.
  - rewrite map_length. apply nth_error_Some. congruence.
  - rewrite !nth_error_map, Ei, Ej. simpl. now rewrite Hk.
Qed.

(** The report is empty exactly when the finders of TicDatFactory report nothing. *)
Theorem same_verdict : forall parses sch tys fks preds d e rep frep,
  wf_schema sch -> wf_types sch tys -> wf_dat sch d -> NoDup fks ->
  (forall f, In f fks -> wf_fk sch f /\ distinct_foreign f /\ no_overwrite (fk_map f)) ->
  (forall tp rows, In (tp, PFRows rows) preds -> rows <> []) ->
  integrity_solve parses sch [] tys fks preds (pan_of d) = Some e ->
  find_data_type_failures parses sch tys d PInf = Some rep ->
  find_foreign_key_failures sch fks d PInf = Some frep ->
  (err_count e = 0 <-> rep = [] /\ frep = [] /\ preds = []).
Proof.
  intros parses sch tys fks preds d e rep frep Hs Ht Hd Hnd Hg Hp H H1 H2.
  assert (good_pan_fks sch fks) as Hgp by (intros f Hf; split; apply (Hg f Hf)).
  rewrite (report_clean parses sch tys fks preds (pan_of d) e); auto using pan_of_wf.
  pose proof (find_types_exact parses sch tys d rep Hs Ht Hd H1) as (A & _ & _ & A3 & _).
  pose proof (find_fks_exact sch fks d frep Hs Hd Hnd (fun f Hf => conj (proj1 (Hg f Hf)) (proj1 (proj2 (Hg f Hf)))) H2) as (B & _ & _ & B3 & _).
  split.
  - intros (_ & C1 & C2 & ->). split; [| split; auto].
    + destruct rep as [| [[t f] [vals rids]] rep]; auto. exfalso.
      destruct (A3 t f vals rids (or_introl eq_refl)) as [Hne _]. destruct rids as [| rid rids]; [congruence |].
      assert (reports_row (((t, f), (vals, rid :: rids)) :: rep) t f rid) as Hr by (exists vals, (rid :: rids); split; left; reflexivity).
      apply A in Hr as (v & ts & k & r & dt & Hts & Hr & (j & Hf & Hc) & He & Hb).
      apply row_in_rows_of in Hr as (i & Hi). apply (C1 t f i v). split; [| eauto]. exists ts, (k ++ r), j.
      rewrite pan_of_nth, Hi. auto.
    + destruct frep as [| [f [vals rids]] frep]; auto. exfalso.
      destruct (B3 f vals rids (or_introl eq_refl)) as [Hne _]. destruct rids as [| rid rids]; [congruence |].
      assert (fk_reports_row ((f, (vals, rid :: rids)) :: frep) f rid) as Hr by (exists vals, (rid :: rids); split; left; reflexivity).
      apply B in Hr as (Hf & k & r & Hrow & Hm). apply row_in_rows_of in Hrow as (i & Hi).
      apply (C2 f i Hf). exists [], (k ++ r). split; [simpl; split; auto; exists i; rewrite pan_of_nth, Hi; auto |].
      intros H'. now apply matched_pan in H'.
  - intros (-> & -> & ->). split; [intros t i; now apply no_repeats |]. split; [| split; auto].
    + intros t f i v Hv. pose proof Hv as ((ts & r0 & j & Hts & Hr & Hf & Hc) & dt & He & Hb).
      rewrite pan_of_nth in Hr. destruct (nth_error (rows_of (d t)) i) as [[[rid k] r] |] eqn:Ei; [| discriminate]. simpl in Hr. injection Hr as <-.
      assert (reports_row [] t f rid) as (vals & rids & [] & _).
      apply A. exists v, ts, k, r, dt. split; auto. split; [eapply rows_of_row_in; eauto |]. split; [exists j; auto | auto].
    + intros f i Hf (k0 & r0 & Hrow & Hm). simpl in Hrow. destruct Hrow as (-> & j & Hj & E). injection E as <-.
      rewrite pan_of_nth in Hj. destruct (nth_error (rows_of (d (fk_native f))) i) as [[[rid k] r] |] eqn:Ei; [| discriminate]. simpl in Hj. injection Hj as <-.
      assert (fk_reports_row [] f rid) as (vals & rids & [] & _).
      apply B. split; auto. exists k, r. split; [eapply rows_of_row_in; eauto |]. intros H'. now apply matched_pan in H'.
Qed.
