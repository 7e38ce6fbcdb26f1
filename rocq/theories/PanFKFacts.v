(** * PanDat foreign keys: specification and correctness. *)
From Coq Require Import ZArith Bool List String Arith Lia Permutation.
From Verif Require Import PyVal PyValFacts PyDict PyDictFacts ListFacts Data FindTypes FindTypesFacts
  ReplaceFacts Report FK FKFacts RemoveFacts.
Import ListNotations.

(** ** Specification: a PanDat is read as a dataset of unkeyed tables *)

Definition pan_schema (sch : schema) : schema :=
  map (fun tts => (fst tts, mkT [] (tpk (snd tts) ++ tdf (snd tts)))) sch.

Definition as_dat (d : pdat) : dat := fun t => Listed (d t).

Definition wf_pdat (sch : schema) (d : pdat) : Prop :=
  forall t ts r, In (t, ts) sch -> In r (d t) -> List.length r = List.length (tpk ts ++ tdf ts).

(** No mapped native field name is the foreign field of a later pair (unless it
    is also its own foreign field). *)
Definition no_overwrite (m : list (string * string)) : Prop :=
  forall i j ni fi nj fj, i < j -> nth_error m i = Some (ni, fi) -> nth_error m j = Some (nj, fj) ->
    ni = fj -> ni = fi.

Definition good_pan_fks (sch : schema) (fks : list fk) : Prop :=
  forall f, In f fks -> wf_fk sch f /\ no_overwrite (fk_map f).

(** ** Lifting *)

Lemma pan_schema_In : forall sch t ts', In (t, ts') (pan_schema sch) <->
  exists ts, In (t, ts) sch /\ ts' = mkT [] (tpk ts ++ tdf ts).
Proof.
  intros sch t ts'. unfold pan_schema. rewrite in_map_iff. split.
  - intros ([t0 ts] & E & Hin). injection E as <- <-. eauto.
  - intros (ts & Hin & ->). exists (t, ts). auto.
Qed.

Lemma pan_schema_wf : forall sch, wf_schema sch -> wf_schema (pan_schema sch).
Proof.
  intros sch [H1 H2]. split.
  - unfold pan_schema. rewrite map_map. exact H1.
  - intros t ts Hin. apply pan_schema_In in Hin as (ts0 & Hin & ->). apply H2 in Hin. exact Hin.
Qed.

Lemma as_dat_wf : forall sch d, wf_pdat sch d -> wf_dat (pan_schema sch) (as_dat d).
Proof.
  intros sch d H t ts Hin. apply pan_schema_In in Hin as (ts0 & Hin & ->). simpl. split; auto.
  intros r Hr. eapply H; eauto.
Qed.

Lemma pan_wf_fk : forall sch f, wf_fk sch f -> wf_fk (pan_schema sch) f.
Proof.
  intros sch f (nts & fts & Hn & Hf & H1 & H2 & H3).
  exists (mkT [] (tpk nts ++ tdf nts)), (mkT [] (tpk fts ++ tdf fts)).
  repeat split; auto; try (apply pan_schema_In; eauto); simpl; now apply H2 in H.
Qed.

Lemma pcell_getcell : forall ts r f, pcell ts r f = getcell (mkT [] (tpk ts ++ tdf ts)) [] r f.
Proof.
  intros ts r f. unfold pcell, getcell, dget_or, tfields. simpl.
  destruct (dget String.eqb (combine (tpk ts ++ tdf ts) r) f); auto.
Qed.

(** ** The parent's index *)

Definition overwrite (c : list (string * value)) (m : list (string * string)) : list (string * value) :=
  fold_left (fun c nf => dset String.eqb c (fst nf) (dget_or String.eqb c (snd nf) VNone)) m c.

Lemma dset_get_or : forall (c : list (string * value)) n v f,
  dget_or String.eqb (dset String.eqb c n v) f VNone = if String.eqb n f then v else dget_or String.eqb c f VNone.
Proof.
  intros c n v f. unfold dget_or.
  rewrite (dget_dset String.eqb String.eqb_refl String.eqb_sym string_eqb_trans).
  now destruct (String.eqb n f).
Qed.

Lemma overwrite_other : forall m c f, ~ In f (map fst m) ->
  dget_or String.eqb (overwrite c m) f VNone = dget_or String.eqb c f VNone.
Proof.
  induction m as [| [n0 f0] m IH]; intros c f Hf; simpl; auto.
  unfold overwrite in *. simpl. rewrite IH by (intros H; apply Hf; now right).
  rewrite dset_get_or. destruct (String.eqb n0 f) eqn:E; auto.
  apply String.eqb_eq in E. subst. exfalso. apply Hf. now left.
Qed.

Lemma overwrite_spec : forall m c nf ff, NoDup (map fst m) -> no_overwrite m -> In (nf, ff) m ->
  dget_or String.eqb (overwrite c m) nf VNone = dget_or String.eqb c ff VNone.
Proof.
  induction m as [| [n0 f0] m IH]; intros c nf ff Hnd Hno Hin; [destruct Hin |].
  inversion Hnd as [| ? ? Hn0 Hnd']; subst. destruct Hin as [E | Hin].
  - injection E as -> ->. unfold overwrite. simpl. fold (overwrite (dset String.eqb c nf (dget_or String.eqb c ff VNone)) m).
    rewrite overwrite_other by auto. rewrite dset_get_or. now rewrite String.eqb_refl.
  - unfold overwrite. simpl. fold (overwrite (dset String.eqb c n0 (dget_or String.eqb c f0 VNone)) m).
    rewrite (IH _ nf ff); auto.
    + rewrite dset_get_or. destruct (String.eqb n0 ff) eqn:E; auto.
      apply String.eqb_eq in E. subst n0. apply In_nth_error in Hin as (j & Hj).
      assert (ff = f0) as <-; auto. apply (Hno 0 (S j) ff f0 nf ff); auto. lia.
    + intros i j ni fi nj fj Hij Hi Hj E. apply (Hno (S i) (S j) ni fi nj fj); auto. lia.
Qed.

Lemma drop_dups_In {A} (kf : A -> key) : forall l x, In x (drop_dups kf l) -> In x l.
Proof.
  intros l x. unfold drop_dups.
  assert (forall l acc, In x (fold_left (fun acc x => if existsb (fun y => key_pyeq (kf y) (kf x)) acc
            then acc else acc ++ [x]) l acc) -> In x acc \/ In x l) as H.
  { clear l. induction l as [| y l IH]; intros acc Hin; simpl in *; auto.
    apply IH in Hin as [Hin | Hin]; auto.
    destruct (existsb _ acc); auto. apply in_app_iff in Hin as [Hin | [-> | []]]; auto. }
  intros Hin. apply H in Hin as [[] | Hin]. auto.
Qed.

Lemma drop_dups_has {A} (kf : A -> key) : forall l x, In x l ->
  exists y, In y (drop_dups kf l) /\ key_pyeq (kf y) (kf x) = true.
Proof.
  intros l x. unfold drop_dups.
  assert (forall l acc, (In x l \/ exists y, In y acc /\ key_pyeq (kf y) (kf x) = true) ->
     exists y, In y (fold_left (fun acc x => if existsb (fun y => key_pyeq (kf y) (kf x)) acc
            then acc else acc ++ [x]) l acc) /\ key_pyeq (kf y) (kf x) = true) as H.
  { clear l. induction l as [| z l IH]; intros acc Hx; simpl in *.
    - destruct Hx as [[] | Hx]; auto.
    - apply IH. destruct Hx as [[-> | Hx] | (y & Hy & E)]; auto.
      + right. destruct (existsb (fun y => key_pyeq (kf y) (kf x)) acc) eqn:E.
        * apply existsb_exists in E as (y & Hy & E). eauto.
        * exists x. split; [apply in_app_iff; right; now left | apply key_pyeq_refl].
      + right. exists y. split; auto. destruct (existsb _ acc); auto. apply in_app_iff. auto. }
  intros Hin. apply H. auto.
Qed.

Lemma parent_index_spec : forall fts m rows lk, NoDup (map fst m) -> no_overwrite m ->
  (existsb (fun k => key_pyeq k lk) (parent_index fts m rows) = true <->
   exists r', In r' rows /\ key_pyeq (map (fun nf => pcell fts r' (snd nf)) m) lk = true).
Proof.
  intros fts m rows lk Hnd Hno. unfold parent_index. rewrite existsb_exists.
  assert (forall r, map (fun nf => dget_or String.eqb (overwrite (combine (tfields fts) r) m) (fst nf) VNone) m =
                    map (fun nf => pcell fts r (snd nf)) m) as Hmap.
  { intros r. apply map_ext_in. intros [nf ff] Hin. simpl. unfold pcell. now apply overwrite_spec. }
  split.
  - intros (k & Hk & E). apply in_map_iff in Hk as (r' & <- & Hr'). exists r'.
    split; [eapply drop_dups_In; eauto |]. rewrite <- Hmap. exact E.
  - intros (r' & Hr' & E). destruct (drop_dups_has (fun r => map (fun nf => pcell fts r (snd nf)) m) _ _ Hr')
      as (y & Hy & E'). eexists. split.
    + apply in_map_iff. exists y. split; [reflexivity | exact Hy].
    + simpl. fold (overwrite (combine (tfields fts) y) m). rewrite Hmap.
      eapply key_pyeq_trans; eauto.
Qed.

Lemma key_pyeq_map2 {A} (g h : A -> value) : forall l,
  key_pyeq (map g l) (map h l) = true <-> forall x, In x l -> pyeq (g x) (h x) = true.
Proof. apply key_pyeq_map. Qed.

Lemma pan_fails_iff : forall sch d f r,
  wf_schema sch -> wf_pdat sch d -> wf_fk sch f -> no_overwrite (fk_map f) -> In r (d (fk_native f)) ->
  (pan_fails sch d f r = false <-> matched (pan_schema sch) (as_dat d) f [] r).
Proof.
  intros sch d f r Hs Hd (nts & fts & Hn & Hf & Hne & Hflds & Hnd) Hno Hr.
  pose proof (pan_schema_wf _ Hs) as Hps. pose proof (as_dat_wf _ _ Hd) as Hpd.
  set (nts' := mkT [] (tpk nts ++ tdf nts)). set (fts' := mkT [] (tpk fts ++ tdf fts)).
  assert (In (fk_native f, nts') (pan_schema sch)) as Hn' by (apply pan_schema_In; eauto).
  assert (In (fk_foreign f, fts') (pan_schema sch)) as Hf' by (apply pan_schema_In; eauto).
  assert (wf_tschema nts') as Hwn by (now apply (proj2 Hps) in Hn').
  assert (wf_tschema fts') as Hwf by (now apply (proj2 Hps) in Hf').
  unfold pan_fails. rewrite (ts_of_In _ _ _ Hs Hn), (ts_of_In _ _ _ Hs Hf).
  rewrite negb_false_iff, parent_index_spec by auto.
  apply In_nth_error in Hr as (i & Hi).
  assert (row_in (as_dat d (fk_native f)) (RIdx i) [] r) as Hrow by (simpl; eauto).
  split.
  - intros (r' & Hr' & E). apply In_nth_error in Hr' as (j & Hj).
    exists nts', fts', (RIdx j), [], r'. split; auto. split; auto. split; [simpl; eauto |].
    rewrite key_pyeq_map in E. intros nf ff v w Hin Hv Hw.
    specialize (E _ Hin). simpl in E. rewrite !pcell_getcell in E.
    fold nts' in E. fold fts' in E.
    rewrite (getcell_cell_in nts' [] r nf v) in E by auto.
    rewrite (getcell_cell_in fts' [] r' ff w) in E by auto.
    now rewrite pyeq_sym.
  - intros (nts2 & fts2 & rid' & k' & r' & Hn2 & Hf2 & Hrow' & Hag).
    assert (nts2 = nts') as -> by (rewrite <- (ts_of_In _ _ _ Hps Hn2); now apply ts_of_In).
    assert (fts2 = fts') as -> by (rewrite <- (ts_of_In _ _ _ Hps Hf2); now apply ts_of_In).
    pose proof Hrow' as Hrow2. simpl in Hrow'. destruct Hrow' as (-> & j & Hj & ->).
    exists r'. split; [eapply nth_error_In; eauto |].
    apply key_pyeq_map. intros [nf ff] Hin. simpl. rewrite !pcell_getcell.
    destruct (Hflds _ _ Hin) as [Hnf Hff].
    destruct (cell_in_exists nts' _ _ _ _ nf (Hpd _ _ Hn') Hrow Hnf) as (v & Hv).
    destruct (cell_in_exists fts' _ _ _ _ ff (Hpd _ _ Hf') Hrow2 Hff) as (w & Hw).
    fold nts'. fold fts'.
    rewrite (getcell_cell_in nts' [] r nf v) by auto.
    rewrite (getcell_cell_in fts' [] r' ff w) by auto.
    rewrite pyeq_sym. eapply Hag; eauto.
Qed.

(** ** Finding (C13) *)

Definition flagged (rep : list (fk * list bool)) (f : fk) (i : nat) : Prop :=
  exists flags, In (f, flags) rep /\ nth_error flags i = Some true.

Theorem pan_find_exact : forall sch fks d,
  wf_schema sch -> wf_pdat sch d -> good_pan_fks sch fks ->
  (forall f i, flagged (pan_find sch fks d) f i <->
     In f fks /\ orphan (pan_schema sch) (as_dat d) f (RIdx i)) /\
  (forall f flags, In (f, flags) (pan_find sch fks d) ->
     List.length flags = List.length (d (fk_native f)) /\ In true flags).
Proof.
  intros sch fks d Hs Hd Hg. split.
  - intros f i. split.
    + intros (flags & Hin & Hi). apply filter_In in Hin as [Hin Hex].
      apply in_map_iff in Hin as (f0 & E & Hf). injection E as -> <-. split; auto.
      rewrite nth_error_map in Hi. destruct (nth_error (d (fk_native f)) i) as [r |] eqn:Er; [| discriminate].
      simpl in Hi. injection Hi as Hb. exists [], r. split; [simpl; eauto |]. intros Hm.
      destruct (Hg _ Hf) as [Hw Hno]. apply pan_fails_iff in Hm; auto; [congruence |].
      eapply nth_error_In; eauto.
    + intros [Hf (k & r & Hrow & Hm)]. simpl in Hrow. destruct Hrow as (-> & j & Hj & E). injection E as <-.
      exists (map (pan_fails sch d f) (d (fk_native f))). destruct (Hg _ Hf) as [Hw Hno].
      assert (pan_fails sch d f r = true) as Hb.
      { destruct (pan_fails sch d f r) eqn:E; auto. apply pan_fails_iff in E; auto; try contradiction.
        eapply nth_error_In; eauto. }
      split; [| rewrite nth_error_map, Hj; simpl; now rewrite Hb].
      apply filter_In. split; [apply in_map_iff; eauto |]. simpl. apply existsb_exists. exists true.
      split; auto. apply in_map_iff. exists r. split; auto. eapply nth_error_In; eauto.
  - intros f flags Hin. apply filter_In in Hin as [Hin Hex]. simpl in Hex.
    apply in_map_iff in Hin as (f0 & E & Hf). injection E as -> <-. split; [apply map_length |].
    apply existsb_exists in Hex as (b & Hb & E). now subst b.
Qed.

(** ** Removal (C12) *)

Lemma drop_flagged_filter : forall (p : row -> bool) rows,
  drop_flagged rows (map p rows) = filter (fun r => negb (p r)) rows.
Proof.
  intros p. unfold drop_flagged. induction rows as [| r rows IH]; simpl; auto.
  destruct (p r); simpl; now rewrite IH.
Qed.

Definition pan_step (sch : schema) (f : fk) (d : pdat) : pdat :=
  upd_p d (fk_native f) (filter (fun r => negb (pan_fails sch d f r)) (d (fk_native f))).

Lemma pan_step_sub : forall sch f d t, sublist (pan_step sch f d t) (d t).
Proof.
  intros sch f d t. unfold pan_step, upd_p. destruct (String.eqb (fk_native f) t) eqn:E.
  - apply String.eqb_eq in E. subst. apply sublist_filter.
  - apply sublist_refl.
Qed.

Definition ptotal (sch : schema) (d : pdat) : nat := total_rows (pan_schema sch) (as_dat d).

Lemma pan_find_head : forall sch fks d f flags rest, pan_find sch fks d = (f, flags) :: rest ->
  In f fks /\ flags = map (pan_fails sch d f) (d (fk_native f)) /\
  exists r, In r (d (fk_native f)) /\ pan_fails sch d f r = true.
Proof.
  intros sch fks d f flags rest E.
  assert (In (f, flags) (pan_find sch fks d)) as Hin by (rewrite E; now left).
  apply filter_In in Hin as [Hin Hex]. simpl in Hex.
  apply in_map_iff in Hin as (f0 & E0 & Hf). injection E0 as -> <-. split; auto. split; auto.
  apply existsb_exists in Hex as (b & Hb & Eb). subst b. apply in_map_iff in Hb as (r & Hb & Hr). eauto.
Qed.

Theorem pan_remove_correct : forall sch fks d n,
  wf_schema sch -> wf_pdat sch d -> good_pan_fks sch fks -> ptotal sch d < n ->
  exists d', pan_remove n sch fks d = Some d' /\
    largest_consistent (pan_schema sch) fks (as_dat d) (as_dat d').
Proof.
  intros sch fks d n Hs Hd Hg. revert d Hd. induction n as [| n IH]; intros d Hd Hlt; [lia |].
  simpl. destruct (pan_find sch fks d) as [| [f flags] rest] eqn:E.
  - exists d. split; auto. split; [| split; [| split]]; auto.
    + intros t ts _. simpl. apply sublist_refl.
    + intros f rid Hf Ho. pose proof Ho as (k & r & Hrow & _). simpl in Hrow. destruct Hrow as (_ & i & _ & ->).
      assert (flagged (pan_find sch fks d) f i) as H by (now apply pan_find_exact).
      rewrite E in H. destruct H as (? & [] & _).
  - apply pan_find_head in E as (Hf & -> & r0 & Hr0 & Hb0). rewrite drop_flagged_filter.
    change (upd_p d (fk_native f) _) with (pan_step sch f d).
    destruct (Hg _ Hf) as [Hw Hno]. pose proof Hw as (nts & fts & Hn & _).
    assert (wf_pdat sch (pan_step sch f d)) as Hd1.
    { intros t ts r Hin Hr. eapply Hd; eauto. eapply sublist_In; [apply pan_step_sub | exact Hr]. }
    destruct (IH _ Hd1) as (d' & Hrem & H1 & H2 & H3 & H4).
    + assert (ptotal sch (pan_step sch f d) < ptotal sch d); [| lia]. unfold ptotal.
      apply (total_rows_lt _ _ _ (fk_native f) (mkT [] (tpk nts ++ tdf nts))).
      * intros t ts _. simpl. apply sublist_length, pan_step_sub.
      * apply pan_schema_In; eauto.
      * simpl. pose proof (sublist_length _ _ (pan_step_sub sch f d (fk_native f))) as Hle.
        destruct (Nat.eq_dec (List.length (pan_step sch f d (fk_native f)))
                    (List.length (d (fk_native f)))) as [El | El]; [| lia].
        exfalso. apply sublist_length_eq in El; [| apply pan_step_sub].
        rewrite <- El in Hr0. unfold pan_step, upd_p in Hr0. rewrite String.eqb_refl in Hr0.
        apply filter_In in Hr0 as [_ Hr0]. now rewrite Hb0 in Hr0.
    + exists d'. split; auto. split; [| split; [| split]]; auto.
      * intros t ts Hin. eapply sub_table_trans; [apply (H1 t ts Hin) |]. simpl. apply pan_step_sub.
      * intros e He Hc. apply H3; auto. intros t ts Hin. specialize (He t ts Hin) as Het. unfold as_dat in Het |- *.
        destruct (e t) as [l | l] eqn:Ee; auto. unfold pan_step, upd_p.
        destruct (String.eqb (fk_native f) t) eqn:Et; auto. simpl in Het |- *. apply String.eqb_eq in Et. subst t.
        apply sublist_filter_greatest; auto. intros r Hr. apply negb_true_iff.
        assert (In r (d (fk_native f))) as Hrd by (eapply sublist_In; eauto).
        apply pan_fails_iff; auto. apply (matched_mono _ e); auto; [now apply pan_wf_fk |].
        apply In_nth_error in Hr as (i & Hi).
        (* matched is decidable on e: read e as a PanDat *)
        set (pe := fun t => match e t with Listed l => l | Keyed _ => d t end).
        assert (forall t ts, In (t, ts) (pan_schema sch) -> as_dat pe t = e t) as Hpe.
        { intros t ts' Hin'. unfold as_dat, pe. specialize (He t ts' Hin'). destruct (e t); auto. destruct He. }
        assert (wf_pdat sch pe) as Hpwf.
        { intros t ts0 r1 Hin1 Hr1. eapply Hd; eauto. unfold pe in Hr1.
          assert (In (t, mkT [] (tpk ts0 ++ tdf ts0)) (pan_schema sch)) as Hin2 by (apply pan_schema_In; eauto).
          specialize (He t _ Hin2). destruct (e t); auto. simpl in He. eapply sublist_In; [exact He | exact Hr1]. }
        assert (In r (pe (fk_native f))) as Hrp.
        { unfold pe. rewrite Ee. eapply nth_error_In; eauto. }
        assert (forall d1 d2, (forall t ts, In (t, ts) (pan_schema sch) -> d1 t = d2 t) ->
                  matched (pan_schema sch) d1 f [] r -> matched (pan_schema sch) d2 f [] r) as Hext.
        { intros d1 d2 Heq (n1 & f1 & rid1 & k1 & r1 & Q1 & Q2 & Q3 & Q4).
          exists n1, f1, rid1, k1, r1. split; auto. split; auto. split; auto.
          now rewrite <- (Heq _ _ Q2). }
        destruct (pan_fails sch pe f r) eqn:Eb.
        -- exfalso. apply (Hc f (RIdx i) Hf). exists [], r. split; [rewrite Ee; simpl; eauto |].
           intros Hm. apply (Hext e (as_dat pe)) in Hm; [| intros; symmetry; eauto].
           apply pan_fails_iff in Hm; auto. congruence.
        -- apply pan_fails_iff in Eb; auto. apply (Hext (as_dat pe) e); auto.
      * intros t Ht. rewrite H4 by auto. unfold as_dat, pan_step, upd_p. f_equal.
        destruct (String.eqb (fk_native f) t) eqn:Et; auto. apply String.eqb_eq in Et. subst t.
        exfalso. apply Ht. apply in_map_iff. exists (fk_native f, mkT [] (tpk nts ++ tdf nts)).
        split; auto. apply pan_schema_In; eauto.
Qed.

Lemma sublist_antisym {A} : forall a b : list A, sublist a b -> sublist b a -> a = b.
Proof.
  intros a b H1 H2. apply sublist_length_eq; auto.
  apply sublist_length in H1, H2. lia.
Qed.

(** The result does not depend on the order of the foreign keys, and equals
    what any other procedure computing the largest consistent part gives. *)
Theorem largest_unique : forall sch fks fks' d d1 d2,
  (forall f, In f fks <-> In f fks') ->
  largest_consistent sch fks d d1 -> largest_consistent sch fks' d d2 ->
  forall t, In t (map fst sch) -> d1 t = d2 t.
Proof.
  intros sch fks fks' d d1 d2 Hperm (A1 & A2 & A3 & _) (B1 & B2 & B3 & _) t Ht.
  apply in_map_iff in Ht as ([t0 ts] & <- & Hin). simpl.
  assert (consistent sch fks d2) as C2 by (intros f rid Hf; apply B2; now apply Hperm).
  assert (consistent sch fks' d1) as C1 by (intros f rid Hf; apply A2; now apply Hperm).
  specialize (A3 d2 B1 C2 _ _ Hin). specialize (B3 d1 A1 C1 _ _ Hin).
  destruct (d1 t0), (d2 t0); simpl in *; try tauto; f_equal; now apply sublist_antisym.
Qed.

Theorem pan_remove_order : forall sch fks fks' d n m d1 d2,
  wf_schema sch -> wf_pdat sch d -> good_pan_fks sch fks -> Permutation fks fks' ->
  ptotal sch d < n -> ptotal sch d < m ->
  pan_remove n sch fks d = Some d1 -> pan_remove m sch fks' d = Some d2 ->
  forall t, In t (map fst sch) -> d1 t = d2 t.
Proof.
  intros sch fks fks' d n m d1 d2 Hs Hd Hg Hp Hn Hm E1 E2 t Ht.
  destruct (pan_remove_correct sch fks d n) as (d1' & E1' & L1); auto.
  destruct (pan_remove_correct sch fks' d m) as (d2' & E2' & L2); auto.
  { intros f Hf. apply Hg. eapply Permutation_in; [apply Permutation_sym |]; eauto. }
  rewrite E1 in E1'. injection E1' as <-. rewrite E2 in E2'. injection E2' as <-.
  assert (as_dat d1 t = as_dat d2 t) as E.
  { eapply (largest_unique (pan_schema sch) fks fks'); eauto.
    - intros f. split; apply Permutation_in; auto. now apply Permutation_sym.
    - unfold pan_schema. rewrite map_map. exact Ht. }
  unfold as_dat in E. now injection E.
Qed.

(** ** Bounded reports (C62) *)

Definition flag_count (rep : list (fk * list bool)) : nat :=
  list_sum (map (fun fb => count_occ Bool.bool_dec (snd fb) true) rep).

(** The first [n] trues kept, later ones cleared. *)
Fixpoint keep_trues (n : nat) (l : list bool) : list bool :=
  match l with
  | [] => []
  | true :: l' => match n with 0 => false :: keep_trues 0 l' | S m => true :: keep_trues m l' end
  | false :: l' => false :: keep_trues n l'
  end.

Lemma keep_trues_0 : forall l, keep_trues 0 l = map (fun _ => false) l.
Proof. induction l as [| [] l IH]; simpl; f_equal; auto. Qed.

Lemma keep_trues_count : forall l n,
  count_occ Bool.bool_dec (keep_trues n l) true = Nat.min n (count_occ Bool.bool_dec l true).
Proof.
  induction l as [| [] l IH]; intros n; simpl.
  - now rewrite Nat.min_0_r.
  - destruct n; simpl; rewrite IH; reflexivity.
  - apply IH.
Qed.

Lemma keep_trues_incl : forall l n i, nth_error (keep_trues n l) i = Some true -> nth_error l i = Some true.
Proof.
  induction l as [| [] l IH]; intros n [| i] H; simpl in *; try discriminate; auto.
  - destruct n; simpl in H; eapply IH; eauto.
  - eapply IH; eauto.
Qed.

Lemma pan_flags_tripped : forall mx bad c, pan_flags mx bad c true = (keep_trues 0 bad, c).
Proof.
  induction bad as [| b bad IH]; intros c; simpl; auto. rewrite IH. now destruct b.
Qed.

Lemma pan_flags_spec : forall mx n, rounds_up mx n -> forall bad c, c < n ->
  pan_flags mx bad c false =
  (keep_trues (n - c) bad, Nat.min n (c + count_occ Bool.bool_dec bad true)).
Proof.
  intros mx n [Hr1 Hr2]. induction bad as [| b bad IH]; intros c Hc; cbn [pan_flags].
  - simpl. f_equal. lia.
  - destruct b; cbn [keep_trues].
    + destruct (num_leb mx (of_int (Z.of_nat (S c)))) eqn:E.
      * apply Hr2 in E. rewrite pan_flags_tripped.
        replace (n - c) with 1 by lia. simpl. f_equal. lia.
      * assert (S c < n) as Hlt.
        { destruct (Nat.lt_ge_cases (S c) n) as [H | H]; auto.
          apply (num_leb_of_int_mono _ _ _ H) in Hr1. congruence. }
        rewrite IH by auto. replace (n - c) with (S (n - S c)) by lia. simpl. f_equal. lia.
    + rewrite IH by auto. reflexivity.
Qed.

Lemma count_occ_existsb : forall l, existsb (fun b => b) l = false -> count_occ Bool.bool_dec l true = 0.
Proof. induction l as [| [] l IH]; simpl; auto. discriminate. Qed.

Lemma pan_bounded_aux : forall sch fks d mx n c, rounds_up mx n -> c < n ->
  flag_count (pan_find_bounded sch fks d mx c) = Nat.min (n - c) (flag_count (pan_find sch fks d)) /\
  (forall f i, flagged (pan_find_bounded sch fks d mx c) f i -> flagged (pan_find sch fks d) f i).
Proof.
  intros sch fks d mx n. induction fks as [| f fks IH]; intros c Hr Hc.
  - split; [unfold flag_count; simpl; lia |]. intros f i (? & [] & _).
  - simpl pan_find_bounded. unfold pan_find. simpl map. simpl filter.
    set (bad := map (pan_fails sch d f) (d (fk_native f))).
    destruct (existsb (fun b => b) bad) eqn:E; [| now apply IH].
    change (filter _ _) with (pan_find sch fks d).
    rewrite (pan_flags_spec mx n) by auto.
    set (c' := Nat.min n (c + count_occ Bool.bool_dec bad true)).
    assert (forall g i, flagged (pan_find sch fks d) g i -> flagged ((f, bad) :: pan_find sch fks d) g i) as Htl.
    { intros g i (fl & H1 & H2). exists fl. split; auto. now right. }
    assert (forall g i rest, flagged ((f, keep_trues (n - c) bad) :: rest) g i ->
              flagged ((f, bad) :: pan_find sch fks d) g i \/ flagged rest g i) as Hhd.
    { intros g i rest (fl & [H1 | H1] & H2).
      - injection H1 as <- <-. left. exists bad. split; [now left |]. eapply keep_trues_incl; eauto.
      - right. exists fl. auto. }
    destruct (num_leb mx (of_int (Z.of_nat c'))) eqn:El.
    + apply (proj2 Hr) in El. split.
      * unfold flag_count. simpl. rewrite keep_trues_count. unfold c' in El. lia.
      * intros g i H. apply Hhd in H as [H | (fl & [] & _)]. exact H.
    + assert (c' < n) as Hc'.
      { destruct (Nat.lt_ge_cases c' n) as [H | H]; auto.
        rewrite (num_leb_of_int_mono mx _ _ H (proj1 Hr)) in El. discriminate. }
      destruct (IH c' Hr Hc') as [IH1 IH2]. split.
      * unfold flag_count in *. simpl. rewrite keep_trues_count, IH1. unfold c' in *. lia.
      * intros g i H. apply Hhd in H as [H | H]; auto.
Qed.

Lemma rounds_up_pos : forall mx n, num_ltb (of_int 0) mx = true -> rounds_up mx n -> 0 < n.
Proof.
  intros mx n Hpos [Hr _]. destruct n; [| lia]. exfalso. unfold num_leb in Hr. simpl in *.
  now rewrite Hpos in Hr.
Qed.

Theorem pan_find_bounded_spec : forall sch fks d mx n,
  num_ltb (of_int 0) mx = true -> rounds_up mx n ->
  flag_count (pan_find_bounded sch fks d mx 0) = Nat.min n (flag_count (pan_find sch fks d)) /\
  (forall f i, flagged (pan_find_bounded sch fks d mx 0) f i -> flagged (pan_find sch fks d) f i).
Proof.
  intros sch fks d mx n Hpos Hr. pose proof (rounds_up_pos _ _ Hpos Hr) as Hn.
  destruct (pan_bounded_aux sch fks d mx n 0 Hr Hn) as [H1 H2]. rewrite Nat.sub_0_r in H1. auto.
Qed.

Lemma pan_flags_inf : forall bad c, fst (pan_flags PInf bad c false) = bad.
Proof.
  induction bad as [| b bad IH]; intros c; auto. cbn [pan_flags].
  change (num_leb PInf (of_int (Z.of_nat (S c)))) with false.
  destruct b.
  - specialize (IH (S c)). destruct (pan_flags PInf bad (S c) false). simpl in *. now subst.
  - specialize (IH c). destruct (pan_flags PInf bad c false). simpl in *. now subst.
Qed.

Theorem pan_find_unbounded : forall sch fks d c, pan_find_bounded sch fks d PInf c = pan_find sch fks d.
Proof.
  intros sch fks d. induction fks as [| f fks IH]; intros c; auto.
  simpl pan_find_bounded. unfold pan_find. simpl map. simpl filter.
  destruct (existsb (fun b => b) (map (pan_fails sch d f) (d (fk_native f)))) eqn:E; [| apply IH].
  pose proof (pan_flags_inf (map (pan_fails sch d f) (d (fk_native f))) c) as Hf.
  destruct (pan_flags PInf (map (pan_fails sch d f) (d (fk_native f))) c false) as [fl c'].
  simpl in *. subst fl. now rewrite IH.
Qed.
