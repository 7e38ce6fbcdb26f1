(** * Implied foreign keys, shared foreign fields, cardinality. *)
From Coq Require Import ZArith Bool List String Arith Lia Permutation.
From Verif Require Import PyVal PyValFacts PyDict PyDictFacts ListFacts Data FindTypes FindTypesFacts
  ReplaceFacts Report FK FKFacts RemoveFacts PanFKFacts.
Import ListNotations.

(** ** Cardinality (C15) *)

(** The mapped native cells of two rows are equal. *)
Definition same_native (nts : tschema) (m : list (string * string)) (k : key) (r : row) (k' : key) (r' : row)
  : Prop :=
  forall nf ff v w, In (nf, ff) m -> cell_in nts k r nf v -> cell_in nts k' r' nf w -> pyeq v w = true.

Lemma half_one_iff : forall ts fields,
  half_one ts fields = true <-> tpk ts <> [] /\ forall p, In p (tpk ts) -> In p fields.
Proof.
  intros ts fields. unfold half_one. destruct (tpk ts) as [| p0 pk].
  - split; [discriminate | intros [H _]; congruence].
  - rewrite forallb_forall. split.
    + intros H. split; [discriminate |]. intros p Hp. apply H in Hp.
      apply existsb_exists in Hp as (x & Hx & E). apply String.eqb_eq in E. now subst.
    + intros [_ H] p Hp. apply existsb_exists. exists p. split; auto. apply String.eqb_refl.
Qed.

Lemma keys_equal_by_pk : forall ts k k', wf_tschema ts ->
  List.length k = List.length (tpk ts) -> List.length k' = List.length (tpk ts) ->
  (forall i p v w, nth_error (tpk ts) i = Some p -> nth_error k i = Some v -> nth_error k' i = Some w ->
     pyeq v w = true) -> key_pyeq k k' = true.
Proof.
  intros ts k k' _ Hk Hk' H. apply key_pyeq_iff. apply nth_error_ext. intros i. rewrite !nth_error_map.
  destruct (nth_error k i) as [v |] eqn:Ev.
  - assert (i < List.length (tpk ts)) as Hi by (rewrite <- Hk; eapply nth_error_Some_lt; eauto).
    destruct (nth_error_ex (tpk ts) i Hi) as (p & Hp).
    destruct (nth_error_ex k' i) as (w & Hw); [lia |]. rewrite Hw. simpl. f_equal.
    apply pyeq_iff. eauto.
  - apply nth_error_None in Ev. assert (nth_error k' i = None) as -> by (apply nth_error_None; lia).
    reflexivity.
Qed.

Lemma same_key_same_row : forall ts tb rid k r rid' k' r', wf_table ts tb -> tpk ts <> [] ->
  row_in tb rid k r -> row_in tb rid' k' r' -> key_pyeq k k' = true -> rid = rid' /\ k = k' /\ r = r'.
Proof.
  intros ts tb rid k r rid' k' r' Hwf Hpk H1 H2 E.
  eapply (row_in_canon ts tb); eauto. destruct tb as [l | l]; simpl in *.
  - destruct H1 as [_ ->]. destruct H2 as [_ ->]. simpl. exact E.
  - destruct Hwf. contradiction.
Qed.

Theorem to_one : forall sch d f nts fts k r rid1 k1 r1 rid2 k2 r2 rid,
  wf_schema sch -> wf_dat sch d -> wf_fk sch f -> foreign_one sch f = true ->
  In (fk_native f, nts) sch -> In (fk_foreign f, fts) sch ->
  row_in (d (fk_native f)) rid k r ->
  row_in (d (fk_foreign f)) rid1 k1 r1 -> row_in (d (fk_foreign f)) rid2 k2 r2 ->
  agree nts fts (fk_map f) k r k1 r1 -> agree nts fts (fk_map f) k r k2 r2 ->
  rid1 = rid2 /\ k1 = k2 /\ r1 = r2.
Proof.
  intros sch d f nts fts k r rid1 k1 r1 rid2 k2 r2 rid Hs Hd Hw H1 Hn Hf Hrow Hr1 Hr2 A1 A2.
  unfold foreign_one in H1. rewrite (ts_of_In _ _ _ Hs Hf) in H1. apply half_one_iff in H1 as [Hpk Hsub].
  assert (wf_tschema fts) as Hwf by (now apply (proj2 Hs) in Hf).
  pose proof (row_in_key_length _ _ _ _ _ (Hd _ _ Hf) Hr1) as L1.
  pose proof (row_in_key_length _ _ _ _ _ (Hd _ _ Hf) Hr2) as L2.
  eapply (same_key_same_row fts); eauto.
  eapply (keys_equal_by_pk fts); eauto. intros i p v w Hp Hv Hw'.
  assert (In p (map snd (fk_map f))) as Hin by (apply Hsub; eapply nth_error_In; eauto).
  apply in_map_iff in Hin as ([nf ff] & E & Hin). simpl in E. subst ff.
  destruct Hw as (nts' & fts' & Hn' & Hf' & _ & Hflds & _).
  assert (nts' = nts) as -> by (rewrite <- (ts_of_In _ _ _ Hs Hn'); now apply ts_of_In).
  destruct (Hflds _ _ Hin) as [Hnf _].
  destruct (cell_in_exists nts _ _ _ _ _ (Hd _ _ Hn) Hrow Hnf) as (x & Hx).
  assert (forall kk rr u, nth_error kk i = Some u -> cell_in fts kk rr p u) as Hcell.
  { intros kk rr u Hu. exists i. rewrite !nth_error_app1; auto; eapply nth_error_Some_lt; eauto. }
  assert (pyeq x v = true) as E1 by (eapply (A1 nf p); eauto).
  assert (pyeq x w = true) as E2 by (eapply (A2 nf p); eauto).
  rewrite pyeq_sym in E1. eapply pyeq_trans; eauto.
Qed.

Theorem one_to : forall sch d f nts rid1 k1 r1 rid2 k2 r2,
  wf_schema sch -> wf_dat sch d -> wf_fk sch f -> native_one sch f = true ->
  In (fk_native f, nts) sch ->
  row_in (d (fk_native f)) rid1 k1 r1 -> row_in (d (fk_native f)) rid2 k2 r2 ->
  same_native nts (fk_map f) k1 r1 k2 r2 ->
  rid1 = rid2 /\ k1 = k2 /\ r1 = r2.
Proof.
  intros sch d f nts rid1 k1 r1 rid2 k2 r2 Hs Hd Hw H1 Hn Hr1 Hr2 A.
  unfold native_one in H1. rewrite (ts_of_In _ _ _ Hs Hn) in H1. apply half_one_iff in H1 as [Hpk Hsub].
  assert (wf_tschema nts) as Hwf by (now apply (proj2 Hs) in Hn).
  pose proof (row_in_key_length _ _ _ _ _ (Hd _ _ Hn) Hr1) as L1.
  pose proof (row_in_key_length _ _ _ _ _ (Hd _ _ Hn) Hr2) as L2.
  eapply (same_key_same_row nts); eauto.
  eapply (keys_equal_by_pk nts); eauto. intros i p v w Hp Hv Hw'.
  assert (In p (map fst (fk_map f))) as Hin by (apply Hsub; eapply nth_error_In; eauto).
  apply in_map_iff in Hin as ([nf ff] & E & Hin). simpl in E. subst nf.
  assert (forall kk rr u, nth_error kk i = Some u -> cell_in nts kk rr p u) as Hcell.
  { intros kk rr u Hu. exists i. rewrite !nth_error_app1; auto; eapply nth_error_Some_lt; eauto. }
  eapply A; eauto.
Qed.

(** ** Derived foreign keys (C14) *)

Lemma derive_In : forall f1 f2 nf ff, distinct_foreign f1 -> distinct_foreign f2 ->
  (In (nf, ff) (fk_map (derive f1 f2)) <-> exists bf, In (nf, bf) (fk_map f1) /\ In (bf, ff) (fk_map f2)).
Proof.
  intros f1 f2 nf ff H1 H2. simpl. rewrite (f2n_distinct (fk_map f2)) by exact H2. rewrite in_flat_map. split.
  - intros ([ff' bf] & Hin & Hx). simpl in Hx. apply in_map_iff in Hin as ([bf' ff''] & E & Hin).
    simpl in E. injection E as -> ->.
    destruct (dget String.eqb (foreign_to_native (fk_map f1)) bf) as [n |] eqn:E; [| destruct Hx].
    destruct Hx as [Hx | []]. injection Hx as -> ->. apply f2n_get in E; eauto.
  - intros (bf & Hb1 & Hb2). exists (ff, bf). split.
    + apply in_map_iff. exists (bf, ff). auto.
    + simpl. apply f2n_get in Hb1; auto. rewrite Hb1. now left.
Qed.

Lemma derive_snd : forall f1 f2, distinct_foreign f2 ->
  sublist (map snd (fk_map (derive f1 f2))) (map snd (fk_map f2)).
Proof.
  intros f1 f2 H2. simpl. rewrite (f2n_distinct (fk_map f2)) by exact H2. clear H2.
  induction (fk_map f2) as [| [bf ff] m IH]; simpl; [constructor |].
  rewrite map_app. destruct (dget String.eqb (foreign_to_native (fk_map f1)) bf); simpl.
  - apply sub_keep. exact IH.
  - apply sub_skip. exact IH.
Qed.

Lemma derive_distinct_foreign : forall f1 f2, distinct_foreign f2 -> distinct_foreign (derive f1 f2).
Proof. intros f1 f2 H. unfold distinct_foreign. eapply sublist_NoDup; [apply derive_snd |]; auto. Qed.

Lemma derive_NoDup_native : forall f1 f2, distinct_foreign f1 -> distinct_foreign f2 ->
  NoDup (map fst (fk_map f1)) -> NoDup (map fst (fk_map f2)) -> NoDup (map fst (fk_map (derive f1 f2))).
Proof.
  intros f1 f2 H1 H2 N1 N2. simpl. rewrite (f2n_distinct (fk_map f2)) by exact H2. clear H2.
  induction (fk_map f2) as [| [bf ff] m IH]; simpl; [constructor |].
  inversion N2 as [| ? ? Hbf N2']; subst. rewrite map_app.
  destruct (dget String.eqb (foreign_to_native (fk_map f1)) bf) as [nf |] eqn:E; simpl; auto.
  constructor; auto. intros Hin. apply in_map_iff in Hin as ([nf' ff'] & E' & Hin). simpl in E'. subst nf'.
  apply in_flat_map in Hin as ([ff2 bf2] & Hin & Hx). apply in_map_iff in Hin as ([bf3 ff3] & E3 & Hin).
  simpl in E3. injection E3 as -> ->. simpl in Hx.
  destruct (dget String.eqb (foreign_to_native (fk_map f1)) bf2) as [n |] eqn:E2; [| destruct Hx].
  destruct Hx as [Hx | []]. injection Hx as -> ->.
  apply f2n_get in E, E2; auto.
  assert (bf = bf2) as <-.
  { pose proof (NoDup_map_inj_in fst _ _ _ N1 E E2 eq_refl) as Hp. now injection Hp. }
  apply Hbf. apply in_map_iff. exists (bf, ff'). auto.
Qed.

Lemma simple_fk_iff : forall sch f fts, wf_schema sch -> In (fk_foreign f, fts) sch ->
  (simple_fk sch f = true <-> forall p, In p (tpk fts) <-> In p (map snd (fk_map f))).
Proof.
  intros sch f fts Hs Hf. unfold simple_fk. rewrite (ts_of_In _ _ _ Hs Hf).
  rewrite andb_true_iff, !forallb_forall. unfold mem_str.
  assert (forall x l, existsb (String.eqb x) l = true <-> In x l) as Hmem.
  { intros x l. rewrite existsb_exists. split.
    - intros (y & Hy & E). apply String.eqb_eq in E. now subst.
    - intros H. exists x. split; auto. apply String.eqb_refl. }
  split.
  - intros [H1 H2] p. split; intros Hp; [apply H1 in Hp | apply H2 in Hp]; now apply Hmem.
  - intros H. split; intros p Hp; apply Hmem; now apply H.
Qed.

(** Every foreign table of a foreign key has a primary key. *)
Definition keyed_parents (sch : schema) (fks : list fk) : Prop :=
  forall f fts, In f fks -> In (fk_foreign f, fts) sch -> tpk fts <> [].

Lemma find_derived_spec : forall sch fks g, find_derived sch fks = Some g ->
  exists f1 f2, In f1 fks /\ In f2 fks /\ fk_native f2 = fk_foreign f1 /\ g = derive f1 f2 /\
    ~ In g fks /\ simple_fk sch g = true.
Proof.
  intros sch fks g H. unfold find_derived in H.
  destruct (filter _ (candidates fks)) as [| g' l] eqn:E; [discriminate |]. injection H as ->.
  assert (In g (g :: l)) as Hin by (now left). rewrite <- E in Hin. apply filter_In in Hin as [Hin Hb].
  apply andb_prop in Hb as [Hb1 Hb2]. apply negb_true_iff in Hb1.
  unfold candidates in Hin. apply in_flat_map in Hin as (f1 & H1 & Hin).
  apply in_flat_map in Hin as (f2 & H2 & Hin).
  destruct (String.eqb (fk_native f2) (fk_foreign f1)) eqn:En; [| destruct Hin].
  destruct Hin as [<- | []]. apply String.eqb_eq in En. exists f1, f2. repeat split; auto.
  intros Hg. assert (existsb (fk_eqb (derive f1 f2)) fks = true) as Ht; [| congruence].
  apply existsb_exists. exists (derive f1 f2). split; auto. now apply fk_eqb_eq.
Qed.

Lemma derived_good : forall sch fks f1 f2, wf_schema sch -> good_fks sch fks -> keyed_parents sch fks ->
  In f1 fks -> In f2 fks -> fk_native f2 = fk_foreign f1 -> simple_fk sch (derive f1 f2) = true ->
  wf_fk sch (derive f1 f2) /\ distinct_foreign (derive f1 f2).
Proof.
  intros sch fks f1 f2 Hs [Hnd Hg] Hk H1 H2 Hbr Hsimple.
  destruct (Hg _ H1) as [(nts & bts & Hn & Hb & Hne1 & Hfl1 & Hnd1) Hd1].
  destruct (Hg _ H2) as [(bts' & fts & Hb' & Hf & Hne2 & Hfl2 & Hnd2) Hd2].
  split; [| now apply derive_distinct_foreign].
  exists nts, fts. split; auto. split; auto. split; [| split].
  - intros E. rewrite (simple_fk_iff sch _ fts) in Hsimple by auto.
    rewrite E in Hsimple. simpl in Hsimple. apply (Hk f2 fts H2 Hf).
    destruct (tpk fts) as [| p pk]; auto. exfalso. apply (Hsimple p). now left.
  - intros nf ff Hin. apply derive_In in Hin as (bf & Hin1 & Hin2); auto.
    split; [now apply Hfl1 in Hin1 | now apply Hfl2 in Hin2].
  - now apply derive_NoDup_native.
Qed.

Lemma derived_holds : forall sch fks d f1 f2, wf_schema sch -> wf_dat sch d -> good_fks sch fks ->
  In f1 fks -> In f2 fks -> fk_native f2 = fk_foreign f1 -> consistent sch fks d ->
  forall rid, ~ orphan sch d (derive f1 f2) rid.
Proof.
  intros sch fks d f1 f2 Hs Hd [Hnd Hg] H1 H2 Hbr Hc rid (k & r & Hrow & Hm). simpl in Hrow.
  destruct (Hg _ H1) as [Hw1 Hd1]. destruct (Hg _ H2) as [Hw2 Hd2].
  destruct (matched_dec sch d f1 rid k r Hs Hd Hw1 Hd1 Hrow) as [M1 | M1].
  2:{ apply (Hc f1 rid H1). exists k, r. auto. }
  destruct M1 as (nts & bts & ridb & kb & rb & Hn & Hb & Hrowb & A1).
  rewrite <- Hbr in Hrowb.
  destruct (matched_dec sch d f2 ridb kb rb Hs Hd Hw2 Hd2 Hrowb) as [M2 | M2].
  2:{ apply (Hc f2 ridb H2). exists kb, rb. auto. }
  destruct M2 as (bts2 & fts & ridf & kf & rf & Hb2 & Hf & Hrowf & A2).
  rewrite Hbr in Hb2.
  assert (bts2 = bts) as -> by (rewrite <- (ts_of_In _ _ _ Hs Hb2); now apply ts_of_In).
  apply Hm. exists nts, fts, ridf, kf, rf. simpl. repeat split; auto.
  intros nf ff v w Hin Hv Hw. apply derive_In in Hin as (bf & Hin1 & Hin2); auto.
  destruct Hw1 as (nts' & bts' & Hn' & Hb' & _ & Hfl1 & _).
  assert (bts' = bts) as -> by (rewrite <- (ts_of_In _ _ _ Hs Hb'); now apply ts_of_In).
  destruct (Hfl1 _ _ Hin1) as [_ Hbf].
  rewrite Hbr in Hrowb.
  destruct (cell_in_exists bts _ _ _ _ _ (Hd _ _ Hb) Hrowb Hbf) as (x & Hx).
  eapply pyeq_trans; [eapply A1 | eapply A2]; eauto.
Qed.

Lemma implied_good : forall n sch fks fks', wf_schema sch -> good_fks sch fks -> keyed_parents sch fks ->
  add_implied n sch fks = Some fks' ->
  good_fks sch fks' /\ keyed_parents sch fks' /\ incl fks fks' /\
  forall d, wf_dat sch d -> (consistent sch fks' d <-> consistent sch fks d).
Proof.
  induction n as [| n IH]; intros sch fks fks' Hs Hg Hk H; [discriminate |]. simpl in H.
  destruct (find_derived sch fks) as [g |] eqn:E.
  - apply find_derived_spec in E as (f1 & f2 & H1 & H2 & Hbr & -> & Hnin & Hsimple).
    pose proof (derived_good sch fks f1 f2 Hs Hg Hk H1 H2 Hbr Hsimple) as Hgood.
    destruct (IH sch (fks ++ [derive f1 f2]) fks') as (G1 & G2 & G3 & G4); auto.
    + destruct Hg as [Hnd Hg]. split.
      * apply NoDup_app_intro; auto; [repeat constructor; simpl; tauto |].
        intros x Hx [<- | []]. contradiction.
      * intros f Hf. apply in_app_iff in Hf as [Hf | [<- | []]]; auto.
    + intros f fts Hf Hin. apply in_app_iff in Hf as [Hf | [<- | []]]; eauto.
    + split; auto. split; auto. split.
      * intros f Hf. apply G3. apply in_app_iff. auto.
      * intros d Hd. rewrite (G4 d Hd). split.
        -- intros Hc f rid Hf. apply Hc. apply in_app_iff. auto.
        -- intros Hc f rid Hf. apply in_app_iff in Hf as [Hf | [<- | []]]; [now apply Hc |].
           now apply (derived_holds sch fks d f1 f2).
  - injection H as <-. split; auto. split; auto. split; [apply incl_refl |]. intros d _. tauto.
Qed.

Theorem implied_same_verdict : forall n sch fks fks' d, wf_schema sch -> wf_dat sch d ->
  good_fks sch fks -> keyed_parents sch fks -> add_implied n sch fks = Some fks' ->
  (find_foreign_key_failures sch fks' d PInf = Some [] <->
   find_foreign_key_failures sch fks d PInf = Some []).
Proof.
  intros n sch fks fks' d Hs Hd Hg Hk H.
  destruct (implied_good n sch fks fks' Hs Hg Hk H) as (Hg' & _ & _ & Hc).
  rewrite !find_fks_all.
  assert (forall l, good_fks sch l -> (Some (freport_of (fk_events sch l d)) = Some [] <-> consistent sch l d)) as Hx.
  { intros l Hl. rewrite <- (no_events_consistent sch l d) by auto.
    split; intros E; [now injection E | now rewrite E]. }
  rewrite !Hx by auto. now apply Hc.
Qed.

Theorem implied_same_removal : forall n m m' sch fks fks' d d1 d2, wf_schema sch -> wf_dat sch d ->
  good_fks sch fks -> keyed_parents sch fks -> add_implied n sch fks = Some fks' ->
  total_rows sch d < m -> total_rows sch d < m' ->
  remove_fk_failures m sch fks true d = Some d1 ->
  remove_fk_failures m' sch fks' true d = Some d2 ->
  forall t, In t (map fst sch) -> d1 t = d2 t.
Proof.
  intros n m m' sch fks fks' d d1 d2 Hs Hd Hg Hk H Hm Hm' E1 E2 t Ht.
  destruct (implied_good n sch fks fks' Hs Hg Hk H) as (Hg' & _ & _ & Hc).
  destruct (remove_correct sch fks d m Hs Hd Hg Hm) as (x1 & F1 & L1).
  destruct (remove_correct sch fks' d m' Hs Hd Hg' Hm') as (x2 & F2 & L2).
  rewrite E1 in F1. injection F1 as <-. rewrite E2 in F2. injection F2 as <-.
  apply (largest_unique sch fks fks d d1 d2); auto; [tauto |].
  destruct L2 as (A & B & C & D). split; auto. split; [| split]; auto.
  - apply Hc; auto. eapply sub_dat_wf; eauto.
  - intros e He Hce. apply C; auto. apply Hc; auto. eapply sub_dat_wf; eauto.
Qed.

(** *** Termination of the closure loop *)

(** All lists of length [n] over [l]. *)
Fixpoint lists_of {A} (n : nat) (l : list A) : list (list A) :=
  match n with
  | 0 => [[]]
  | S m => flat_map (fun x => map (cons x) (lists_of m l)) l
  end.

Lemma lists_of_In {A} : forall (l x : list A), incl x l -> In x (lists_of (List.length x) l).
Proof.
  intros l. induction x as [| a x IH]; intros H; simpl; auto.
  apply in_flat_map. exists a. split; [apply H; now left |]. apply in_map. apply IH.
  intros b Hb. apply H. now right.
Qed.

(** Every foreign key that the loop could ever add. *)
Definition universe (sch : schema) : list fk :=
  flat_map (fun nt => flat_map (fun ft =>
    map (mkFk (fst nt) (fst ft))
      (lists_of (List.length (tpk (snd ft)))
        (list_prod (tpk (snd nt) ++ tdf (snd nt)) (tpk (snd ft))))) sch) sch.

Lemma derived_universe : forall sch f1 f2, wf_schema sch -> wf_fk sch f1 -> wf_fk sch f2 ->
  distinct_foreign f1 -> distinct_foreign f2 ->
  simple_fk sch (derive f1 f2) = true -> In (derive f1 f2) (universe sch).
Proof.
  intros sch f1 f2 Hs (nts & bts & Hn & Hb & _ & Hfl1 & Hnd1) (bts' & fts & Hb' & Hf & _ & Hfl2 & Hnd2)
    Hd1 Hd2 Hsimple.
  rewrite (simple_fk_iff sch (derive f1 f2) fts Hs Hf) in Hsimple.
  unfold universe. apply in_flat_map. exists (fk_native f1, nts). split; auto.
  apply in_flat_map. exists (fk_foreign f2, fts). split; auto. simpl snd. simpl fst.
  apply in_map_iff. exists (fk_map (derive f1 f2)). split; [reflexivity |].
  assert (List.length (fk_map (derive f1 f2)) = List.length (tpk fts)) as <-.
  { rewrite <- (map_length snd). apply Permutation_length, NoDup_Permutation.
    - now apply derive_distinct_foreign.
    - assert (wf_tschema fts) as Hw by (now apply (proj2 Hs) in Hf). eapply NoDup_app_l. exact Hw.
    - intros p. symmetry. apply Hsimple. }
  apply lists_of_In. intros [nf ff] Hin. apply in_prod.
  - apply derive_In in Hin as (bf & Hin1 & _); auto. now apply Hfl1 in Hin1.
  - apply Hsimple. apply in_map_iff. exists (nf, ff). auto.
Qed.

Theorem implied_terminates : forall sch fks n, wf_schema sch -> good_fks sch fks -> keyed_parents sch fks ->
  List.length (fks ++ universe sch) < n -> exists fks', add_implied n sch fks = Some fks'.
Proof.
  intros sch fks0 n Hs Hg0 Hk0 Hn.
  assert (forall n fks, good_fks sch fks -> keyed_parents sch fks -> incl fks (fks0 ++ universe sch) ->
            List.length (fks0 ++ universe sch) < n + List.length fks ->
            exists fks', add_implied n sch fks = Some fks') as Hgen.
  { clear n Hn Hg0 Hk0. induction n as [| n IH]; intros fks Hg Hk Hincl Hlt.
    - exfalso. destruct Hg as [Hnd _]. pose proof (NoDup_incl_length Hnd Hincl). lia.
    - simpl. destruct (find_derived sch fks) as [g |] eqn:E; eauto.
      apply find_derived_spec in E as (f1 & f2 & H1 & H2 & Hbr & -> & Hnin & Hsimple).
      pose proof (derived_good sch fks f1 f2 Hs Hg Hk H1 H2 Hbr Hsimple) as Hgood.
      apply IH.
      + destruct Hg as [Hnd Hg]. split.
        * apply NoDup_app_intro; auto; [repeat constructor; simpl; tauto |].
          intros x Hx [<- | []]. contradiction.
        * intros f Hf. apply in_app_iff in Hf as [Hf | [<- | []]]; auto.
      + intros f fts Hf Hin. apply in_app_iff in Hf as [Hf | [<- | []]]; eauto.
      + intros f Hf. apply in_app_iff in Hf as [Hf | [<- | []]]; auto.
        apply in_app_iff. right. destruct Hg as [_ Hg]. destruct (Hg _ H1), (Hg _ H2).
        now apply derived_universe.
      + rewrite (app_length fks). simpl. lia. }
  apply Hgen; auto.
  - intros f Hf. apply in_app_iff. auto.
  - lia.
Qed.

(** Nothing derivable is left out. *)
Theorem implied_closed : forall n sch fks fks', add_implied n sch fks = Some fks' ->
  forall f1 f2, In f1 fks' -> In f2 fks' -> fk_native f2 = fk_foreign f1 ->
    simple_fk sch (derive f1 f2) = true -> In (derive f1 f2) fks'.
Proof.
  induction n as [| n IH]; intros sch fks fks' H f1 f2 H1 H2 Hbr Hsimple; [discriminate |]. simpl in H.
  destruct (find_derived sch fks) as [g |] eqn:E; [eapply IH; eauto |]. injection H as <-.
  unfold find_derived in E.
  destruct (filter _ (candidates fks)) as [| g l] eqn:Ef; [| discriminate].
  destruct (existsb (fk_eqb (derive f1 f2)) fks) eqn:Ex.
  - apply existsb_exists in Ex as (x & Hx & Ex). apply fk_eqb_eq in Ex. now subst.
  - exfalso. assert (In (derive f1 f2) []) as []. rewrite <- Ef. apply filter_In. split.
    + unfold candidates. apply in_flat_map. exists f1. split; auto. apply in_flat_map. exists f2. split; auto.
      rewrite Hbr, String.eqb_refl. now left.
    + now rewrite Ex, Hsimple.
Qed.

(** ** Shared foreign fields (C11): what is really enforced *)

(** The mapping with only the last native field kept for each foreign field. *)
Definition effective (f : fk) : fk :=
  mkFk (fk_native f) (fk_foreign f) (map (fun fn => (snd fn, fst fn)) (foreign_to_native (fk_map f))).

Lemma f2n_NoDup : forall m, NoDup (map fst (foreign_to_native m)).
Proof.
  intros m. apply (keys_distinct_NoDup String.eqb String.eqb_eq). unfold foreign_to_native, dict_of.
  apply keys_distinct_dupdate. exact I.
Qed.

Lemma last_bind_In : forall (l : list (string * string)) k v,
  last_bind String.eqb l k = Some v -> In (k, v) l.
Proof.
  induction l as [| [k0 v0] l IH]; simpl; intros k v H; [discriminate |].
  destruct (last_bind String.eqb l k) eqn:E.
  - injection H as ->. right. now apply IH.
  - destruct (String.eqb k0 k) eqn:E2; [| discriminate]. injection H as ->.
    apply String.eqb_eq in E2. subst. now left.
Qed.

Lemma f2n_incl : forall m ff nf, In (ff, nf) (foreign_to_native m) -> In (nf, ff) m.
Proof.
  intros m ff nf H.
  assert (dget String.eqb (foreign_to_native m) ff = Some nf) as E
    by (apply dget_In_NoDup; [apply f2n_NoDup | exact H]).
  unfold foreign_to_native, dict_of in E.
  rewrite (dget_dupdate String.eqb String.eqb_refl String.eqb_sym string_eqb_trans) in E.
  destruct (last_bind String.eqb _ ff) eqn:El; [| discriminate]. injection E as ->.
  apply last_bind_In in El. apply in_map_iff in El as ([a b] & E & Hin). simpl in E.
  injection E as -> ->. exact Hin.
Qed.

Lemma f2n_has : forall m nf ff, In (nf, ff) m -> exists nf', In (ff, nf') (foreign_to_native m).
Proof.
  intros m nf ff H. unfold foreign_to_native.
  destruct (dget String.eqb (dict_of String.eqb (map (fun nf => (snd nf, fst nf)) m)) ff) as [v |] eqn:E.
  - apply dget_In in E as (k & Ek & Hin). apply String.eqb_eq in Ek. subst. eauto.
  - exfalso. unfold dict_of in E.
    rewrite (dget_dupdate String.eqb String.eqb_refl String.eqb_sym string_eqb_trans) in E.
    simpl in E. induction m as [| [n0 f0] m IH]; [destruct H |]. simpl in E.
    destruct (last_bind String.eqb (map (fun nf => (snd nf, fst nf)) m) ff) eqn:El; [discriminate |].
    destruct H as [H | H]; [| now apply IH]. injection H as -> ->. now rewrite String.eqb_refl in E.
Qed.

Lemma effective_f2n : forall f, foreign_to_native (fk_map (effective f)) = foreign_to_native (fk_map f).
Proof.
  intros f. rewrite f2n_distinct.
  - simpl. rewrite map_map. simpl. induction (foreign_to_native (fk_map f)) as [| [a b] l IH]; simpl; f_equal; auto.
  - simpl. rewrite map_map. simpl. apply f2n_NoDup.
Qed.

Lemma effective_good : forall sch f, wf_fk sch f -> wf_fk sch (effective f) /\ distinct_foreign (effective f).
Proof.
  intros sch f (nts & fts & Hn & Hf & Hne & Hflds & Hnd). split.
  - exists nts, fts. split; auto. split; auto. split; [| split].
    + simpl. intros E. destruct (fk_map f) as [| [nf ff] m] eqn:Em; [congruence |].
      destruct (f2n_has ((nf, ff) :: m) nf ff (or_introl eq_refl)) as (x & Hx).
      apply map_eq_nil in E. rewrite E in Hx. destruct Hx.
    + intros nf ff Hin. simpl in Hin. apply in_map_iff in Hin as ([a b] & E & Hin). simpl in E.
      injection E as -> ->. apply f2n_incl in Hin. now apply Hflds.
    + simpl. rewrite map_map. simpl. pose proof (f2n_NoDup (fk_map f)) as Hk.
      pose proof (f2n_incl (fk_map f)) as Hincl. revert Hk Hincl.
      induction (foreign_to_native (fk_map f)) as [| [a b] l IH]; simpl; intros Hk Hincl; constructor.
      * intros Hin. apply in_map_iff in Hin as ([a' b'] & E & Hin). simpl in E. subst b'.
        inversion Hk as [| ? ? Ha _]; subst. apply Ha.
        assert (In (b, a) (fk_map f)) as I1 by (apply Hincl; now left).
        assert (In (b, a') (fk_map f)) as I2 by (apply Hincl; now right).
        pose proof (NoDup_map_inj_in fst _ _ _ Hnd I1 I2 eq_refl) as E. injection E as ->.
        apply in_map_iff. exists (a', b). auto.
      * inversion Hk; subst. apply IH; auto.
  - unfold distinct_foreign. simpl. rewrite map_map. simpl. apply f2n_NoDup.
Qed.

Lemma effective_fails : forall sch d f k r, fk_fails sch d (effective f) k r = fk_fails sch d f k r.
Proof.
  intros sch d f k r. unfold fk_fails, ffs_of, look_up. now rewrite effective_f2n.
Qed.

Theorem shared_foreign_exact : forall sch fks d rep,
  wf_schema sch -> wf_dat sch d -> NoDup fks -> (forall f, In f fks -> wf_fk sch f) ->
  find_foreign_key_failures sch fks d PInf = Some rep ->
  forall f rid, fk_reports_row rep f rid <-> In f fks /\ orphan sch d (effective f) rid.
Proof.
  intros sch fks d rep Hs Hd Hnd Hfks H f rid. rewrite find_fks_all in H. injection H as <-.
  pose proof (fk_events_NoDup sch fks d Hd Hfks Hnd) as Hev.
  assert (fk_reports_row (freport_of (fk_events sch fks d)) f rid <->
          exists e, In e (fk_events sch fks d) /\ fe_fk e = f /\ fe_row e = rid) as Hr
    by (apply (greport_of_rows fk_eqb fk_eqb_eq); auto).
  rewrite Hr. clear Hr. split.
  - intros (e & He & <- & <-). apply fk_events_In in He as (k & r & Hf & Hrow & Hb & _). split; auto.
    exists k, r. split; auto. intros Hm. destruct (effective_good sch _ (Hfks _ Hf)) as [Hw Hdf].
    apply (fk_fails_iff sch d _ (fe_row e)) in Hm; auto. rewrite effective_fails in Hm. congruence.
  - intros [Hf (k & r & Hrow & Hm)]. simpl in Hrow. destruct (effective_good sch _ (Hfks _ Hf)) as [Hw Hdf].
    exists (mkFe f rid (native_values sch f k r)). split; auto. apply fk_events_In. exists k, r. simpl.
    repeat split; auto. destruct (fk_fails sch d f k r) eqn:E; auto. rewrite <- effective_fails in E.
    apply (fk_fails_iff sch d _ rid) in E; auto.
Qed.
