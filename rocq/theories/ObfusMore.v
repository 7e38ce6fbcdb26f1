(** * obfusimplify: when it succeeds. *)
From Coq Require Import ZArith Bool List String Ascii Arith Lia Permutation.
From Verif Require Import PyVal PyValFacts PyDict PyDictFacts ListFacts PyStr Data FindTypes FindTypesFacts
  ReplaceFacts FK FKFacts RemoveFacts ImpliedFacts InfIO Ampl Obfus ObfusNames ObfusFacts ObfusCopy.
Import ListNotations.

(** Every column a foreign key points at refers to the entities its child
    column refers to. *)
Definition aligned (sch : schema) (fks : list fk) (ents : list string) : Prop :=
  forall g nf ff e, In g fks -> In (nf, ff) (fk_map g) ->
    refers sch fks ents (fk_native g) nf e -> refers sch fks ents (fk_foreign g) ff e.

Lemma implied_simple : forall n sch fks fks', (forall f, In f fks -> simple_fk sch f = true) ->
  add_implied n sch fks = Some fks' -> forall f, In f fks' -> simple_fk sch f = true.
Proof.
  induction n as [| n IH]; intros sch fks fks' Hs H; [discriminate |]. simpl in H.
  destruct (find_derived sch fks) as [g |] eqn:E; [| injection H as <-; auto].
  apply find_derived_spec in E as (f1 & f2 & _ & _ & _ & _ & _ & Hg). apply (IH sch (fks ++ [g])); auto.
  intros f Hf. apply in_app_or in Hf as [Hf | [<- | []]]; auto.
Qed.

Lemma Forall2_fwd {A B} (R : A -> B -> Prop) : forall l l' x, Forall2 R l l' -> In x l -> exists y, In y l' /\ R x y.
Proof.
  intros l l' x H Hin. induction H as [| a b l l' Hab H IH]; [destruct Hin |]. destruct Hin as [<- | Hin].
  - exists b. split; auto. now left.
  - destruct (IH Hin) as (y & H1 & H2). exists y. split; auto. now right.
Qed.

Lemma Forall2_bwd {A B} (R : A -> B -> Prop) : forall l l' y, Forall2 R l l' -> In y l' -> exists x, In x l /\ R x y.
Proof.
  intros l l' y H Hin. induction H as [| a b l l' Hab H IH]; [destruct Hin |]. destruct Hin as [<- | Hin].
  - exists a. split; auto. now left.
  - destruct (IH Hin) as (x & H1 & H2). exists x. split; auto. now right.
Qed.

Lemma cell_in_fun : forall ts k r f v w, wf_tschema ts -> cell_in ts k r f v -> cell_in ts k r f w -> v = w.
Proof.
  intros ts k r f v w Hw (i & A1 & A2) (j & B1 & B2). assert (i = j) as ->; [| congruence].
  apply (proj1 (NoDup_nth_error _) Hw); [now apply nth_error_Some_lt in A1 | unfold tfields; congruence].
Qed.

Lemma good_one_to_one : forall sch fks, good_fks sch fks -> forall g, In g fks -> one_to_one g.
Proof.
  intros sch fks [_ H] g Hin. destruct (H g Hin) as [(nts & fts & _ & _ & _ & _ & Hn) Hdf]. split; auto.
Qed.

Section Success.
  Variable sch : schema.
  Variable fks : list fk.
  Variable skip : list string.
  Variable d : dat.
  Variable rev : renaming.
  Variable ents : list string.
  Hypothesis Hs : wf_schema sch.
  Hypothesis Hd : wf_dat sch d.
  Hypothesis Hents : forall e, In e ents <-> renamed_table sch fks skip e.
  Hypothesis Hbij : bijective_renaming sch fks skip d rev.
  Hypothesis Hkd : keys_distinct tv_eqb (map fst rev).
  Hypothesis Hg : good_fks sch fks.
  Hypothesis Hsimple : forall f, In f fks -> simple_fk sch f = true.
  Hypothesis Hclosed : forall f1 f2, In f1 fks -> In f2 fks -> fk_native f2 = fk_foreign f1 ->
    simple_fk sch (derive f1 f2) = true -> In (derive f1 f2) fks.
  Hypothesis Hcons : RemoveFacts.consistent sch fks d.
  Hypothesis Hal : aligned sch fks ents.

  Lemma Hone : forall g, In g fks -> one_to_one g.
  Proof. exact (good_one_to_one sch fks Hg). Qed.

  Let cols := fk_columns fks ents.

  Lemma ent_schema : forall e, In e ents -> exists ts pkf, In (e, ts) sch /\ tpk ts = [pkf].
  Proof. intros e He. apply Hents in He as (_ & (ts & pkf & H) & _). eauto. Qed.

  (** A foreign key to an entity table maps one field to its key. *)
  Lemma to_entity : forall g ts pkf, In g fks -> In (fk_foreign g, ts) sch -> tpk ts = [pkf] ->
    exists nf, fk_map g = [(nf, pkf)].
  Proof.
    intros g ts pkf Hin Ht Hp. pose proof (Hsimple g Hin) as Hsg. rewrite (simple_fk_iff sch g ts) in Hsg by auto. rewrite Hp in Hsg.
    destruct Hg as [_ Hgg]. destruct (Hgg g Hin) as [_ Hdf]. unfold distinct_foreign in Hdf.
    destruct (fk_map g) as [| [nf ff] m]; simpl in *.
    - exfalso. apply (proj1 (Hsg pkf)). now left.
    - assert (ff = pkf) as -> by (destruct (proj2 (Hsg ff)); auto; contradiction).
      destruct m as [| [nf2 ff2] m]; [eauto |]. exfalso. simpl in *. inversion Hdf as [| x y Hn _]; subst. apply Hn.
      assert (ff2 = pkf) as -> by (destruct (proj2 (Hsg ff2)); auto; contradiction). now left.
  Qed.

  (** Parents' references are inherited: the foreign keys are closed. *)
  Lemma inherited : forall g nf ff e, In g fks -> In (nf, ff) (fk_map g) ->
    refers sch fks ents (fk_foreign g) ff e -> refers sch fks ents (fk_native g) nf e.
  Proof.
    intros g nf ff e Hin Hm (He & [(g2 & x & G1 & G2 & G3 & G4) | (E & ts & H1 & H2)]); split; auto; left.
    - destruct (ent_schema e He) as (ts & pkf & T1 & T2). destruct (to_entity g2 ts pkf) as (nf2 & E2); auto; [now rewrite G3 |].
      rewrite E2 in G4. destruct G4 as [G4 | []]. injection G4 as -> ->.
      destruct Hg as [_ Hgg]. destruct (Hgg g Hin) as [_ D1]. destruct (Hgg g2 G1) as [_ D2].
      assert (In (nf, x) (fk_map (derive g g2))) as Hd1.
      { apply derive_In; auto. exists ff. split; auto. rewrite E2. now left. }
      exists (derive g g2), x. split; [| simpl; auto].
      apply Hclosed; auto. apply (simple_fk_iff sch (derive g g2) ts Hs).
      + simpl. now rewrite G3.
      + intros p. rewrite T2. simpl. split.
        * intros [<- | []]. apply (in_map snd) in Hd1. exact Hd1.
        * intros Hp. apply in_map_iff in Hp as ([n1 p'] & E & Hp). simpl in E. subst p'.
          apply derive_In in Hp as (bf & _ & Hp); auto. rewrite E2 in Hp. destruct Hp as [Hp | []]. left. congruence.
    - exists g, ff. auto.
  Qed.

  Lemma refers_fun : forall t f e e', refers sch fks ents t f e -> refers sch fks ents t f e' -> e = e'.
  Proof.
    assert (forall t f e e', refers sch fks ents t f e ->
      (exists g ff, In g fks /\ fk_native g = t /\ fk_foreign g = e' /\ In (f, ff) (fk_map g)) -> In e' ents -> e = e') as Hhalf.
    { intros t f e e' He (g & ff & G1 & <- & G3 & G4) He'.
      pose proof (Hal g f ff e G1 G4 He) as Hr. rewrite G3 in Hr.
      destruct Hr as (_ & [(g2 & x & K1 & K2 & K3 & K4) | (E & _)]); auto.
      exfalso. destruct He as (Hee & _). destruct (ent_schema e Hee) as (ts & pkf & T1 & T2).
      destruct (ent_schema e' He') as (ts' & pkf' & T1' & T2').
      destruct (to_entity g ts' pkf') as (nf1 & E1); auto; [now rewrite G3 |].
      destruct (to_entity g2 ts pkf) as (nf2 & E2); auto; [now rewrite K3 |].
      rewrite E1 in G4. destruct G4 as [G4 | []]. injection G4 as -> ->.
      rewrite E2 in K4. destruct K4 as [K4 | []]. injection K4 as -> ->.
      apply Hents in He' as (_ & _ & Hno). apply Hno. exists g2. repeat split; auto.
      - unfold native_one. rewrite K2, (ts_of_In _ _ _ Hs T1'), E2. unfold half_one. rewrite T2'. simpl. now rewrite String.eqb_refl.
      - unfold foreign_one. rewrite K3, (ts_of_In _ _ _ Hs T1), E2. unfold half_one. rewrite T2. simpl. now rewrite String.eqb_refl. }
    intros t f e e' He He'. pose proof He' as (Hin' & [Hfk' | (<- & _)]).
    - now apply (Hhalf t f).
    - pose proof He as (Hin & [Hfk | (<- & _)]); auto. symmetry. now apply (Hhalf t f t e).
  Qed.

  Lemma match_of : forall g rid k r, In g fks -> row_in (d (fk_native g)) rid k r -> matched sch d g k r.
  Proof.
    intros g rid k r Hin Hrow. destruct Hg as [_ Hgg]. destruct (Hgg g Hin) as [Hw Hdf].
    destruct (matched_dec sch d g rid k r Hs Hd Hw Hdf Hrow); auto. exfalso. apply (Hcons g rid Hin). exists k, r. auto.
  Qed.

  Lemma fix_cell_total : forall t ts rid k r f v, In (t, ts) sch -> row_in (d t) rid k r -> cell_in ts k r f v ->
    exists v', fixc rev cols t ts f v = Ret v'.
  Proof.
    intros t ts rid k r f v Ht Hrow Hc. unfold fixc. pose proof (cols_spec fks ents t f Hone) as Hcs. fold cols in Hcs.
    destruct (dget tf_eqb cols (t, f)) as [e |].
    - destruct Hcs as (He & g & ff & G1 & G2 & G3 & G4). subst t.
      destruct (match_of g rid k r G1 Hrow) as (nts & fts & rid' & k' & r' & M1 & M2 & M3 & M4).
      assert (nts = ts) as -> by (rewrite <- (ts_of_In _ _ _ Hs M1); now apply ts_of_In).
      destruct (ent_schema e He) as (ts' & pkf & T1 & T2). rewrite G3 in *.
      assert (fts = ts') as -> by (rewrite <- (ts_of_In _ _ _ Hs M2); now apply ts_of_In).
      destruct (to_entity g ts' pkf) as (nf & E); auto; [now rewrite G3 |]. rewrite E in G4. destruct G4 as [G4 | []].
      injection G4 as -> ->.
      assert (List.length k' = 1) as Hk by (rewrite (row_in_key_length ts' (d e) rid' k' r'); auto; now rewrite T2).
      assert (exists w, cell_in ts' k' r' ff w) as (w & Hw).
      { apply (cell_in_exists ts' (d e) rid'); auto. rewrite T2. now left. }
      pose proof (M4 f ff v w ltac:(rewrite E; now left) Hc Hw) as Hvw.
      apply cell_key in Hw; auto; [| now apply (proj2 Hs) in T1]. subst k'.
      pose proof (look_key sch fks skip d rev ents Hents Hbij Hkd e rid' w r' He M3) as Hl.
      rewrite (dget_cong tv_eqb tv_sym tv_trans rev (e, v) (e, w)).
      2:{ unfold tv_eqb. simpl. now rewrite String.eqb_refl. }
      destruct (dget tv_eqb rev (e, w)); [eauto | congruence].
    - destruct (list_eqb String.eqb (tpk ts) [f]); eauto.
  Qed.

  Lemma Forall2_total {A B} (R : A -> B -> Prop) : forall l, (forall x, In x l -> exists y, R x y) -> exists l', Forall2 R l l'.
  Proof.
    induction l as [| x l IH]; intros H; [exists []; constructor |].
    destruct (H x (or_introl eq_refl)) as (y & Hy). destruct IH as (l' & Hl); [intros z Hz; apply H; now right |].
    exists (y :: l'). constructor; auto.
  Qed.

  Lemma fix_row_total : forall t ts rid k r, In (t, ts) sch -> row_in (d t) rid k r ->
    (exists k', fix_key rev cols t ts k = Ret k') /\ (exists r', fix_cells rev cols t (tdf ts) r = Ret r').
  Proof.
    intros t ts rid k r Ht Hrow. pose proof (proj2 Hs _ _ Ht) as Hw.
    assert (List.length k = List.length (tpk ts) /\ List.length r = List.length (tdf ts)) as [Lk Lr].
    { pose proof (Hd _ _ Ht) as Hwt. destruct (d t) as [l | l]; simpl in *.
      - destruct Hwt as (_ & _ & Hl). destruct Hrow as [Hrow _]. now apply Hl.
      - destruct Hwt as (Hp & Hl). destruct Hrow as (-> & i & Hi & _). rewrite Hp. apply nth_error_In in Hi. auto. }
    assert (forall f v, In (f, v) (combine (tpk ts ++ tdf ts) (k ++ r)) -> exists v', fixc rev cols t ts f v = Ret v') as Hc.
    { intros f v Hin. apply In_nth_error in Hin as (i & Hi). apply nth_error_combine_inv in Hi as [H1 H2].
      apply (fix_cell_total t ts rid k r); auto. exists i. auto. }
    rewrite combine_app_eq in Hc by auto. split.
    - destruct (Forall2_total (fun fv y => fixc rev cols t ts (fst fv) (snd fv) = Ret y) (combine (tpk ts) k)) as (k' & Hk').
      + intros [f v] Hin. apply Hc. apply in_or_app. now left.
      + exists k'. now apply fix_key_fixc.
    - destruct (Forall2_total (fun fv y => fixc rev cols t ts (fst fv) (snd fv) = Ret y) (combine (tdf ts) r)) as (r' & Hr').
      + intros [f v] Hin. apply Hc. apply in_or_app. now right.
      + exists r'. apply (fix_cells_fixc rev cols t ts); auto.
        intros f Hf E. apply (NoDup_app_disj _ _ f Hw); [rewrite E; now left | exact Hf].
  Qed.

  Lemma fix_tables_total : exists tbs, fix_tables rev cols sch d = Ret tbs.
  Proof.
    assert (forall s, incl s sch -> exists tbs, fix_tables rev cols s d = Ret tbs) as Hgen; [| apply Hgen, incl_refl].
    induction s as [| [t ts] s IH]; intros Hi; simpl; [eauto |].
    assert (In (t, ts) sch) as Ht by (apply Hi; now left).
    assert (exists tb, fix_table rev cols t ts (d t) = Ret tb) as (tb & ->).
    { unfold fix_table. destruct (d t) as [l | l] eqn:El.
      - unfold cols. rewrite (fix_keyed_eq fks rev ents).
        destruct (Forall2_total (fun kr y => fix_kr fks rev ents t ts kr = Ret y) l) as (prs & Hp).
        { intros [k r] Hin. destruct (fix_row_total t ts (RPk k) k r Ht) as [(k' & H1) (r' & H2)]; [rewrite El; simpl; auto |].
          exists (k', r'). apply fix_kr_iff. auto. }
        apply (all_ret_iff (fix_kr fks rev ents t ts)) in Hp. rewrite Hp. eauto.
      - destruct (Forall2_total (fun r y => fix_cells rev cols t (tdf ts) r = Ret y) l) as (l' & Hl').
        { intros r Hin. apply In_nth_error in Hin as (i & Hi'). destruct (fix_row_total t ts (RIdx i) [] r Ht) as [_ H2]; auto.
          rewrite El. simpl. eauto. }
        apply (all_ret_iff (fix_cells rev cols t (tdf ts))) in Hl'. rewrite Hl'. eauto. }
    destruct IH as (tbs & ->); [intros x Hx; apply Hi; now right |]. eauto.
  Qed.

  Lemma copy_consistent : forall tbs, fix_tables rev cols sch d = Ret tbs -> RemoveFacts.consistent sch fks (dat_of tbs).
  Proof.
    intros tbs Ht g rid' Hin (k' & r' & Hrow' & Hno).
    destruct (copy_spec sch fks skip d rev ents Hs Hd Hents Hbij Hkd Hone tbs Ht) as [Hwf Hrows].
    destruct Hg as [_ Hgg]. destruct (Hgg g Hin) as [(nts & fts & N1 & N2 & _ & Hfl & _) Hdf].
    apply rows_of_In in Hrow'. destruct (Forall2_bwd _ _ _ _ (Hrows _ _ N1) Hrow') as ([[rid k] r] & Hrow & Hcells).
    apply rows_of_In in Hrow. destruct (match_of g rid k r Hin Hrow) as (nts0 & fts0 & ridp & kp & rp & M1 & M2 & M3 & M4).
    assert (nts0 = nts) as -> by (rewrite <- (ts_of_In _ _ _ Hs M1); now apply ts_of_In).
    assert (fts0 = fts) as -> by (rewrite <- (ts_of_In _ _ _ Hs M2); now apply ts_of_In).
    pose proof M3 as M3'. apply rows_of_In in M3. destruct (Forall2_fwd _ _ _ _ (Hrows _ _ N2) M3) as ([[ridp' kp'] rp'] & Hrowp' & Hcellsp).
    apply rows_of_In in Hrowp'. apply Hno. exists nts, fts, ridp', kp', rp'. repeat split; auto.
    intros nf ff v' w' Hm Hv' Hw'. destruct (Hfl _ _ Hm) as [F1 F2].
    destruct (cell_in_exists nts _ _ _ _ _ (Hd _ _ N1) Hrow F1) as (v & Hv).
    destruct (cell_in_exists fts _ _ _ _ _ (Hd _ _ N2) M3' F2) as (w & Hw).
    pose proof (M4 nf ff v w Hm Hv Hw) as Hvw.
    destruct (Hcells nf v Hv) as (v1 & V1 & V2). simpl in V1.
    rewrite (cell_in_fun nts k' r' nf v1 v' (proj2 Hs _ _ N1) V1 Hv') in V2.
    destruct (Hcellsp ff w Hw) as (w1 & W1 & W2). simpl in W1.
    rewrite (cell_in_fun fts kp' rp' ff w1 w' (proj2 Hs _ _ N2) W1 Hw') in W2.
    destruct V2 as [(-> & Vn) | (e & n & v0 & Ve & Vi & -> & Vp)].
    - destruct W2 as [(-> & _) | (e & n & w0 & We & _)]; auto. exfalso. apply (Vn e). now apply (inherited g nf ff).
    - destruct W2 as [(-> & Wn) | (e2 & n2 & w0 & We & Wi & -> & Wp)].
      + exfalso. apply (Wn e). now apply (Hal g nf ff).
      + pose proof (Hal g nf ff e Hin Hm Ve) as Ve2. assert (e = e2) as <- by (now apply (refers_fun (fk_foreign g) ff)).
        unfold swapped in Vi, Wi. apply in_map_iff in Vi as ([a n'] & Ea & Vi). apply in_map_iff in Wi as ([b m'] & Eb & Wi).
        simpl in Ea, Eb. injection Ea as -> ->. injection Eb as -> ->.
        destruct Hbij as (Hb & _). rewrite (proj2 (Hb _ _ _ _ Vi Wi)); [apply pyeq_refl |].
        unfold tv_eqb. simpl. rewrite String.eqb_refl. simpl. apply (pyeq_trans v0 v w0); auto. apply (pyeq_trans v w w0); auto.
        now rewrite pyeq_sym.
  Qed.
End Success.

(** ** The whole function *)

Section Whole.
  Variable order : list string -> list string.
  Variable sorted : list value -> outcome (list value).
  Hypothesis order_perm : forall l, Permutation (order l) l.
  Hypothesis sorted_perm : forall l l', sorted l = Ret l' -> Permutation l l'.

  Lemma swapped_dict : forall rev, NoDup (map snd rev) -> dict_of text_eqb (swapped rev) = swapped rev.
  Proof.
    intros rev H. apply dict_of_distinct. unfold swapped. rewrite map_map. simpl.
    apply (keys_distinct_NoDup text_eqb text_eqb_eq). exact H.
  Qed.

  Lemma has_failures_iff : forall sch fks d, wf_schema sch -> wf_dat sch d -> good_fks sch fks ->
    (has_failures sch fks d = false <-> RemoveFacts.consistent sch fks d).
  Proof.
    intros sch fks d Hs Hd Hg. unfold has_failures. rewrite find_fks_all. rewrite <- (no_events_consistent sch fks d) by auto.
    destruct (freport_of (fk_events sch fks d)); split; intros H; auto; discriminate.
  Qed.

  Theorem obfus_renaming : forall sch fks0 fks user skip d copy ren,
    wf_schema sch -> wf_dat sch d -> NoDup (map fst user) ->
    obfusimplify order sorted sch fks0 fks user skip d = Ret (copy, ren) ->
    exists rev, ren = swapped rev /\ bijective_renaming sch fks skip d rev.
  Proof.
    intros sch fks0 fks user skip d copy ren Hs Hd Hu H. unfold obfusimplify in H.
    destruct (has_failures sch fks0 d); [discriminate |].
    destruct (prepends order sch fks user skip) as [pre |] eqn:Ep; [| discriminate].
    destruct (reverse_renamings sorted d pre []) as [rev |] eqn:Er; [| discriminate].
    destruct (fix_tables rev (fk_columns fks (map fst pre)) sch d) as [tbs |] eqn:Et; [| discriminate].
    cbv zeta in H. destruct (has_failures sch fks (dat_of tbs)); [discriminate |].
    destruct (negb _); [discriminate |]. injection H as <- <-.
    destruct (renaming_bijective order sorted order_perm sorted_perm sch fks user skip d pre rev Hs Hd Hu Ep Er) as [Hb _].
    exists rev. split; auto.
    change (map (fun kv : string * value * text => (snd kv, fst kv)) rev) with (swapped rev).
    apply swapped_dict, Hb.
  Qed.

  Theorem obfus_copy : forall sch fks0 fks user skip d copy ren,
    wf_schema sch -> wf_dat sch d -> NoDup (map fst user) -> (forall g, In g fks -> one_to_one g) ->
    obfusimplify order sorted sch fks0 fks user skip d = Ret (copy, ren) ->
    exists ents, (forall e, In e ents <-> renamed_table sch fks skip e) /\
    wf_dat sch copy /\
    forall t ts, In (t, ts) sch -> Forall2 (row_renamed sch fks ents ren t ts) (rows_of (d t)) (rows_of (copy t)).
  Proof.
    intros sch fks0 fks user skip d copy ren Hs Hd Hu Hone H. unfold obfusimplify in H.
    destruct (has_failures sch fks0 d); [discriminate |].
    destruct (prepends order sch fks user skip) as [pre |] eqn:Ep; [| discriminate].
    destruct (reverse_renamings sorted d pre []) as [rev |] eqn:Er; [| discriminate].
    destruct (fix_tables rev (fk_columns fks (map fst pre)) sch d) as [tbs |] eqn:Et; [| discriminate].
    cbv zeta in H. destruct (has_failures sch fks (dat_of tbs)); [discriminate |].
    destruct (negb _); [discriminate |]. injection H as <- <-.
    destruct (renaming_bijective order sorted order_perm sorted_perm sch fks user skip d pre rev Hs Hd Hu Ep Er) as [Hb Hkd].
    apply prepends_spec in Ep as (P1 & _); auto. exists (map fst pre). split; auto.
    change (map (fun kv : string * value * text => (snd kv, fst kv)) rev) with (swapped rev).
    rewrite swapped_dict by apply Hb.
    apply (copy_spec sch fks skip d rev (map fst pre) Hs Hd P1 Hb Hkd Hone tbs Et).
  Qed.

  Theorem obfus_succeeds : forall n sch fks0 fks user skip d pre,
    wf_schema sch -> wf_dat sch d -> NoDup (map fst user) ->
    good_fks sch fks0 -> keyed_parents sch fks0 -> add_implied n sch fks0 = Some fks ->
    (forall f, In f fks0 -> simple_fk sch f = true) ->
    find_foreign_key_failures sch fks0 d PInf = Some [] ->
    prepends order sch fks user skip = Ret pre ->
    (forall e, renamed_table sch fks skip e -> exists ks, sorted (entity_keys (d e)) = Ret ks) ->
    aligned sch fks (map fst pre) ->
    exists copy ren, obfusimplify order sorted sch fks0 fks user skip d = Ret (copy, ren).
  Proof.
    intros n sch fks0 fks user skip d pre Hs Hd Hu Hg0 Hk Hi Hsi Hf Hp Hsort Hal.
    destruct (implied_good n sch fks0 fks Hs Hg0 Hk Hi) as (Hg & _ & _ & Hc).
    unfold obfusimplify. unfold has_failures at 1. rewrite Hf. rewrite Hp.
    assert (RemoveFacts.consistent sch fks d) as Hcons.
    { apply Hc; auto. apply has_failures_iff; auto. unfold has_failures. now rewrite Hf. }
    assert (exists rev, reverse_renamings sorted d pre [] = Ret rev) as (rev & Er).
    { pose proof Hp as Hp'. apply prepends_spec in Hp' as (P1 & _); auto.
      assert (forall t, In t (map fst pre) -> exists ks, sorted (entity_keys (d t)) = Ret ks) as Hks by (intros t Ht; now apply Hsort, P1).
      clear - Hks. generalize (@nil ((string * value) * text)). induction pre as [| [t p] pre IH]; intros acc; simpl; eauto.
      destruct (Hks t) as (ks & ->); [now left |]. apply IH. intros t' Ht'. apply Hks. now right. }
    rewrite Er.
    destruct (renaming_bijective order sorted order_perm sorted_perm sch fks user skip d pre rev Hs Hd Hu Hp Er) as [Hb Hkd].
    pose proof Hp as Hp'. apply prepends_spec in Hp' as (P1 & _); auto.
    pose proof (implied_simple n sch fks0 fks Hsi Hi) as Hsi'.
    pose proof (implied_closed n sch fks0 fks Hi) as Hcl.
    destruct (fix_tables_total sch fks skip d rev (map fst pre) Hs Hd P1 Hb Hkd Hg Hsi' Hcons) as (tbs & Et).
    rewrite Et. cbv zeta.
    pose proof (copy_consistent sch fks skip d rev (map fst pre) Hs Hd P1 Hb Hkd Hg Hsi' Hcl Hcons Hal tbs Et) as Hcc.
    destruct (copy_spec sch fks skip d rev (map fst pre) Hs Hd P1 Hb Hkd (good_one_to_one sch fks Hg) tbs Et) as [Hwf _].
    rewrite (proj2 (has_failures_iff sch fks (dat_of tbs) Hs Hwf Hg) Hcc).
    change (map (fun kv : string * value * text => (snd kv, fst kv)) rev) with (swapped rev).
    rewrite swapped_dict by apply Hb. unfold swapped at 1. rewrite map_length, Nat.eqb_refl. simpl. eauto.
  Qed.
End Whole.
