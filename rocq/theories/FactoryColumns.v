(** * Adding, removing and renaming columns: the theorems behind C21. *)
From Coq Require Import ZArith Bool List String Ascii Arith Lia Permutation.
From Verif Require Import PyVal PyValFacts PyDict PyDictFacts PyStr ListFacts TypeDict TypeDictFacts Data
  FindTypes FindTypesFacts FK FKFacts ImpliedFacts WfCheck GraphFacts Factory FactoryFacts FactoryMore FactoryClone
  FactoryEdit.
Import ListNotations.
Local Open Scope string_scope.
Local Open Scope list_scope.

(** Every field in [d] is one in [d'], tables with fields stay so. *)
Definition extends (d d' : list (string * tdecl)) : Prop :=
  (forall t x, field_of d t x -> field_of d' t x) /\
  (forall t, (exists ts, decl_of d t = Some (Fields ts)) -> exists ts, decl_of d' t = Some (Fields ts)) /\
  (forall t, decl_of d t <> None -> decl_of d' t <> None).

Lemma insert_at_split {A} : forall i (x : A) l, (i <= List.length l)%nat ->
  insert_at i x l = firstn i l ++ x :: skipn i l.
Proof.
  induction i as [| i IH]; intros x [| y l] H; simpl in *; auto. rewrite IH by lia. reflexivity.
Qed.

Lemma insert_at_perm {A} : forall i (x : A) l, (i <= List.length l)%nat -> Permutation (x :: l) (insert_at i x l).
Proof.
  intros i x l H. rewrite insert_at_split by auto. rewrite <- (firstn_skipn i l) at 1. apply Permutation_middle.
Qed.

Lemma decl_ok_parts : forall d, decl_ok d = true <->
  forallb (fun t => negb (starts_with_char "_" t)) (map fst d) = true /\
  forallb (fun t => negb (has_char " " t)) (map fst d) = true /\
  NoDup (map lower (map fst d)) /\ forall t td, In (t, td) d -> decl_table_ok td = true.
Proof.
  intros d. unfold decl_ok. rewrite !andb_true_iff, distinct_b_iff, map_map.
  rewrite !forallb_forall. split.
  - intros [[[H1 H2] H3] H4]. split; [| split; [| split; auto]].
    + intros t Ht. apply in_map_iff in Ht as (td & <- & Ht). auto.
    + intros t Ht. apply in_map_iff in Ht as (td & <- & Ht). auto.
    + intros t td Hin. apply (H4 _ Hin).
  - intros (H1 & H2 & H3 & H4). split; [split; [split |] |]; auto.
    + intros td Ht. apply H1. now apply in_map.
    + intros td Ht. apply H2. now apply in_map.
    + intros [t td] Hin. eauto.
Qed.

Lemma decl_table_ok_iff : forall ts, decl_table_ok (Fields ts) = true <->
  tpk ts ++ tdf ts <> [] /\ NoDup (map lower (tpk ts ++ tdf ts)).
Proof.
  intros ts. unfold decl_table_ok. rewrite !andb_true_iff, !distinct_b_iff, negb_true_iff, Nat.eqb_neq. split.
  - intros [[H1 H2] H3]. split; auto. intros E. rewrite E in H1. now apply H1.
  - intros [H1 H2]. split; [split |]; auto.
    + intros E. apply H1. now apply length_zero_iff_nil.
    + now apply NoDup_map_inv' in H2.
Qed.

Section Columns.
  Variable parses : value -> bool.
  Notation good_schema := (good_schema parses).
  Notation inv := (inv parses).

  Lemma edit_ok : forall f tables edit s', inv f -> preds_off_gens f ->
    edit (schema_in_order f tables) = Some s' -> good_schema s' -> s_params s' = f_params f ->
    s_flag s' = f_flag f /\ s_xlsx s' = f_xlsx f /\ s_dup s' = f_dup f /\ s_auto s' = f_auto f ->
    good_gens (s_tables s') (f_gens f) ->
    (forall t ts, decl_of (f_decl f) t = Some (Fields ts) -> exists ts', decl_of (s_tables s') t = Some (Fields ts')) ->
    exists g, clone_with parses f tables None edit = Some g /\ reachable parses g /\
      f_decl g = s_tables s' /\ f_fks g = s_fks s' /\
      (forall t x, shown_default g t x = match dget2 (s_defaults s') t x with
                                         | Some v => Some v
                                         | None => dget2 (zero_defaults (s_tables s')) t x end) /\
      (forall t x, shown_type g t x = dget2 (s_types s') t x) /\
      (forall t x, shown_tip g t x = dget2 (s_tips s') t x) /\ same_rest f g /\ f_used g = false.
  Proof.
    intros f tables edit s' Hf Hoff He Hg Hpa (F1 & F2 & F3 & F4) Hgens Hpl.
    destruct (create_ok parses _ Hg) as (g & Hc & Hreach & Gd & Gf & Gp & Gdv & Gty & Gti & G1 & G2 & G3 & G4 & Gpr & Gg & Gl & Gu).
    destruct (finish_ok parses f g None Hf Gu Gpr) as (h & Hx & (Hd' & Hdv' & Hty' & Hpa' & Hti' & Hfk' & Hu' & Hse') & Hge & Hli & Hpd).
    { now rewrite Gd. }
    { exact Hoff. }
    { intros t n _ Hp. rewrite Gd. unfold shown_pred, dget_or in Hp.
      destruct (dget String.eqb (f_preds f) t) as [l |] eqn:E; [| now cbn in Hp].
      destruct (inv_preds _ _ Hf) as [P1 P2]. apply dget_In_NoDup in E; auto. apply P2 in E as [(ts & E) _]. eauto. }
    exists h. split.
    { unfold clone_with. unfold restrict. rewrite He, Hc. exact Hx. }
    split; [eapply reachable_exec; eauto |].
    split; [congruence |]. split; [congruence |].
    split; [intros t x; unfold shown_default; rewrite Hdv'; apply Gdv |].
    split; [intros t x; unfold shown_type; rewrite Hty'; apply Gty |].
    split; [intros t x; unfold shown_tip; rewrite Hti'; apply Gti |].
    split; auto. destruct Hse' as (A & B & C & D).
    split; [congruence |]. split; [exact Hpd |]. split; [exact Hge |].
    split; [rewrite Hli, Gl; reflexivity |]. repeat split; congruence.
  Qed.

  (** The identity restriction: all tables, nothing removed. *)
  Lemma restricted_all_get {V} : forall f (d : list (string * list (string * V))) rm t x,
    (forall t x v, dget2 d t x = Some v -> decl_of (f_decl f) t <> None) ->
    dget2 (strip_nested (map fst (f_decl f)) rm d) t x = if mem_tf (t, x) rm then None else dget2 d t x.
  Proof.
    intros f d rm t x H. rewrite strip_nested_get. destruct (mem_tf (t, x) rm); simpl.
    - now rewrite andb_false_r.
    - rewrite andb_true_r. destruct (mem_str t (map fst (f_decl f))) eqn:E; auto.
      destruct (dget2 d t x) eqn:Ed; auto. apply H in Ed. exfalso. apply mem_str_false in E. apply E.
      unfold decl_of in Ed. destruct (dget String.eqb (f_decl f) t) as [td |] eqn:Et; [| congruence].
      apply dget_In in Et as (t' & E' & Hin). apply String.eqb_eq in E'. subst. apply in_map_iff. exists (t, td). auto.
  Qed.

  Lemma decl_of_mem : forall d t, mem_str t (map fst d) = true <-> decl_of d t <> None.
  Proof.
    intros d t. rewrite mem_str_iff. unfold decl_of. split.
    - intros H E. apply in_map_iff in H as ([t' td] & <- & H). simpl in *.
      assert (String.eqb t' t' = false) as Hc by (eapply dget_None in E; eauto). now rewrite String.eqb_refl in Hc.
    - destruct (dget String.eqb d t) as [td |] eqn:E; [| congruence]. intros _.
      apply dget_In in E as (t' & E' & Hin). apply String.eqb_eq in E'. subst. apply in_map_iff. exists (t, td). auto.
  Qed.

  Lemma restrict_all_decl : forall f rm t tables, same_lookups (f_decl f) tables ->
    decl_of (restrict_tables (map fst (f_decl f)) rm tables) t = option_map (strip_decl t rm) (decl_of (f_decl f) t).
  Proof.
    intros f rm t tables Hl. rewrite restrict_decl_of, Hl. destruct (mem_str t (map fst (f_decl f))) eqn:E; auto.
    destruct (decl_of (f_decl f) t) eqn:Ed; auto.
    assert (mem_str t (map fst (f_decl f)) = true); [| congruence]. apply decl_of_mem. congruence.
  Qed.

  Lemma restrict_all_eq : forall f tables rm, inv f -> no_generic f -> Permutation (f_decl f) tables ->
    (exists t, in_tables f t) ->
    (forall t x, In (t, x) match rm with Some l => l | None => [] end -> field_of (f_decl f) t x) ->
    restrict (schema_in_order f tables) (Some (map fst (f_decl f))) rm =
    Some (restricted (map fst (f_decl f)) match rm with Some l => l | None => [] end (schema_in_order f tables)).
  Proof.
    intros f tables rm Hf Hng Hp (t0 & Ht0) Hrm.
    pose proof (decl_ok_nodup _ (inv_decl _ _ Hf)) as Hnd.
    assert (same_lookups (f_decl f) tables) as Hl by (intros t; now apply decl_of_perm).
    apply restrict_eq.
    - cbn. intros E. subst tables. unfold in_tables in Ht0. rewrite <- Hl in Ht0. now apply Ht0.
    - intros E. assert (f_decl f = []) as E' by (destruct (f_decl f); [auto | discriminate]).
      unfold in_tables in Ht0. rewrite E' in Ht0. now apply Ht0.
    - intros t Ht. cbn. rewrite Hl. apply decl_of_mem. now apply mem_str_iff.
    - now apply all_plain_ok.
    - intros t x Hin. apply Hrm in Hin as (ts & A & B). exists ts. split; auto. cbn. now rewrite Hl.
  Qed.

  (** *** Removing a column *)
  Theorem remove_ok : forall f tables t x ts, inv f -> clonable f -> no_generic f ->
    Permutation (f_decl f) tables -> decl_of (f_decl f) t = Some (Fields ts) -> In x (tpk ts ++ tdf ts) ->
    (exists z, In z (tpk ts ++ tdf ts) /\ z <> x) -> (t = "parameters" -> f_params f = []) ->
    exists g, clone_remove_column parses f tables t x = Some g /\ reachable parses g /\ f_used g = false /\
      decl_of (f_decl g) t = Some (Fields (mkT (remove string_dec x (tpk ts)) (remove string_dec x (tdf ts)))) /\
      (forall t', t' <> t -> decl_of (f_decl g) t' = decl_of (f_decl f) t') /\
      (forall t' x', (t', x') <> (t, x) -> shown_default g t' x' = shown_default f t' x' /\
         shown_type g t' x' = shown_type f t' x' /\ shown_tip g t' x' = shown_tip f t' x') /\
      shown_default g t x = None /\ shown_type g t x = None /\ shown_tip g t x = None /\
      (forall k, In k (f_fks g) <-> In k (f_fks f) /\ ~ fk_uses k t x) /\ same_rest f g.
  Proof.
    intros f tables t x ts Hf (Hsp & Hme & Hoff) Hng Hperm Ht Hx (z & Hz & Hzx) Hpar.
    pose proof (inv_decl _ _ Hf) as Hdok. pose proof (decl_ok_nodup _ Hdok) as Hnd.
    assert (same_lookups (f_decl f) tables) as Hl by (intros t'; now apply decl_of_perm).
    pose proof (schema_good parses f tables Hf Hsp Hme Hperm) as Hgood.
    set (K := map fst (f_decl f)).
    assert (field_of (f_decl f) t x) as Hfx by (exists ts; auto).
    assert (forall l, strip_fields t [(t, x)] l = remove string_dec x l) as Hstrip.
    { induction l as [| y l IH]; simpl; auto. unfold mem_tf, tf_eqb. cbn. rewrite String.eqb_refl, orb_false_r. cbn [andb].
      destruct (string_dec x y) as [-> | Hne].
      - rewrite String.eqb_refl. simpl. apply IH.
      - assert (String.eqb y x = false) as -> by (apply String.eqb_neq; congruence). simpl. f_equal. apply IH. }
    assert (forall t' td, t' <> t -> strip_decl t' [(t, x)] td = td) as Hother.
    { intros t' td Hne. assert (forall l, strip_fields t' [(t, x)] l = l) as Hs.
      { induction l as [| y l IH]; simpl; auto. unfold mem_tf, tf_eqb. cbn.
        assert (String.eqb t' t = false) as -> by (now apply String.eqb_neq). simpl. f_equal. apply IH. }
      destruct td as [| [pk df]]; simpl; auto. now rewrite !Hs. }
    set (s' := restricted K [(t, x)] (schema_in_order f tables)).
    assert (good_schema s') as Hgs.
    { apply restricted_good; auto.
      - intros t' ts' _ Hts'. cbn in Hts'. rewrite Hl in Hts'. destruct (string_dec t' t) as [-> | Hne].
        + rewrite Ht in Hts'. injection Hts' as <-. exists z. split; auto. intros [E | []]. congruence.
        + destruct (decl_ok_fields _ _ _ Hdok Hts') as [_ Hn]. destruct (tpk ts' ++ tdf ts') as [| w l]; [congruence |].
          exists w. split; [now left |]. intros [E | []]. congruence.
      - cbn. intros Hne y [E | []]. apply Hne. apply Hpar. congruence. }
    assert (forall t', decl_of (s_tables s') t' = option_map (strip_decl t' [(t, x)]) (decl_of (f_decl f) t')) as Hdec
      by (intros t'; now apply restrict_all_decl).
    assert (decl_of (s_tables s') t = Some (Fields (mkT (remove string_dec x (tpk ts)) (remove string_dec x (tdf ts))))) as Hdt.
    { rewrite Hdec, Ht. simpl. now rewrite !Hstrip. }
    assert (forall t', t' <> t -> decl_of (s_tables s') t' = decl_of (f_decl f) t') as Hdo.
    { intros t' Hne. rewrite Hdec. apply option_map_id. intros a. now apply Hother. }
    destruct (edit_ok f tables (fun s => restrict s (Some K) (Some [(t, x)])) s' Hf Hoff)
      as (g & Hc & Hreach & Gd & Gf & Gdv & Gty & Gti & Gr & Gu); auto.
    - unfold s'. apply (restrict_all_eq f tables (Some [(t, x)])); auto.
      + exists t. unfold in_tables. congruence.
      + intros t' x' [E | []]. injection E as <- <-. exact Hfx.
    - cbn. destruct (mem_str "parameters" K) eqn:E; auto.
      destruct (f_params f) as [| p l] eqn:Ep; auto. exfalso.
      destruct (inv_params _ _ Hf) as (_ & Hh & _). destruct Hh as (q & y & Hq & _); [rewrite Ep; discriminate |].
      assert (mem_str "parameters" K = true); [apply decl_of_mem; congruence | congruence].
    - intros t' Hg'. destruct (inv_gens _ _ Hf t' Hg') as (ts' & A & B). rewrite Hdec, A. simpl.
      eexists. split; [reflexivity |]. cbn. rewrite B. reflexivity.
    - intros t' ts' Hts'. rewrite Hdec, Hts'. simpl. eauto.
    - exists g. split.
      { unfold clone_remove_column. apply has_field_iff in Hfx. rewrite Hfx. exact Hc. }
      assert (forall t' x', dget2 (zero_defaults (s_tables s')) t' x' =
                if tf_eqb (t', x') (t, x) then None else dget2 (zero_defaults (f_decl f)) t' x') as Hz0.
      { intros t' x'. pose proof (gs_decl _ _ Hgs) as Hok'.
        assert (data_field_of (s_tables s') t' x' <-> data_field_of (f_decl f) t' x' /\ (t', x') <> (t, x)) as Hiff.
        { unfold s'. cbn [s_tables restricted]. rewrite restrict_data_field_of. cbn [s_tables schema_in_order].
          assert (data_field_of tables t' x' <-> data_field_of (f_decl f) t' x') as ->
            by (unfold data_field_of; rewrite Hl; tauto).
          simpl. split.
          - intros (_ & A & B). split; [exact A |]. intros E. apply B. left. congruence.
          - intros [A B]. split; [| split; [exact A |]].
            + destruct A as (ts' & A & _). unfold K. apply mem_str_iff. apply decl_of_mem. congruence.
            + intros [E | []]. congruence. }
        destruct (data_field_dec (s_tables s') t' x') as [Hy | Hn].
        - rewrite (proj1 (zero_defaults_get _ t' x' Hok') Hy). apply Hiff in Hy as [A B].
          destruct (tf_eqb (t', x') (t, x)) eqn:E; [now apply tf_eqb_eq in E |].
          symmetry. now apply (zero_defaults_get _ t' x' Hdok).
        - rewrite (proj2 (zero_defaults_get _ t' x' Hok') Hn).
          destruct (tf_eqb (t', x') (t, x)) eqn:E; auto. symmetry. apply (zero_defaults_get _ t' x' Hdok).
          intros Hc'. apply Hn, Hiff. split; auto. intros E'. apply tf_eqb_eq in E'. congruence. }
      assert (forall t' x', mem_tf (t', x') [(t, x)] = tf_eqb (t', x') (t, x)) as Hm
        by (intros; unfold mem_tf; simpl; now rewrite orb_false_r).
      assert (forall t' x', shown_default g t' x' = if tf_eqb (t', x') (t, x) then None else shown_default f t' x') as Hdef.
      { intros t' x'. rewrite Gdv, Hz0. cbn [s_defaults s' restricted schema_in_order].
        unfold K; rewrite restricted_all_get, Hm.
        - destruct (tf_eqb (t', x') (t, x)); auto. apply (defaults_cover parses f t' x' Hf).
        - intros a b v Hv. apply (inv_defaults _ _ Hf) in Hv as [(tsa & A & _) _]. congruence. }
      assert (forall t' x', shown_type g t' x' = if tf_eqb (t', x') (t, x) then None else shown_type f t' x') as Hty.
      { intros t' x'. rewrite Gty. cbn [s_types s' restricted schema_in_order].
        unfold K; rewrite restricted_all_get, Hm; auto.
        intros a b v Hv. apply (inv_types _ _ Hf) in Hv as [(tsa & A & _) _]. congruence. }
      assert (forall t' x', shown_tip g t' x' = if tf_eqb (t', x') (t, x) then None else shown_tip f t' x') as Hti.
      { intros t' x'. rewrite Gti. cbn [s_tips s' restricted schema_in_order].
        pose proof (inv_tips _ _ Hf) as [Ht1 Ht2].
        unfold K; rewrite restricted_all_get, Hm.
        - rewrite friendly_tips_get by auto. reflexivity.
        - intros a b v Hv. rewrite friendly_tips_get in Hv by auto.
          apply dget_In in Hv as ([a' b'] & E & Hin). apply tf_eqb_eq in E. injection E as -> ->.
          now apply Ht2 in Hin as (A & _). }
      split; [auto |]. split; [auto |]. split; [now rewrite Gd |].
      split; [intros t' Hne; rewrite Gd; now apply Hdo |]. split.
      { intros t' x' Hne. rewrite Hdef, Hty, Hti.
        destruct (tf_eqb (t', x') (t, x)) eqn:E; [now apply tf_eqb_eq in E | auto]. }
      rewrite Hdef, Hty, Hti, tf_eqb_refl. split; [auto |]. split; [auto |]. split; [auto |]. split; [| exact Gr].
      intros k. rewrite Gf. cbn [s_fks s' restricted schema_in_order]. rewrite filter_In, keep_fk_iff. split.
      + intros (Hk & _ & _ & Hu). split; auto. intros (p & Hp & Hor). destruct (Hu _ Hp) as [U1 U2].
        destruct Hor as [[E1 E2] | [E1 E2]]; [apply U1 | apply U2]; left; congruence.
      + intros [Hk Hu]. destruct (inv_fks _ _ Hf) as [_ Hok]. destruct (Hok _ Hk) as ((nts & A) & (fts & B) & _).
        split; auto. unfold K. rewrite <- !mem_str_iff, !decl_of_mem. split; [congruence |]. split; [congruence |].
        intros p Hp. split; intros [E | []]; apply Hu; exists p; split; auto.
        * left. split; congruence.
        * right. split; congruence.
  Qed.

  (** *** Adding a column *)

  Definition with_field (key_field : bool) (i : nat) (x : string) (ts : tschema) : tschema :=
    if key_field then mkT (firstn i (tpk ts) ++ x :: skipn i (tpk ts)) (tdf ts)
    else mkT (tpk ts) (firstn i (tdf ts) ++ x :: skipn i (tdf ts)).

  Lemma with_field_perm : forall kf i x ts,
    Permutation (x :: tpk ts ++ tdf ts) (tpk (with_field kf i x ts) ++ tdf (with_field kf i x ts)).
  Proof.
    intros [] i x [pk df]; cbn [with_field tpk tdf].
    - rewrite <- app_assoc. cbn [app]. rewrite <- (firstn_skipn i pk) at 1. rewrite <- app_assoc.
      apply Permutation_middle.
    - rewrite <- (firstn_skipn i df) at 1. rewrite !app_assoc. apply Permutation_middle.
  Qed.

  Lemma good_defaults_ext : forall d d' v, extends d d' -> good_defaults d v -> good_defaults d' v.
  Proof. intros d d' v (H & _) [H1 H2]. split; auto. intros t x w Hw. apply H2 in Hw as [A B]. auto. Qed.
  Lemma good_types_ext : forall d d' v, extends d d' -> good_types d v -> good_types d' v.
  Proof. intros d d' v (H & _) [H1 H2]. split; auto. intros t x w Hw. apply H2 in Hw as [A B]. auto. Qed.
  Lemma good_fks_ext : forall d d' l, extends d d' -> good_factory_fks d l -> good_factory_fks d' l.
  Proof.
    intros d d' l (H1 & H2 & H3) [A B]. split; auto. intros k Hk. destruct (B _ Hk) as (C & D & E & F).
    split; [auto | split; [auto | split; [auto |]]]. intros p Hp. destruct (F _ Hp). auto.
  Qed.
  Lemma tip_ok_ext : forall d d' t x s, extends d d' -> tip_ok d t x s -> tip_ok d' t x s.
  Proof. intros d d' t x s (H1 & H2 & H3) (A & B & C). split; [auto | split; auto]. destruct B; auto. Qed.

  Lemma NoDup_map_not_in {A B} (h : A -> B) : forall l x, ~ In (h x) (map h l) -> ~ In x l.
  Proof. intros l x H Hin. apply H. now apply in_map. Qed.

  Theorem add_ok : forall f tables t x (kf : bool) pos ts i, inv f -> clonable f -> no_generic f ->
    Permutation (f_decl f) tables -> decl_of (f_decl f) t = Some (Fields ts) ->
    ~ In (lower x) (map lower (tpk ts ++ tdf ts)) ->
    (i = match pos with Some i => i | None => List.length (if kf then tpk ts else tdf ts) end) ->
    (i <= List.length (if kf then tpk ts else tdf ts))%nat ->
    (kf = true -> ~ In t (f_gens f)) -> (t = "parameters" -> f_params f = []) ->
    exists g, clone_add_column parses f tables t x kf pos = Some g /\ reachable parses g /\ f_used g = false /\
      decl_of (f_decl g) t = Some (Fields (with_field kf i x ts)) /\
      (forall t', t' <> t -> decl_of (f_decl g) t' = decl_of (f_decl f) t') /\
      (forall t' x', (t', x') <> (t, x) -> shown_default g t' x' = shown_default f t' x') /\
      shown_default g t x = (if kf then None else Some (VNum (of_int 0))) /\
      (forall t' x', shown_type g t' x' = shown_type f t' x' /\ shown_tip g t' x' = shown_tip f t' x') /\
      (forall k, In k (f_fks g) <-> In k (f_fks f)) /\ same_rest f g.
  Proof.
    intros f tables t x kf pos ts i Hf (Hsp & Hme & Hoff) Hng Hperm Ht Hx Hi Hile Hkf Hpar.
    pose proof (inv_decl _ _ Hf) as Hdok. pose proof (decl_ok_nodup _ Hdok) as Hnd.
    assert (same_lookups (f_decl f) tables) as Hl by (intros t'; now apply decl_of_perm).
    pose proof (schema_good parses f tables Hf Hsp Hme Hperm) as Hgood.
    assert (~ In x (tpk ts ++ tdf ts)) as Hnx by (now apply NoDup_map_not_in in Hx).
    assert (forall td, td = Fields ts -> add_field kf i x td = Fields (with_field kf i x ts)) as Haf.
    { intros td ->. unfold add_field, with_field. destruct kf; now rewrite insert_at_split by auto. }
    set (K := map fst (f_decl f)).
    set (s := restricted K [] (schema_in_order f tables)).
    assert (forall t', decl_of (s_tables s) t' = decl_of (f_decl f) t') as Hsd.
    { intros t'. unfold s. cbn [s_tables restricted schema_in_order]. unfold K; rewrite restrict_all_decl by auto.
      apply option_map_id. intros a. apply strip_decl_nil. }
    assert (good_schema s) as Hgs.
    { apply restricted_good; auto. intros t' ts' _ Hts'. cbn in Hts'. rewrite Hl in Hts'.
      destruct (decl_ok_fields _ _ _ Hdok Hts') as [_ Hn]. destruct (tpk ts' ++ tdf ts') as [| w l]; [congruence |].
      exists w. split; [now left |]. intros []. }
    set (tabs := map (fun td => if String.eqb (fst td) t then (fst td, add_field kf i x (snd td)) else td) (s_tables s)).
    assert (tabs = map (fun td => (fst td, if String.eqb (fst td) t then add_field kf i x (snd td) else snd td)) (s_tables s)) as Htabs.
    { unfold tabs. apply map_ext. intros [t' td]. cbn [fst snd]. now destruct (String.eqb t' t). }
    assert (forall t', decl_of tabs t' = if string_dec t' t then Some (Fields (with_field kf i x ts)) else decl_of (f_decl f) t') as Hdec.
    { intros t'. unfold decl_of at 1. rewrite Htabs.
      rewrite (dget_map_snd (fun a td => if String.eqb a t then add_field kf i x td else td)).
      fold (decl_of (s_tables s) t'). rewrite Hsd. destruct (string_dec t' t) as [-> | Hne].
      - rewrite Ht, String.eqb_refl. cbn [option_map]. now rewrite Haf.
      - apply String.eqb_neq in Hne. rewrite Hne. now apply option_map_id. }
    assert (extends (s_tables s) tabs) as Hext.
    { split; [| split].
      - intros t' x' (ts' & A & B). rewrite Hsd in A. unfold field_of. rewrite Hdec.
        destruct (string_dec t' t) as [-> | Hne]; eauto. rewrite Ht in A. injection A as <-.
        eexists. split; [reflexivity |]. eapply Permutation_in; [apply with_field_perm |]. now right.
      - intros t' (ts' & A). rewrite Hsd in A. rewrite Hdec. destruct (string_dec t' t); eauto.
      - intros t' A. rewrite Hsd in A. rewrite Hdec. destruct (string_dec t' t); [discriminate | auto]. }
    assert (decl_table_ok (Fields (with_field kf i x ts)) = true) as Hwok.
    { apply decl_table_ok_iff. split.
      - intros E. pose proof (with_field_perm kf i x ts) as Hp. rewrite E in Hp.
        apply Permutation_sym, Permutation_nil in Hp. discriminate.
      - eapply Permutation_NoDup; [apply Permutation_map; apply with_field_perm |]. cbn [map].
        constructor; auto. apply decl_ok_parts in Hdok as (_ & _ & _ & Hto).
        apply decl_of_In in Ht; auto. apply Hto in Ht. now apply decl_table_ok_iff in Ht. }
    assert (decl_ok tabs = true) as Htok.
    { pose proof (gs_decl _ _ Hgs) as Hok. apply decl_ok_parts in Hok as (A & B & C & D). apply decl_ok_parts.
      assert (map fst tabs = map fst (s_tables s)) as Hm by (rewrite Htabs, map_map; reflexivity).
      rewrite Hm. split; [auto | split; [auto | split; [auto |]]].
      intros t' td Hin. rewrite Htabs in Hin. apply in_map_iff in Hin as ([t0 d0] & E & Hin). cbn [fst snd] in E.
      injection E as <- <-. destruct (String.eqb t0 t) eqn:Et; [| eauto].
      apply String.eqb_eq in Et. subst t0. apply decl_of_In in Hin; [| apply decl_ok_nodup; apply (gs_decl _ _ Hgs)].
      rewrite Hsd, Ht in Hin. injection Hin as <-. now rewrite Haf. }
    set (s' := mkS tabs (s_fks s) (s_defaults s) (s_types s) (s_params s) (s_flag s) (s_xlsx s) (s_dup s) (s_auto s) (s_tips s)).
    assert (s_params s = f_params f) as Hps.
    { unfold s. cbn [s_params restricted schema_in_order]. destruct (mem_str "parameters" K) eqn:E; auto.
      destruct (f_params f) as [| p l] eqn:Ep; auto. exfalso.
      destruct (inv_params _ _ Hf) as (_ & Hh & _). destruct Hh as (q & y & Hq & _); [rewrite Ep; discriminate |].
      assert (mem_str "parameters" K = true); [apply decl_of_mem; congruence | congruence]. }
    assert (good_schema s') as Hgs'.
    { pose proof Hgs as []. constructor; cbn [s_tables s_fks s_defaults s_types s_params s_flag s_xlsx s_dup s_auto s_tips s'];
        auto.
      - eapply good_defaults_ext; eauto.
      - eapply good_types_ext; eauto.
      - eapply good_fks_ext; eauto.
      - destruct gs_params as (A & B & C). split; [auto | split; auto]. intros Hne.
        destruct (B Hne) as (q & y & D & E). exists q, y. split; auto. rewrite Hdec.
        destruct (string_dec "parameters" t) as [<- | Hn]; [| now rewrite <- Hsd].
        exfalso. apply Hne. rewrite Hps. now apply Hpar.
      - destruct gs_tips as [A B]. split; auto. intros t' x' tip Htip. eapply tip_ok_ext; eauto. }
    destruct (edit_ok f tables (fun s => match restrict s (Some K) None with
            | None => None
            | Some s' => Some (mkS (map (fun td => if String.eqb (fst td) t then (fst td, add_field kf i x (snd td)) else td)
                             (s_tables s'))
                        (s_fks s') (s_defaults s') (s_types s') (s_params s') (s_flag s') (s_xlsx s') (s_dup s')
                        (s_auto s') (s_tips s')) end) s' Hf Hoff)
      as (g & Hc & Hreach & Gd & Gf & Gdv & Gty & Gti & Gr & Gu); auto.
    - unfold K. rewrite (restrict_all_eq f tables None); auto.
      + exists t. unfold in_tables. congruence.
      + intros t' x' [].
    - intros t' Hg'. destruct (inv_gens _ _ Hf t' Hg') as (ts' & A & B). cbn [s_tables s']. rewrite Hdec.
      destruct (string_dec t' t) as [-> | Hne]; eauto. rewrite Ht in A. injection A as <-.
      eexists. split; [reflexivity |]. destruct kf; [exfalso; now apply Hkf | exact B].
    - intros t' ts' Hts'. cbn [s_tables s']. rewrite Hdec. destruct (string_dec t' t); eauto.
    - exists g. split.
      { unfold clone_add_column. apply table_of_iff in Ht. rewrite Ht.
        assert (mem_str x (if kf then tpk ts else tdf ts) = false) as ->.
        { apply mem_str_false. intros Hin. apply Hnx. apply in_app_iff. destruct kf; auto. }
        rewrite <- Hi. apply Nat.leb_le in Hile. rewrite Hile. exact Hc. }
      assert (forall t' x', mem_tf (t', x') [] = false) as Hm by reflexivity.
      split; [auto |]. split; [auto |].
      split; [rewrite Gd; cbn [s_tables s']; rewrite Hdec; destruct (string_dec t t); congruence |].
      split; [intros t' Hne; rewrite Gd; cbn [s_tables s']; rewrite Hdec; destruct (string_dec t' t); congruence |].
      assert (forall t' x', dget2 (s_defaults s) t' x' = shown_default f t' x') as Hsdef.
      { intros t' x'. unfold s, K. cbn [s_defaults restricted schema_in_order]. rewrite restricted_all_get; [reflexivity |].
        intros a b v Hv. apply (inv_defaults _ _ Hf) in Hv as [(tsa & A & _) _]. congruence. }
      assert (shown_default f t x = None) as Hfd.
      { destruct (shown_default f t x) as [v |] eqn:E; auto. exfalso.
        apply (inv_defaults _ _ Hf) in E as [(ts' & A & B) _]. rewrite Ht in A. injection A as <-. contradiction. }
      split.
      { intros t' x' Hne. rewrite Gdv. cbn [s_defaults s_tables s']. rewrite Hsdef.
        rewrite <- (defaults_cover parses f t' x' Hf) at 2. destruct (shown_default f t' x'); auto.
        assert (data_field_of tabs t' x' <-> data_field_of (f_decl f) t' x') as Hiff.
        { unfold data_field_of. rewrite Hdec. destruct (string_dec t' t) as [-> | Hne']; [| tauto].
          split; intros (ts' & A & B).
          - injection A as <-. exists ts. split; auto. unfold with_field in B. destruct kf; cbn [tdf] in B; auto.
            rewrite in_app_iff in B. rewrite <- (firstn_skipn i (tdf ts)). rewrite in_app_iff.
            destruct B as [B | [B | B]]; auto. congruence.
          - rewrite Ht in A. injection A as <-. eexists. split; [reflexivity |].
            unfold with_field. destruct kf; cbn [tdf]; auto. rewrite in_app_iff.
            rewrite <- (firstn_skipn i (tdf ts)), in_app_iff in B. simpl. tauto. }
        destruct (data_field_dec (f_decl f) t' x') as [Hy | Hn].
        - rewrite (proj1 (zero_defaults_get _ t' x' Hdok) Hy). apply (zero_defaults_get _ t' x' Htok). tauto.
        - rewrite (proj2 (zero_defaults_get _ t' x' Hdok) Hn). apply (zero_defaults_get _ t' x' Htok). tauto. }
      split.
      { rewrite Gdv. cbn [s_defaults s_tables s']. rewrite Hsdef, Hfd. destruct kf.
        - apply (zero_defaults_get _ t x Htok). intros (ts' & A & B). rewrite Hdec in A.
          destruct (string_dec t t); [| congruence]. injection A as <-. cbn in B. apply Hnx. apply in_app_iff. auto.
        - apply (zero_defaults_get _ t x Htok). eexists. rewrite Hdec. destruct (string_dec t t); [| congruence].
          split; [reflexivity |]. cbn. apply in_app_iff. right. now left. }
      split.
      { intros t' x'. split.
        - rewrite Gty. unfold s', s, K. cbn [s_types restricted schema_in_order]. rewrite restricted_all_get; [reflexivity |].
          intros a b v Hv. apply (inv_types _ _ Hf) in Hv as [(tsa & A & _) _]. congruence.
        - pose proof (inv_tips _ _ Hf) as [Ht1 Ht2].
          rewrite Gti. unfold s', s, K. cbn [s_tips restricted schema_in_order]. rewrite restricted_all_get.
          + rewrite friendly_tips_get by auto. reflexivity.
          + intros a b v Hv. rewrite friendly_tips_get in Hv by auto.
            apply dget_In in Hv as ([a' b'] & E & Hin). apply tf_eqb_eq in E. injection E as -> ->.
            now apply Ht2 in Hin as (A & _). }
      split; [| exact Gr].
      intros k. rewrite Gf. unfold s', s. cbn [s_fks restricted schema_in_order]. rewrite filter_In, keep_fk_iff.
      split; [tauto |]. intros Hk. destruct (inv_fks _ _ Hf) as [_ Hok].
      destruct (Hok _ Hk) as ((nts & A) & (fts & B) & _). split; auto. unfold K.
      rewrite <- !mem_str_iff, !decl_of_mem. split; [congruence |]. split; [congruence |]. intros p _. split; intros [].
  Qed.
End Columns.
