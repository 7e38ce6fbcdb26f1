(** * New tables, change of kind, histories of PanDatFactory. *)
From Coq Require Import ZArith Bool List String Ascii Arith Lia Permutation.
From Verif Require Import PyVal PyValFacts PyDict PyDictFacts PyStr ListFacts TypeDict TypeDictFacts Data
  FindTypes FindTypesFacts FK FKFacts ImpliedFacts WfCheck GraphFacts Factory FactoryFacts FactoryMore FactoryClone
  FactoryEdit FactoryColumns FactoryRename FactoryHist FactoryWitness PanFac PanFacFacts PanFacMore.
Import ListNotations.
Local Open Scope string_scope.
Local Open Scope list_scope.

(** The constructor would take the table. *)
Definition table_welcome (f : factory) (t : string) (pk df : list string) : Prop :=
  starts_with_char "_" t = false /\ has_char " " t = false /\
  ~ In (lower t) (map lower (map fst (f_decl f))) /\ pk ++ df <> [] /\ NoDup (map lower (pk ++ df)).

Section Kinds.
  Variable parses : value -> bool.
  Notation pan_inv := (pan_inv parses).
  Notation inv := (inv parses).
  Notation good_schema := (good_schema parses).

  Theorem table_ok : forall f tables t pk df, inv f -> clonable f -> no_generic f -> (exists t0, in_tables f t0) ->
    Permutation (f_decl f) tables -> table_welcome f t pk df ->
    exists g, clone_add_table parses f tables t pk df = Some g /\ reachable parses g /\ f_used g = false /\
      decl_of (f_decl g) t = Some (Fields (mkT pk df)) /\
      (forall t', t' <> t -> decl_of (f_decl g) t' = decl_of (f_decl f) t') /\
      (forall t' x, t' <> t -> shown_default g t' x = shown_default f t' x) /\
      (forall x, shown_default g t x = if in_dec string_dec x df then Some (VNum (of_int 0)) else None) /\
      (forall t' x, shown_type g t' x = shown_type f t' x /\ shown_tip g t' x = shown_tip f t' x) /\
      (forall k, In k (f_fks g) <-> In k (f_fks f)) /\ same_rest f g.
  Proof.
    intros f tables t pk df Hf (Hsp & Hme & Hoff) Hng Hsome Hperm (Hu & Hsc & Hlow & Hnil & Hnodup).
    pose proof (inv_decl _ _ Hf) as Hdok. pose proof (decl_ok_nodup _ Hdok) as Hnd.
    assert (same_lookups (f_decl f) tables) as Hl by (intros t'; now apply decl_of_perm).
    pose proof (schema_good parses f tables Hf Hsp Hme Hperm) as Hgood.
    assert (decl_of (f_decl f) t = None) as Ht.
    { destruct (decl_of (f_decl f) t) eqn:E; auto. exfalso. apply Hlow. apply in_map. apply mem_str_iff.
      apply decl_of_mem. congruence. }
    set (K := map fst (f_decl f)).
    set (s := restricted K [] (schema_in_order f tables)).
    assert (forall t', decl_of (s_tables s) t' = decl_of (f_decl f) t') as Hsd.
    { intros t'. unfold s. cbn [s_tables restricted schema_in_order]. unfold K; rewrite restrict_all_decl by auto.
      apply option_map_id. intros a. apply strip_decl_nil. }
    assert (good_schema s) as Hgs.
    { apply restricted_good; auto. intros t' ts' _ Hts'. cbn in Hts'. rewrite Hl in Hts'.
      destruct (decl_ok_fields _ _ _ Hdok Hts') as [_ Hn]. destruct (tpk ts' ++ tdf ts') as [| w l]; [congruence |].
      exists w. split; [now left |]. intros []. }
    set (tabs := dset String.eqb (s_tables s) t (Fields (mkT pk df))).
    assert (forall t', decl_of tabs t' = if string_dec t' t then Some (Fields (mkT pk df)) else decl_of (f_decl f) t') as Hdec.
    { intros t'. unfold decl_of at 1, tabs. rewrite sget_dset. fold (decl_of (s_tables s) t'). rewrite Hsd.
      destruct (string_dec t' t) as [-> | Hne]; [now rewrite String.eqb_refl |].
      assert (String.eqb t t' = false) as -> by (apply String.eqb_neq; congruence). reflexivity. }
    assert (tabs = s_tables s ++ [(t, Fields (mkT pk df))]) as Htabs.
    { apply (dset_absent String.eqb). change (decl_of (s_tables s) t = None). now rewrite Hsd. }
    assert (extends (s_tables s) tabs) as Hext.
    { split; [| split].
      - intros t' x' (ts' & A & B). rewrite Hsd in A. unfold field_of. rewrite Hdec.
        destruct (string_dec t' t) as [-> | Hne]; [congruence | eauto].
      - intros t' (ts' & A). rewrite Hsd in A. rewrite Hdec. destruct (string_dec t' t); eauto.
      - intros t' A. rewrite Hsd in A. rewrite Hdec. destruct (string_dec t' t); [discriminate | auto]. }
    assert (decl_ok tabs = true) as Htok.
    { pose proof (gs_decl _ _ Hgs) as Hok. apply decl_ok_parts in Hok as (A & B & C & D). apply decl_ok_parts.
      rewrite Htabs, map_app, map_app, !forallb_app, A, B. cbn [map fst forallb]. rewrite Hu, Hsc.
      split; [reflexivity |]. split; [reflexivity |]. split.
      - apply NoDup_snoc_gen; auto. intros Hin. apply Hlow. apply in_map_iff in Hin as (t' & E & Hin). rewrite <- E.
        apply in_map. apply mem_str_iff. apply decl_of_mem. rewrite <- Hsd. apply decl_of_mem. now apply mem_str_iff.
      - intros t' td Hin. apply in_app_iff in Hin as [Hin | [E | []]]; [eauto |]. injection E as <- <-.
        apply decl_table_ok_iff. auto. }
    set (s' := with_table t pk df s).
    assert (s_params s = f_params f) as Hps.
    { unfold s. cbn [s_params restricted schema_in_order]. destruct (mem_str "parameters" K) eqn:E; auto.
      destruct (f_params f) as [| p l] eqn:Ep; auto. exfalso.
      destruct (inv_params _ _ Hf) as (_ & Hh & _). destruct Hh as (q & y & Hq & _); [rewrite Ep; discriminate |].
      assert (mem_str "parameters" K = true); [apply decl_of_mem; congruence | congruence]. }
    assert (good_schema s') as Hgs'.
    { pose proof Hgs as []. constructor; cbn [s_tables s_fks s_defaults s_types s_params s_flag s_xlsx s_dup s_auto s_tips s' with_table];
        fold tabs; auto.
      - eapply good_defaults_ext; eauto.
      - eapply good_types_ext; eauto.
      - eapply good_fks_ext; eauto.
      - destruct gs_params as (A & B & C). split; [auto | split; auto]. intros Hne.
        destruct (B Hne) as (q & y & D & E). exists q, y. split; auto. rewrite Hdec. rewrite Hsd in D.
        destruct (string_dec "parameters" t) as [<- | Hn]; [congruence | auto].
      - destruct gs_tips as [A B]. split; auto. intros t' x' tip Htip. eapply tip_ok_ext; eauto. }
    destruct (edit_ok parses f tables (table_edit f t pk df) s' Hf Hoff)
      as (g & Hc & Hreach & Gd & Gf & Gdv & Gty & Gti & Gr & Gu); auto.
    - unfold table_edit. rewrite (restrict_all_eq parses f tables None); auto. intros t' x' [].
    - intros t' Hg'. destruct (inv_gens _ _ Hf t' Hg') as (ts' & A & B). cbn [s_tables s' with_table]. fold tabs. rewrite Hdec.
      destruct (string_dec t' t) as [-> | Hne]; eauto. congruence.
    - intros t' ts' Hts'. cbn [s_tables s' with_table]. fold tabs. rewrite Hdec. destruct (string_dec t' t); eauto.
    - exists g. split.
      { unfold clone_add_table, new_table_ok.
        assert (is_table f t = false) as -> by (apply not_true_iff_false; rewrite is_table_iff; congruence).
        assert (Nat.eqb (List.length (pk ++ df)) 0 = false) as ->
          by (apply Nat.eqb_neq; rewrite length_zero_iff_nil; exact Hnil).
        exact Hc. }
      split; [auto |]. split; [auto |].
      split; [rewrite Gd; cbn [s_tables s' with_table]; fold tabs; rewrite Hdec; destruct (string_dec t t); congruence |].
      split; [intros t' Hne; rewrite Gd; cbn [s_tables s' with_table]; fold tabs; rewrite Hdec; destruct (string_dec t' t); congruence |].
      assert (forall t' x', dget2 (s_defaults s) t' x' = shown_default f t' x') as Hsdef.
      { intros t' x'. unfold s, K. cbn [s_defaults restricted schema_in_order]. rewrite restricted_all_get; [reflexivity |].
        intros a b v Hv. apply (inv_defaults _ _ Hf) in Hv as [(tsa & A & _) _]. congruence. }
      split.
      { intros t' x' Hne. rewrite Gdv. cbn [s_defaults s_tables s' with_table]. fold tabs. rewrite Hsdef.
        rewrite <- (defaults_cover parses f t' x' Hf) at 2. destruct (shown_default f t' x'); auto.
        assert (data_field_of tabs t' x' <-> data_field_of (f_decl f) t' x') as Hiff.
        { unfold data_field_of. rewrite Hdec. destruct (string_dec t' t); [congruence | tauto]. }
        destruct (data_field_dec (f_decl f) t' x') as [Hy | Hn].
        - rewrite (proj1 (zero_defaults_get _ t' x' Hdok) Hy). apply (zero_defaults_get _ t' x' Htok). tauto.
        - rewrite (proj2 (zero_defaults_get _ t' x' Hdok) Hn). apply (zero_defaults_get _ t' x' Htok). tauto. }
      split.
      { intros x. rewrite Gdv. cbn [s_defaults s_tables s' with_table]. fold tabs. rewrite Hsdef.
        assert (shown_default f t x = None) as ->.
        { destruct (shown_default f t x) as [v |] eqn:E; auto. exfalso.
          apply (inv_defaults _ _ Hf) in E as [(ts' & A & B) _]. congruence. }
        destruct (in_dec string_dec x df) as [Hx | Hx].
        - apply (zero_defaults_get _ t x Htok). exists (mkT pk df). rewrite Hdec.
          destruct (string_dec t t); [auto | congruence].
        - apply (zero_defaults_get _ t x Htok). intros (ts' & A & B). rewrite Hdec in A.
          destruct (string_dec t t); [| congruence]. injection A as <-. contradiction. }
      split.
      { intros t' x'. split.
        - rewrite Gty. unfold s', s, K. cbn [s_types with_table restricted schema_in_order]. rewrite restricted_all_get; [reflexivity |].
          intros a b v Hv. apply (inv_types _ _ Hf) in Hv as [(tsa & A & _) _]. congruence.
        - pose proof (inv_tips _ _ Hf) as [Ht1 Ht2].
          rewrite Gti. unfold s', s, K. cbn [s_tips with_table restricted schema_in_order]. rewrite restricted_all_get.
          + rewrite friendly_tips_get by auto. reflexivity.
          + intros a b v Hv. rewrite friendly_tips_get in Hv by auto.
            apply dget_In in Hv as ([a' b'] & E & Hin). apply tf_eqb_eq in E. injection E as -> ->.
            now apply Ht2 in Hin as (A & _). }
      split; [| exact Gr].
      intros k. rewrite Gf. unfold s', s. cbn [s_fks with_table restricted schema_in_order]. rewrite filter_In, keep_fk_iff.
      split; [tauto |]. intros Hk. destruct (inv_fks _ _ Hf) as [_ Hok].
      destruct (Hok _ Hk) as ((nts & A) & (fts & B) & _). split; auto. unfold K.
      rewrite <- !mem_str_iff, !decl_of_mem. split; [congruence |]. split; [congruence |]. intros p _. split; intros [].
  Qed.

  Theorem pan_table_ok : forall f tables t pk df, pan_inv f -> string_params f -> no_generic f ->
    (exists t0, in_tables f t0) -> Permutation (f_decl f) tables -> table_welcome f t pk df ->
    exists g, pan_add_table parses f tables t pk df = Some g /\ pan_reachable parses g /\ f_used g = false /\
      decl_of (f_decl g) t = Some (Fields (mkT pk df)) /\
      (forall t', t' <> t -> decl_of (f_decl g) t' = decl_of (f_decl f) t') /\
      (forall t' x, t' <> t -> shown_default g t' x = shown_default f t' x) /\
      (forall x, shown_default g t x = if in_dec string_dec x df then Some (VNum (of_int 0)) else None) /\
      (forall t' x, shown_type g t' x = shown_type f t' x /\ shown_tip g t' x = shown_tip f t' x) /\
      (forall k, In k (f_fks g) <-> In k (f_fks f)) /\ pan_rest f g.
  Proof.
    intros f tables t pk df H Hs Hng Hsome Hp Hw.
    destruct (table_ok (strip f) tables t pk df (strip_inv _ _ H) (strip_clonable _ _ H Hs) Hng Hsome Hp Hw)
      as (g & E & Rg & Ug & Dg & Dog & Og & Dx & Tg & Fg & (Pg & _ & _ & _ & Sg)).
    unfold clone_add_table in E. change (new_table_ok (strip f) t pk df) with (new_table_ok f t pk df) in E.
    destruct (new_table_ok f t pk df) eqn:Ec; [| discriminate].
    destruct (pan_finish parses f tables None _ g H E) as (np & En & Pn & Hn).
    { intros t' n _ Hsp. apply shown_pred_table with (1 := H) in Hsp. destruct (string_dec t' t) as [-> | Hne].
      - rewrite Dg. discriminate.
      - rewrite Dog by auto. exact Hsp. }
    assert (pan_add_table parses f tables t pk df = Some (with_preds g np)) as Ea.
    { unfold pan_add_table. rewrite Ec. exact En. }
    exists (with_preds g np). split; [exact Ea |]. split.
    { unfold pan_add_table in Ea. rewrite Ec in Ea. now apply pan_clone_with_reachable in Ea. }
    split; [exact Ug |]. split; [exact Dg |]. split; [exact Dog |]. split; [exact Og |]. split; [exact Dx |].
    split; [exact Tg |]. split; [exact Fg |]. split; [exact Pg |]. split; [exact Hn | exact Sg].
  Qed.

  (** *** Change of kind *)

  Lemma moving_ok : forall conv d ps, pan_preds_ok d ps -> pan_preds_ok d (moving_preds conv ps).
  Proof.
    intros conv d ps [H1 H2]. unfold moving_preds. split; [rewrite map_map; exact H1 |].
    intros t l Hin. apply in_map_iff in Hin as ([t' l'] & E & Hin). cbn [fst snd] in E. injection E as <- <-.
    destruct (H2 _ _ Hin) as (A & B & C). split; [auto |]. split.
    - clear -B. induction l' as [| [n p] l' IH]; cbn [filter map fst] in *; auto. destruct B as [B1 B2].
      destruct (conv || _); cbn [map fst keys_distinct]; auto. split; auto.
      intros k Hk. apply B1. apply in_map_iff in Hk as (np & <- & Hk). apply filter_In in Hk as [Hk _]. now apply in_map.
    - intros n p Hnp. apply filter_In in Hnp as [Hnp _]. auto.
  Qed.

  Lemma moving_get : forall conv d ps t n, pan_preds_ok d ps ->
    pget (moving_preds conv ps) t n =
    match pget ps t n with
    | Some p => if conv || match p_maker p with None => true | Some _ => false end then Some p else None
    | None => None
    end.
  Proof.
    intros conv d ps t n Hps. unfold pget at 2. pose proof (pan_preds_get d ps t Hps) as [Hk _].
    unfold pget, moving_preds, dget_or in *.
    rewrite (dget_map_snd (fun _ l => filter (fun np => conv || match p_maker (snd np) with None => true | Some _ => false end) l)).
    destruct (dget String.eqb ps t) as [l |]; cbn [option_map]; [| reflexivity]. clear -Hk.
    induction l as [| [m p] l IH]; cbn [filter dget map fst snd] in *; auto. destruct Hk as [Hk1 Hk2].
    destruct (pyeq m n) eqn:E.
    - destruct (conv || _); cbn [dget]; [now rewrite E |].
      apply (dget_None pyeq). intros k v Hin. apply filter_In in Hin as [Hin _].
      apply not_true_iff_false. intros Hc. assert (pyeq m k = true) as Hmk.
      { eapply pyeq_trans; [exact E |]. now rewrite pyeq_sym. }
      apply (in_map fst) in Hin. apply Hk1 in Hin. cbn [fst] in Hin. rewrite Hmk in Hin. discriminate.
    - destruct (conv || _); cbn [dget]; [rewrite E |]; auto.
  Qed.

  Lemma bare_inv : forall f, inv f -> inv (bare f).
  Proof. intros f []. constructor; cbn; auto; [intros t [] | split; [constructor | intros t l []]]. Qed.

  Lemma bare_clonable : forall f, string_params f -> no_empty_fk f -> clonable (bare f).
  Proof. intros f H1 H2. split; [exact H1 |]. split; [exact H2 |]. intros t n []. Qed.

  Lemma good_pan_preds : forall d ps, good_preds d ps -> pan_preds_ok d ps.
  Proof. intros d ps [H1 H2]. split; auto. intros t l Hin. destruct (H2 _ _ Hin) as ((ts & ->) & A). split; [discriminate | auto]. Qed.

  (** What stays the same in every kind of clone. *)
  Definition same_look (f g : factory) (t : string) : Prop :=
    decl_of (f_decl g) t = decl_of (f_decl f) t /\
    forall x, shown_default g t x = shown_default f t x /\ shown_type g t x = shown_type f t x /\
              shown_tip g t x = shown_tip f t x.

  Definition gone (g : factory) (t : string) : Prop :=
    decl_of (f_decl g) t = None /\
    forall x, shown_default g t x = None /\ shown_type g t x = None /\ shown_tip g t x = None.

  (** Tables that are asked for. *)
  Definition wanted (keep : option (list string)) (t : string) : Prop := match keep with None => True | Some l => In t l end.

  Lemma wanted_keep : forall keep t, keep_pred keep t = true <-> wanted keep t.
  Proof. intros [l |] t; cbn; [apply mem_str_iff | tauto]. Qed.

  (** Either everything, or some tables of a schema without generic tables. *)
  Definition keep_ok (f : factory) (keep : option (list string)) : Prop :=
    match keep with
    | None => True
    | Some l => no_generic f /\ l <> [] /\ forall t, In t l -> in_tables f t
    end.

  Lemma bare_clone_ok : forall f tables keep, inv (bare f) -> string_params f -> no_empty_fk f -> keep_ok f keep ->
    Permutation (f_decl f) tables ->
    exists g, clone parses (bare f) tables keep = Some g /\
      (forall t, wanted keep t -> same_look f g t) /\ (forall t, ~ wanted keep t -> gone g t) /\
      (forall k, In k (f_fks g) <-> In k (f_fks f) /\ wanted keep (fk_native k) /\ wanted keep (fk_foreign k)) /\
      (wanted keep "parameters" -> f_params g = f_params f) /\ (~ wanted keep "parameters" -> f_params g = []) /\
      same_settings f g.
  Proof.
    intros f tables keep Hf Hs Hm Hk Hp. pose proof (bare_clonable f Hs Hm) as Hc. destruct keep as [l |].
    - destruct Hk as (K1 & K2 & K3).
      destruct (clone_ok parses (bare f) tables l Hf Hc K1 Hp K2 K3) as (g & E & G1 & G2 & G3 & G4 & G5 & _ & _ & G6).
      { intros t []. }
      exists g. split; [exact E |]. cbn [wanted]. split; [| split; [| split; [exact G3 | split; [exact G4 | split; [exact G5 | exact G6]]]]].
      + intros t Ht. destruct (G1 t Ht) as (A & B & _). split; [exact A | exact B].
      + intros t Ht. destruct (G2 t Ht) as (A & B & _). split; [exact A | exact B].
    - destruct (clone_all_ok parses (bare f) tables Hf Hc Hp) as (g & E & G1 & G2 & G3 & (G4 & _ & _ & _ & G5)).
      exists g. split; [exact E |]. cbn [wanted]. split; [intros t _; split; [apply G1 | intros x; apply G2] |].
      split; [tauto |]. split; [intros k; rewrite G3; cbn; tauto |]. split; [intros _; exact G4 |]. split; [tauto | exact G5].
  Qed.

  (** What a clone of the other kind shows. *)
  Definition moved (f g : factory) (keep : option (list string)) (conv : bool) : Prop :=
    (forall t, wanted keep t -> same_look f g t) /\ (forall t, ~ wanted keep t -> gone g t) /\
    (forall k, In k (f_fks g) <-> In k (f_fks f) /\ wanted keep (fk_native k) /\ wanted keep (fk_foreign k)) /\
    (wanted keep "parameters" -> f_params g = f_params f) /\ (~ wanted keep "parameters" -> f_params g = []) /\
    same_settings f g /\ f_gens g = [] /\ f_links g = false /\ f_used g = false /\
    (forall t n p, shown_pred g t n = Some p <-> wanted keep t /\ travels conv p /\ shown_pred f t n = Some p).

  Lemma moved_preds : forall conv d f g np keep, pan_preds_ok d (f_preds f) ->
    (forall t n, pget np t n = if keep_pred keep t then pget (moving_preds conv (f_preds f)) t n else None) ->
    forall t n p, shown_pred (with_preds g np) t n = Some p <-> wanted keep t /\ travels conv p /\ shown_pred f t n = Some p.
  Proof.
    intros conv d f g np keep Hps Hn t n p. change (shown_pred (with_preds g np) t n) with (pget np t n). rewrite Hn.
    rewrite (moving_get conv d) by auto. change (pget (f_preds f) t n) with (shown_pred f t n). unfold travels.
    rewrite <- wanted_keep. destruct (keep_pred keep t); [| split; [discriminate | intros [E _]; discriminate]].
    destruct (shown_pred f t n) as [q |]; [| split; [discriminate | intros (_ & _ & E); discriminate]].
    destruct conv; cbn [orb].
    - split; [auto | tauto].
    - destruct (p_maker q) eqn:E; split.
      + discriminate.
      + intros (_ & [F | F] & G); [discriminate | congruence].
      + intros G. injection G as <-. auto.
      + tauto.
  Qed.

  Theorem tic_to_pan_ok : forall f tables keep conv, inv f -> string_params f -> no_empty_fk f -> keep_ok f keep ->
    Permutation (f_decl f) tables -> f_links f = false ->
    exists g, tic_to_pan parses f tables keep conv = Some g /\ pan_reachable parses g /\ moved f g keep conv.
  Proof.
    intros f tables keep conv Hf Hs Hm Hk Hp Hlk.
    destruct (bare_clone_ok f tables keep (bare_inv f Hf) Hs Hm Hk Hp) as (g & E & G1 & G2 & G3 & G4 & G5 & G6).
    pose proof (good_pan_preds _ _ (inv_preds _ _ Hf)) as Hps.
    unfold clone in E. pose proof (clone_start _ _ _ _ _ _ E) as (A & B & C & D). rewrite bare_clone in E.
    destruct (restrict (schema_in_order f tables) keep None) as [s |] eqn:Er; [| discriminate].
    destruct (attach_ok parses (f_decl f) (moving_preds conv (f_preds f)) keep g (moving_ok _ _ _ Hps) D A) as (np & En & Hn).
    { intros t n Hw Hg. apply wanted_keep in Hw. destruct (G1 t Hw) as (-> & _). rewrite (moving_get conv (f_decl f)) in Hg by auto.
      change (pget (f_preds f) t n) with (shown_pred f t n) in Hg. unfold shown_pred, dget_or in Hg.
      destruct (dget String.eqb (f_preds f) t) as [l |] eqn:El; [| now cbn in Hg].
      destruct Hps as [P1 P2]. apply dget_In_NoDup in El; auto. now apply P2 in El. }
    assert (tic_to_pan parses f tables keep conv = Some (with_preds g np)) as Et.
    { unfold tic_to_pan. rewrite Er, pan_create_eq, E, Hlk, app_nil_r. exact En. }
    exists (with_preds g np). split; [exact Et |]. split.
    { rewrite <- pan_create_eq in E. apply pan_create_reachable in E. eapply pan_reachable_exec; eauto. }
    split; [exact G1 |]. split; [exact G2 |]. split; [exact G3 |]. split; [exact G4 |]. split; [exact G5 |].
    split; [exact G6 |]. split; [exact B |]. split; [exact C |]. split; [exact D |].
    eapply moved_preds; eauto.
  Qed.

  Theorem pan_to_tic_ok : forall f tables keep conv, pan_inv f -> string_params f -> keep_ok f keep ->
    Permutation (f_decl f) tables ->
    (forall t n p, wanted keep t -> shown_pred f t n = Some p -> travels conv p -> decl_of (f_decl f) t <> Some Generic) ->
    exists g, pan_to_tic parses f tables keep conv = Some g /\ reachable parses g /\ moved f g keep conv.
  Proof.
    intros f tables keep conv H Hs Hk Hp Hgen. pose proof (pi_preds _ _ H) as Hps.
    assert (inv (bare f)) as Hb by (rewrite bare_strip by apply H; now apply strip_inv).
    destruct (bare_clone_ok f tables keep Hb Hs (pi_fks _ _ H) Hk Hp) as (g & E & G1 & G2 & G3 & G4 & G5 & G6).
    unfold clone in E. pose proof (clone_start _ _ _ _ _ _ E) as (A & B & C & D). rewrite bare_clone in E.
    destruct (restrict (schema_in_order f tables) keep None) as [s |] eqn:Er; [| discriminate].
    destruct (tic_attach_ok parses (f_decl f) (moving_preds conv (f_preds f)) keep g (moving_ok _ _ _ Hps) D A B) as (np & En & Hn).
    { intros t n Hw Hg. apply wanted_keep in Hw. destruct (G1 t Hw) as (-> & _). rewrite (moving_get conv (f_decl f)) in Hg by auto.
      change (pget (f_preds f) t n) with (shown_pred f t n) in Hg.
      destruct (shown_pred f t n) as [p |] eqn:Esp; [| congruence].
      assert (travels conv p) as Ht.
      { unfold travels. destruct conv; auto. destruct (p_maker p); [now cbn in Hg | auto]. }
      assert (decl_of (f_decl f) t <> None) as Hd by (apply (shown_pred_table parses f t n H); congruence).
      specialize (Hgen t n p Hw Esp Ht). destruct (decl_of (f_decl f) t) as [[| ts] |]; [congruence | eauto | congruence]. }
    exists (with_preds g np). split.
    { unfold pan_to_tic. rewrite Er, E. exact En. }
    split.
    { unfold create in E. destruct (param_names_ok s); [| discriminate]. destruct (init (s_tables s)) as [f0 |] eqn:Ei; [| discriminate].
      eapply reachable_exec; [| exact En]. eapply reachable_exec; [| exact E]. exists (s_tables s), f0, []. auto. }
    split; [exact G1 |]. split; [exact G2 |]. split; [exact G3 |]. split; [exact G4 |]. split; [exact G5 |].
    split; [exact G6 |]. split; [exact B |]. split; [exact C |]. split; [exact D |].
    eapply moved_preds; eauto.
  Qed.

  (** *** Histories *)

  Lemma pan_step_frozen : forall f o, f_used f = true ->
    frozen f (fst (pan_step parses f o)) /\
    ((forall n, o <> ORemParam n) -> f_params (fst (pan_step parses f o)) = f_params f) /\
    (forall n d, In (n, d) (f_params (fst (pan_step parses f o))) -> In (n, d) (f_params f)).
  Proof.
    intros f o Hu.
    assert (frozen f f /\ ((forall n, o <> ORemParam n) -> f_params f = f_params f) /\
            (forall n d, In (n, d) (f_params f) -> In (n, d) (f_params f))) as Hr by (repeat split; auto).
    destruct (quiet o) eqn:Eq; [rewrite quiet_pan by auto; now apply step_frozen |].
    destruct o; try discriminate Eq; cbn [pan_step fst]; auto.
    - unfold pan_add_pred. rewrite Hu. cbn. exact Hr.
    - unfold pan_set_defaults. rewrite Hu. cbn. exact Hr.
    - split; [repeat split; auto | auto].
  Qed.

  Theorem pan_run_frozen : forall ops f, f_used f = true ->
    frozen f (pan_run parses f ops) /\
    ((forall n, ~ In (ORemParam n) ops) -> f_params (pan_run parses f ops) = f_params f) /\
    (forall n d, In (n, d) (f_params (pan_run parses f ops)) -> In (n, d) (f_params f)).
  Proof.
    induction ops as [| o ops IH]; intros f Hu.
    - split; [repeat split; auto | auto].
    - destruct (pan_step_frozen f o Hu) as (H1 & H2 & H3).
      change (pan_run parses f (o :: ops)) with (pan_run parses (fst (pan_step parses f o)) ops).
      destruct (IH (fst (pan_step parses f o))) as (I1 & I2 & I3); [apply H1 |].
      split; [eapply frozen_trans; eauto |]. split.
      + intros Hn. rewrite I2 by (intros n Hin; apply (Hn n); now right). apply H2.
        intros n ->. apply (Hn n). now left.
      + intros n d Hin. apply H3. now apply I3.
  Qed.

  Theorem pan_rejected_unchanged : forall f o g, pan_step parses f o = (g, true) -> (forall l, o <> OSetDefaults l) -> g = f.
  Proof.
    intros f o g H Hn. destruct o; cbn [pan_step] in H; try (now apply or_raise_true in H); try discriminate;
      try (now injection H). exfalso. now apply (Hn l).
  Qed.

  Theorem pan_defaults_prefix : forall f l, exists a b, flat l = a ++ b /\
    (snd (pan_set_defaults f l) = false -> b = []) /\
    forall t x, shown_default (fst (pan_set_defaults f l)) t x =
      match last_bind tf_eqb a (t, x) with Some v => Some v | None => shown_default f t x end.
  Proof.
    intros f l. destruct (pan_defaults_assign l f) as (a & b & E1 & E2 & _ & E4 & _). exists a, b.
    split; [exact E1 |]. split; [exact E4 |]. intros t x. rewrite E2. unfold shown_default, assign. cbn [f_defaults with_defaults].
    apply set_all_get.
  Qed.

  Lemma pan_step_obs : forall f o t x, pan_inv f -> (forall l, o = OSetDefaults l -> snd (pan_step parses f o) = false) ->
    obs f (fst (pan_step parses f o)) o (snd (pan_step parses f o)) t x.
  Proof.
    intros f o t x Hf Hok. destruct (quiet o) eqn:Eq.
    - rewrite quiet_pan by auto.
      pose proof (step_obs parses (strip f) o t x (strip_inv _ _ Hf)) as Hs.
      unfold strip in Hs. rewrite quiet_step_preds in Hs by auto. cbn [fst snd] in Hs. apply Hs.
      intros l ->. discriminate Eq.
    - destruct o; try discriminate Eq; cbn [pan_step fst snd].
      + destruct (pan_add_pred f s o v) as [g |] eqn:E; cbn [or_raise fst snd].
        * apply (add_pred_shape parses) in E as (_ & _ & ps & -> & _). apply obs_same; reflexivity.
        * apply obs_same; reflexivity.
      + specialize (Hok _ eq_refl). cbn [pan_step] in Hok. rewrite Hok.
        destruct (pan_defaults_assign l f) as (a & b & E1 & E2 & _ & E4 & _). specialize (E4 Hok). subst b.
        rewrite app_nil_r in E1. rewrite E2, <- E1. split; [| split].
        * cbn [last_default]. unfold shown_default, assign. cbn [f_defaults with_defaults]. apply set_all_get.
        * reflexivity.
        * reflexivity.
      + apply obs_same; reflexivity.
      + apply obs_same; reflexivity.
      + apply obs_same; reflexivity.
      + apply obs_same; reflexivity.
  Qed.

  Theorem pan_last_call : forall ops f t x, pan_inv f ->
    (forall l, ~ In (OSetDefaults l, true) (pan_history parses f ops)) ->
    shown_default (pan_run parses f ops) t x = last_default t x (pan_history parses f ops) (shown_default f t x) /\
    shown_type (pan_run parses f ops) t x = last_type t x (pan_history parses f ops) (shown_type f t x) /\
    shown_tip (pan_run parses f ops) t x = last_tip t x (pan_history parses f ops) (shown_tip f t x).
  Proof.
    induction ops as [| o ops IH]; intros f t x Hf Hn; [cbn; auto |].
    cbn [pan_history] in *. rewrite last_default_cons, last_type_cons, last_tip_cons.
    change (pan_run parses f (o :: ops)) with (pan_run parses (fst (pan_step parses f o)) ops).
    destruct (pan_step_obs f o t x Hf) as (A & B & C).
    { intros l ->. destruct (snd (pan_step parses f (OSetDefaults l))) eqn:E; auto. exfalso. apply (Hn l). now left. }
    rewrite <- A, <- B, <- C. apply IH; [now apply pan_step_inv |]. intros l Hin. apply (Hn l). now right.
  Qed.

  Theorem pan_auto_name : forall f t p g, pan_step parses f (OPred t (Some p) VNone) = (g, false) ->
    exists i, shown_pred f t (pred_name i) = None /\
      (forall j, (j < i)%nat -> shown_pred f t (pred_name j) <> None) /\
      shown_pred g t (pred_name i) = Some p /\
      (forall t' n, ~ (t' = t /\ pyeq n (pred_name i) = true) -> shown_pred g t' n = shown_pred f t' n) /\
      g = with_preds f (f_preds g).
  Proof.
    intros f t p g H. cbn [pan_step] in H. unfold pan_add_pred in H.
    destruct (_ && _) in H; [| discriminate].
    destruct (mem_str (p_resp p) ["Boolean"; "Error Message"]); [| discriminate]. cbn [or_raise] in H.
    injection H as <-. destruct (fresh_name_spec (dget_or String.eqb (f_preds f) t [])) as (i & E & H1 & H2).
    exists i. split; [exact H1 |]. split; [exact H2 |]. rewrite E.
    change (VNum (of_int (Z.of_nat i))) with (pred_name i).
    assert (forall t' n, shown_pred (with_preds f (dset String.eqb (f_preds f) t
              (dset pyeq (dget_or String.eqb (f_preds f) t []) (pred_name i) p))) t' n =
              if tn_eqb (t, pred_name i) (t', n) then Some p else shown_pred f t' n) as Hs
      by (intros t' n; exact (pget_pset (f_preds f) ((t, pred_name i), p) t' n)).
    split; [rewrite Hs, tn_eqb_refl; reflexivity |].
    split; [| reflexivity]. intros t' n Hne. rewrite Hs. unfold tn_eqb. cbn [fst snd].
    destruct (String.eqb t t' && pyeq (pred_name i) n) eqn:Eb; auto. exfalso. apply Hne.
    apply andb_true_iff in Eb as [A B]. apply String.eqb_eq in A. split; [auto |]. now rewrite pyeq_sym.
  Qed.

  Theorem pan_pred_accepted : forall f t p n, snd (pan_step parses f (OPred t (Some p) n)) = false <->
    f_used f = false /\ in_tables f t /\ In (p_resp p) ["Boolean"; "Error Message"].
  Proof.
    intros f t p n. cbn [pan_step]. unfold pan_add_pred. unfold in_tables. rewrite <- is_table_iff, <- mem_str_iff. split.
    - destruct (_ && _) eqn:Ec; [| discriminate].
      destruct (mem_str (p_resp p) ["Boolean"; "Error Message"]) eqn:Em; [| discriminate]. intros _.
      apply andb_true_iff in Ec as [A B]. apply negb_true_iff in A. auto.
    - intros (A & B & C). rewrite A, B, C. reflexivity.
  Qed.
End Kinds.
