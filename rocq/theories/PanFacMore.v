(** * PanDatFactory: clones, column edits, new tables, changes of kind, histories. *)
From Coq Require Import ZArith Bool List String Ascii Arith Lia Permutation.
From Verif Require Import PyVal PyValFacts PyDict PyDictFacts PyStr ListFacts TypeDict TypeDictFacts Data
  FindTypes FindTypesFacts FK FKFacts ImpliedFacts WfCheck GraphFacts Factory FactoryFacts FactoryMore FactoryClone
  FactoryEdit FactoryColumns FactoryRename FactoryHist FactoryWitness PanFac PanFacFacts.
Import ListNotations.
Local Open Scope string_scope.
Local Open Scope list_scope.

Section More.
  Variable parses : value -> bool.
  Notation pan_inv := (pan_inv parses).
  Notation inv := (inv parses).

  Theorem pan_roundtrip_ok : forall f tables, pan_inv f -> string_params f -> Permutation (f_decl f) tables ->
    exists g, pan_create parses (schema_in_order f tables) = Some g /\
      (forall t, decl_of (f_decl g) t = decl_of (f_decl f) t) /\
      f_fks g = f_fks f /\ f_params g = f_params f /\
      (forall t x, shown_default g t x = shown_default f t x /\ shown_type g t x = shown_type f t x /\
                   shown_tip g t x = shown_tip f t x) /\
      same_settings f g.
  Proof.
    intros f tables H Hs Hp. rewrite pan_create_eq.
    exact (roundtrip_ok parses (strip f) tables (pi_strip _ _ H) Hs (pi_fks _ _ H) Hp).
  Qed.

  Theorem pan_clone_ok : forall f tables keep, pan_inv f -> string_params f -> no_generic f ->
    Permutation (f_decl f) tables -> keep <> [] -> (forall t, In t keep -> in_tables f t) ->
    exists g, pan_clone parses f tables (Some keep) = Some g /\
      (forall t, In t keep -> decl_of (f_decl g) t = decl_of (f_decl f) t /\
         (forall x, shown_default g t x = shown_default f t x /\ shown_type g t x = shown_type f t x /\
                    shown_tip g t x = shown_tip f t x) /\
         (forall n, shown_pred g t n = shown_pred f t n)) /\
      (forall t, ~ In t keep -> decl_of (f_decl g) t = None /\
         (forall x, shown_default g t x = None /\ shown_type g t x = None /\ shown_tip g t x = None) /\
         (forall n, shown_pred g t n = None)) /\
      (forall k, In k (f_fks g) <-> In k (f_fks f) /\ In (fk_native k) keep /\ In (fk_foreign k) keep) /\
      (In "parameters" keep -> f_params g = f_params f) /\ (~ In "parameters" keep -> f_params g = []) /\
      same_settings f g.
  Proof.
    intros f tables keep H Hs Hng Hp Hne Hin.
    destruct (clone_ok parses (strip f) tables keep (strip_inv _ _ H) (strip_clonable _ _ H Hs) Hng Hp Hne Hin)
      as (g & E & G1 & G2 & G3 & G4 & G5 & _ & _ & G6).
    { intros t Ht. cbn in Ht. rewrite (pi_gens _ _ H) in Ht. destruct Ht. }
    destruct (pan_finish parses f tables (Some keep) (fun s => Some s) g H E) as (np & En & _ & Hn).
    { intros t n Hk Ht. cbn [keep_pred] in Hk. apply mem_str_iff in Hk. destruct (G1 _ Hk) as (-> & _). exact (Hin _ Hk). }
    exists (with_preds g np). split; [exact En |].
    split; [| split; [| split; [exact G3 | split; [exact G4 | split; [exact G5 | exact G6]]]]].
    - intros t Ht. destruct (G1 _ Ht) as (A & B & _). split; [exact A |]. split; [exact B |].
      intros n. rewrite Hn. cbn [keep_pred]. apply mem_str_iff in Ht. now rewrite Ht.
    - intros t Ht. destruct (G2 _ Ht) as (A & B & _). split; [exact A |]. split; [exact B |].
      intros n. rewrite Hn. cbn [keep_pred]. apply mem_str_false in Ht. now rewrite Ht.
  Qed.

  Theorem pan_clone_all_ok : forall f tables, pan_inv f -> string_params f -> Permutation (f_decl f) tables ->
    exists g, pan_clone parses f tables None = Some g /\
      (forall t, decl_of (f_decl g) t = decl_of (f_decl f) t) /\
      (forall t x, shown_default g t x = shown_default f t x /\ shown_type g t x = shown_type f t x /\
                   shown_tip g t x = shown_tip f t x) /\
      (forall k, In k (f_fks g) <-> In k (f_fks f)) /\ f_params g = f_params f /\
      (forall t n, shown_pred g t n = shown_pred f t n) /\ same_settings f g.
  Proof.
    intros f tables H Hs Hp.
    destruct (clone_all_ok parses (strip f) tables (strip_inv _ _ H) (strip_clonable _ _ H Hs) Hp)
      as (g & E & G1 & G2 & G3 & (G4 & _ & _ & _ & G5)).
    destruct (pan_finish parses f tables None (fun s => Some s) g H E) as (np & En & _ & Hn).
    { intros t n _ Ht. rewrite G1. cbn. eapply shown_pred_table; eauto. }
    exists (with_preds g np). split; [exact En |]. split; [exact G1 |]. split; [exact G2 |].
    split; [exact G3 |]. split; [exact G4 |]. split; [exact Hn | exact G5].
  Qed.

  (** *** Columns *)

  Definition pan_rest (f g : factory) : Prop :=
    f_params g = f_params f /\ (forall t n, shown_pred g t n = shown_pred f t n) /\ same_settings f g.

  Theorem pan_add_ok : forall f tables t x (kf : bool) pos ts i, pan_inv f -> string_params f -> no_generic f ->
    Permutation (f_decl f) tables -> decl_of (f_decl f) t = Some (Fields ts) ->
    ~ In (lower x) (map lower (tpk ts ++ tdf ts)) ->
    (i = match pos with Some i => i | None => List.length (if kf then tpk ts else tdf ts) end) ->
    (i <= List.length (if kf then tpk ts else tdf ts))%nat ->
    (t = "parameters" -> f_params f = []) ->
    exists g np, clone_add_column parses (strip f) tables t x kf pos = Some g /\ f_preds g = [] /\
      pan_add_column parses f tables t x kf pos = Some (with_preds g np) /\ f_used g = false /\
      decl_of (f_decl g) t = Some (Fields (with_field kf i x ts)) /\
      (forall t', t' <> t -> decl_of (f_decl g) t' = decl_of (f_decl f) t') /\
      (forall t' x', (t', x') <> (t, x) -> shown_default g t' x' = shown_default f t' x') /\
      shown_default g t x = (if kf then None else Some (VNum (of_int 0))) /\
      (forall t' x', shown_type g t' x' = shown_type f t' x' /\ shown_tip g t' x' = shown_tip f t' x') /\
      (forall k, In k (f_fks g) <-> In k (f_fks f)) /\ pan_rest f (with_preds g np).
  Proof.
    intros f tables t x kf pos ts i H Hs Hng Hp Ht Hx Hi Hile Hpar.
    destruct (add_ok parses (strip f) tables t x kf pos ts i (strip_inv _ _ H) (strip_clonable _ _ H Hs) Hng Hp Ht Hx Hi Hile)
      as (g & E & Rg & Ug & Dg & Dog & Og & Dx & Tg & Fg & (Pg & _ & _ & _ & Sg)); auto.
    { intros _ Hg. cbn in Hg. rewrite (pi_gens _ _ H) in Hg. destruct Hg. }
    exists g. pose proof E as E'. unfold clone_add_column in E'. apply table_of_iff in Ht.
    change (table_of (strip f) t) with (table_of f t) in E'. rewrite Ht in E'.
    destruct (_ && _) eqn:Ec in E'; [| discriminate]. change (f_decl (strip f)) with (f_decl f) in E'.
    destruct (pan_finish parses f tables None _ g H E') as (np & En & Pn & Hn).
    { intros t' n _ Hsp. apply shown_pred_table with (1 := H) in Hsp. destruct (string_dec t' t) as [-> | Hne].
      - rewrite Dg. discriminate.
      - rewrite Dog by auto. exact Hsp. }
    exists np. split; [exact E |]. split; [exact Pn |]. split.
    { unfold pan_add_column. rewrite Ht, Ec. exact En. }
    split; [exact Ug |]. split; [exact Dg |]. split; [exact Dog |]. split; [exact Og |]. split; [exact Dx |].
    split; [exact Tg |]. split; [exact Fg |]. split; [exact Pg |]. split; [exact Hn | exact Sg].
  Qed.

  Theorem pan_remove_ok : forall f tables t x ts, pan_inv f -> string_params f -> no_generic f ->
    Permutation (f_decl f) tables -> decl_of (f_decl f) t = Some (Fields ts) -> In x (tpk ts ++ tdf ts) ->
    (exists z, In z (tpk ts ++ tdf ts) /\ z <> x) -> (t = "parameters" -> f_params f = []) ->
    exists g np, clone_remove_column parses (strip f) tables t x = Some g /\ f_preds g = [] /\
      pan_remove_column parses f tables t x = Some (with_preds g np) /\ f_used g = false /\
      decl_of (f_decl g) t = Some (Fields (mkT (remove string_dec x (tpk ts)) (remove string_dec x (tdf ts)))) /\
      (forall t', t' <> t -> decl_of (f_decl g) t' = decl_of (f_decl f) t') /\
      (forall t' x', (t', x') <> (t, x) -> shown_default g t' x' = shown_default f t' x' /\
         shown_type g t' x' = shown_type f t' x' /\ shown_tip g t' x' = shown_tip f t' x') /\
      shown_default g t x = None /\ shown_type g t x = None /\ shown_tip g t x = None /\
      (forall k, In k (f_fks g) <-> In k (f_fks f) /\ ~ fk_uses k t x) /\ pan_rest f (with_preds g np).
  Proof.
    intros f tables t x ts H Hs Hng Hp Ht Hx Hz Hpar.
    destruct (remove_ok parses (strip f) tables t x ts (strip_inv _ _ H) (strip_clonable _ _ H Hs) Hng Hp Ht Hx Hz Hpar)
      as (g & E & Rg & Ug & Dg & Dog & Og & Dx & Tx & Tipx & Fg & (Pg & _ & _ & _ & Sg)).
    exists g. pose proof E as E'. unfold clone_remove_column in E'. change (has_field (strip f) t x) with (has_field f t x) in E'.
    destruct (has_field f t x) eqn:Ec; [| discriminate]. change (f_decl (strip f)) with (f_decl f) in E'.
    destruct (pan_finish parses f tables None _ g H E') as (np & En & Pn & Hn).
    { intros t' n _ Hsp. apply shown_pred_table with (1 := H) in Hsp. destruct (string_dec t' t) as [-> | Hne].
      - rewrite Dg. discriminate.
      - rewrite Dog by auto. exact Hsp. }
    exists np. split; [exact E |]. split; [exact Pn |]. split.
    { unfold pan_remove_column. rewrite Ec. exact En. }
    split; [exact Ug |]. split; [exact Dg |]. split; [exact Dog |]. split; [exact Og |]. split; [exact Dx |].
    split; [exact Tx |]. split; [exact Tipx |]. split; [exact Fg |]. split; [exact Pg |]. split; [exact Hn | exact Sg].
  Qed.

  Lemma remove_reachable : forall f tables t x g, pan_remove_column parses f tables t x = Some g -> pan_reachable parses g.
  Proof.
    intros f tables t x g H. unfold pan_remove_column in H. destruct (has_field f t x); [| discriminate].
    now apply pan_clone_with_reachable in H.
  Qed.

  Lemma add_reachable : forall f tables t x kf pos g, pan_add_column parses f tables t x kf pos = Some g ->
    pan_reachable parses g.
  Proof.
    intros f tables t x kf pos g H. unfold pan_add_column in H. destruct (table_of f t); [| discriminate].
    destruct (_ && _); [| discriminate]. now apply pan_clone_with_reachable in H.
  Qed.

  (** What [clone_rename_a_column] does at the end. *)
  Lemma rename_tail_quiet : forall f t x y,
    forallb quiet ((match dget2 (f_types f) t x with Some dt => [OSetType t y (args_of dt)] | None => [] end) ++
                   (match dget2 (f_defaults f) t x with Some v => [OSetDefault t y v] | None => [] end) ++
                   rename_fk_ops t x y (f_fks f) ++
                   (if String.eqb x "" then []
                    else match dget tf_eqb (f_tips f) (t, x) with Some s => [OTip t y s] | None => [] end)) = true.
  Proof.
    intros f t x y. rewrite !forallb_app.
    assert (forallb quiet (rename_fk_ops t x y (f_fks f)) = true) as ->.
    { unfold rename_fk_ops. induction (f_fks f) as [| k l IH]; cbn [flat_map]; auto. rewrite forallb_app, IH.
      now destruct (existsb _ _). }
    destruct (dget2 (f_types f) t x), (dget2 (f_defaults f) t x), (String.eqb x ""), (dget tf_eqb (f_tips f) (t, x)); reflexivity.
  Qed.

  Theorem pan_rename_ok : forall f tables tables' t x y ts, pan_inv f -> string_params f -> no_generic f ->
    Permutation (f_decl f) tables ->
    (forall g, pan_remove_column parses f tables t x = Some g -> Permutation (f_decl g) tables') ->
    decl_of (f_decl f) t = Some (Fields ts) -> In x (tpk ts ++ tdf ts) -> ~ In y (tpk ts ++ tdf ts) ->
    (forall z, In z (tpk ts ++ tdf ts) -> z <> x -> lower z <> lower y) ->
    (exists z, In z (tpk ts ++ tdf ts) /\ z <> x) -> (t = "parameters" -> f_params f = []) ->
    x <> "" -> y <> "" ->
    exists h, pan_rename_column parses f tables tables' t x y = Some h /\
      decl_of (f_decl h) t = Some (Fields (mkT (map (renamed x y) (tpk ts)) (map (renamed x y) (tdf ts)))) /\
      (forall t', t' <> t -> decl_of (f_decl h) t' = decl_of (f_decl f) t') /\
      (forall t' x', (t', x') <> (t, x) -> (t', x') <> (t, y) -> shown_default h t' x' = shown_default f t' x' /\
         shown_type h t' x' = shown_type f t' x' /\ shown_tip h t' x' = shown_tip f t' x') /\
      (shown_default h t y = shown_default f t x /\ shown_type h t y = shown_type f t x /\
       shown_tip h t y = shown_tip f t x) /\
      (shown_default h t x = None /\ shown_type h t x = None /\ shown_tip h t x = None) /\
      (forall k, In k (f_fks h) <-> exists k0, In k0 (f_fks f) /\ k = renamed_fk t x y k0) /\ pan_rest f h.
  Proof.
    intros f tables tables' t x y ts H Hs Hng Hp Hp' Ht Hx Hy Hlow Hz Hpar Hxe Hye.
    destruct (pan_remove_ok f tables t x ts H Hs Hng Hp Ht Hx Hz Hpar) as
      (g & np & E0 & Pg & E1 & _ & Dg & Dog & _ & _ & _ & _ & _ & (_ & Rp & _)).
    assert (forall g', clone_remove_column parses (strip f) tables t x = Some g' -> Permutation (f_decl g') tables') as Hq.
    { intros g' E'. rewrite E0 in E'. injection E' as <-. exact (Hp' _ E1). }
    destruct (rename_ok parses (strip f) tables tables' t x y ts (strip_inv _ _ H) (strip_clonable _ _ H Hs) Hng Hp Hq
                Ht Hx Hy Hlow Hz Hpar Hxe Hye)
      as (h & Er & Dh & Doh & Oh & Yh & Xh & Fh & (Ph & _ & _ & _ & Sh)).
    unfold clone_rename_column in Er. pose proof Ht as Ht'. apply table_of_iff in Ht'.
    change (table_of (strip f) t) with (table_of f t) in Er. rewrite Ht' in Er.
    destruct (_ && _) eqn:Ec in Er; [| discriminate]. cbv zeta in Er. rewrite E0 in Er.
    set (kf := mem_str x (tpk ts)) in *. set (i := index_of x (if kf then tpk ts else tdf ts)) in *.
    destruct (clone_add_column parses g tables' t y kf (Some i)) as [h0 |] eqn:Ea; [| discriminate].
    pose proof (remove_reachable _ _ _ _ _ E1) as Rg. apply pan_reachable_inv in Rg.
    assert (strip (with_preds g np) = g) as Es by (now apply strip_preds).
    assert (exists np', pan_add_column parses (with_preds g np) tables' t y kf (Some i) = Some (with_preds h0 np') /\
              forall t' n, pget np' t' n = pget np t' n) as (np' & Ea' & Hnp').
    { unfold clone_add_column in Ea. unfold pan_add_column. change (table_of (with_preds g np) t) with (table_of g t).
      destruct (table_of g t) as [ts' |]; [| discriminate]. cbv zeta in *. destruct (_ && _) eqn:Ec' in Ea; [| discriminate].
      rewrite Ec'. change (f_decl (with_preds g np)) with (f_decl g). rewrite <- Es in Ea at 1.
      assert (f_decl h0 = f_decl h) as Edh.
      { change (f_types (strip f)) with (f_types f) in Er. change (f_defaults (strip f)) with (f_defaults f) in Er.
        change (f_fks (strip f)) with (f_fks f) in Er. change (f_tips (strip f)) with (f_tips f) in Er.
        apply quiet_exec_keeps in Er; [| apply rename_tail_quiet]. symmetry. apply Er. }
      destruct (pan_finish parses (with_preds g np) tables' None _ h0 Rg Ea) as (np' & En & _ & Hn).
      - intros t' n _ Hsp. rewrite Rp in Hsp. apply shown_pred_table with (1 := H) in Hsp. rewrite Edh.
        destruct (string_dec t' t) as [-> | Hne]; [rewrite Dh; discriminate | now rewrite Doh].
      - exists np'. split; [exact En |]. intros t' n. specialize (Hn t' n). exact Hn. }
    change (f_types (strip f)) with (f_types f) in Er. change (f_defaults (strip f)) with (f_defaults f) in Er.
    change (f_fks (strip f)) with (f_fks f) in Er. change (f_tips (strip f)) with (f_tips f) in Er.
    exists (with_preds h np'). split.
    { unfold pan_rename_column. rewrite Ht', Ec. cbv zeta. rewrite E1. fold kf. fold i. rewrite Ea'.
      rewrite quiet_pan_exec by apply rename_tail_quiet. rewrite quiet_exec_preds by apply rename_tail_quiet.
      rewrite Er. reflexivity. }
    split; [exact Dh |]. split; [exact Doh |]. split; [exact Oh |]. split; [exact Yh |]. split; [exact Xh |].
    split; [exact Fh |]. split; [exact Ph |]. split; [| exact Sh].
    intros t' n. rewrite <- Rp. exact (Hnp' t' n).
  Qed.
End More.
