(** * Schemas, clones and column edits of a factory. *)
From Coq Require Import ZArith Bool List String Ascii Arith Lia Permutation.
From Verif Require Import PyVal PyValFacts PyDict PyDictFacts PyStr ListFacts TypeDict TypeDictFacts Data
  FindTypes FindTypesFacts FK FKFacts ImpliedFacts WfCheck GraphFacts Factory FactoryFacts.
Import ListNotations.
Local Open Scope string_scope.
Local Open Scope list_scope.

(** ** Executing a list of calls *)

Section Exec.
  Variable parses : value -> bool.
  Notation step := (step parses).
  Notation exec := (exec parses).

  Lemma exec_app : forall a b f, exec f (a ++ b) = match exec f a with Some g => exec g b | None => None end.
  Proof.
    induction a as [| o a IH]; intros b f; simpl; auto. destruct (step f o) as [g []]; auto.
  Qed.

  Lemma exec_run : forall ops f g, exec f ops = Some g -> g = run parses f ops.
  Proof.
    induction ops as [| o ops IH]; intros f g H; simpl in *; [now injection H |].
    destruct (step f o) as [h []]; [discriminate |]. simpl. auto.
  Qed.

  Lemma exec_map {A} (mk : A -> op) (upd : factory -> A -> factory) (P : factory -> Prop) : forall l f,
    P f -> (forall g a, In a l -> P g -> step g (mk a) = (upd g a, false) /\ P (upd g a)) ->
    exec f (map mk l) = Some (fold_left upd l f) /\ P (fold_left upd l f).
  Proof.
    induction l as [| a l IH]; intros f Hf H; simpl; auto.
    destruct (H f a (or_introl eq_refl) Hf) as [E Hp]. rewrite E. apply IH; auto.
    intros g b Hb. apply H. now right.
  Qed.

  Lemma fold_with_fks : forall l f,
    fold_left (fun g k => with_fks g (sadd fk_eqb (f_fks g) k)) l f =
    with_fks f (fold_left (sadd fk_eqb) l (f_fks f)).
  Proof. induction l as [| k l IH]; intros f; simpl; [destruct f; reflexivity |]. now rewrite IH. Qed.

  Lemma fold_with_types : forall l f,
    fold_left (fun g kv => with_types g (dset2 (f_types g) (fst (fst kv)) (snd (fst kv)) (snd kv))) l f =
    with_types f (set_all (f_types f) l).
  Proof. induction l as [| k l IH]; intros f; simpl; [destruct f; reflexivity |]. now rewrite IH. Qed.

  Lemma fold_with_defaults : forall l f,
    fold_left (fun g kv => with_defaults g (dset2 (f_defaults g) (fst (fst kv)) (snd (fst kv)) (snd kv))) l f =
    with_defaults f (set_all (f_defaults f) l).
  Proof. induction l as [| k l IH]; intros f; simpl; [destruct f; reflexivity |]. now rewrite IH. Qed.

  Lemma fold_with_params : forall l f,
    fold_left (fun g p => with_params g (dset pyeq (f_params g) (fst p) (snd p))) l f =
    with_params f (dupdate pyeq (f_params f) l).
  Proof. induction l as [| k l IH]; intros f; simpl; [destruct f; reflexivity |]. now rewrite IH. Qed.

  Lemma fold_with_tips : forall l f,
    fold_left (fun g kv => with_tips g (dset tf_eqb (f_tips g) (fst kv) (snd kv))) l f =
    with_tips f (dupdate tf_eqb (f_tips f) l).
  Proof. induction l as [| k l IH]; intros f; simpl; [destruct f; reflexivity |]. now rewrite IH. Qed.

  Lemma sadd_all : forall l acc, NoDup (acc ++ l) -> fold_left (sadd fk_eqb) l acc = acc ++ l.
  Proof.
    induction l as [| k l IH]; intros acc H; simpl; [now rewrite app_nil_r |].
    unfold sadd at 2. destruct (smem fk_eqb acc k) eqn:E.
    - exfalso. apply smem_iff in E as (k' & Hk & E). apply fk_eqb_eq in E. subst k'.
      apply (NoDup_app_disj _ _ k H); simpl; auto.
    - rewrite IH; rewrite <- app_assoc; auto.
  Qed.

  Lemma mapping_of_fkarg : forall m, m <> [] -> NoDup (map fst m) -> mapping_of (fkarg_of m) = Some m.
  Proof.
    intros m H1 H2. destruct m as [| [n x] [| p m]]; [congruence | reflexivity |].
    unfold fkarg_of, mapping_of. f_equal. apply dict_of_distinct.
    now apply (keys_distinct_NoDup String.eqb String.eqb_eq).
  Qed.

  Lemma nested_ops_map {V} (mk : string -> string -> V -> op) : forall d,
    nested_ops mk d = map (fun kv => mk (fst (fst kv)) (snd (fst kv)) (snd kv)) (flat d).
  Proof.
    intros d. unfold nested_ops, flat. rewrite map_flat_map. apply flat_map_ext_in. intros [t l] _. simpl.
    now rewrite map_map.
  Qed.

  Lemma flat_dget2 {V} : forall (d : list (string * list (string * V))) k v, wf2 d ->
    In (k, v) (flat d) -> dget2 d (fst k) (snd k) = Some v.
  Proof. intros d [t x] v Hw H. apply flat_In in H. now apply wf2_declared. Qed.

  (** *** What [create_from_full_schema] accepts *)

  Record good_schema (s : fschema) : Prop := mkGood {
    gs_decl : decl_ok (s_tables s) = true;
    gs_defaults : good_defaults (s_tables s) (s_defaults s);
    gs_types : good_types (s_tables s) (s_types s);
    gs_fks : good_factory_fks (s_tables s) (s_fks s);
    gs_maps : forall k, In k (s_fks s) -> fk_map k <> [];
    gs_params : good_params parses (s_tables s) (s_types s) (s_params s);
    gs_names : forall n d, In (n, d) (s_params s) -> exists nm, n = VStr nm;
    gs_flags : good_flag (s_flag s) = true /\ good_xlsx (s_xlsx s) = true /\ good_dup (s_dup s) = true /\
               good_auto (s_auto s) = true;
    gs_tips : wf2 (s_tips s) /\ forall t x tip, dget2 (s_tips s) t x = Some tip -> tip_ok (s_tables s) t x tip
  }.

  Definition base (d : list (string * tdecl)) (g : factory) : Prop := f_decl g = d /\ f_used g = false.

  Lemma exec_fks : forall d l f, base d f -> good_factory_fks d l -> (forall k, In k l -> fk_map k <> []) ->
    f_fks f = [] ->
    exec f (map (fun k => OAddFk (fk_native k) (fk_foreign k) (fkarg_of (fk_map k))) l) = Some (with_fks f l).
  Proof.
    intros d l f Hb [Hn Hk] Hm Hf.
    destruct (exec_map (fun k => OAddFk (fk_native k) (fk_foreign k) (fkarg_of (fk_map k)))
                (fun g k => with_fks g (sadd fk_eqb (f_fks g) k)) (base d) l f Hb) as [E _].
    - intros g k Hin [Hd Hu]. split; [| split; auto].
      destruct (Hk _ Hin) as ((nts & A) & (xts & B) & C & D). unfold base in *. subst d.
      destruct (plain_table g _ _ A) as [A1 A2]. destruct (plain_table g _ _ B) as [B1 B2].
      cbn [Factory.step]. unfold add_fk. rewrite Hu, A1, A2, B1, B2. simpl negb. cbn [andb].
      rewrite mapping_of_fkarg; auto.
      assert (forallb (fun p => has_field g (fk_native k) (fst p) && has_field g (fk_foreign k) (snd p)) (fk_map k)
              = true) as ->.
      { apply forallb_forall. intros p Hp. destruct (D p Hp) as [D1 D2]. apply has_field_iff in D1, D2.
        now rewrite D1, D2. }
      destruct k; reflexivity.
    - rewrite E, fold_with_fks, Hf, sadd_all; auto.
  Qed.

  Lemma exec_types : forall d tys f, base d f -> good_types d tys -> f_params f = [] ->
    exec f (nested_ops (fun t x dt => OSetType t x (args_of dt)) tys) =
    Some (with_types f (set_all (f_types f) (flat tys))).
  Proof.
    intros d tys f Hb [Hw Ht] Hp. rewrite nested_ops_map.
    destruct (exec_map (fun kv => OSetType (fst (fst kv)) (snd (fst kv)) (args_of (snd kv)))
      (fun g kv => with_types g (dset2 (f_types g) (fst (fst kv)) (snd (fst kv)) (snd kv)))
      (fun g => base d g /\ f_params g = []) (flat tys) f) as [E _]; auto.
    - intros g [[t x] dt] Hin [[Hd Hu] Hpg]. split; [| split; [split |]; auto].
      apply flat_dget2 in Hin; auto. simpl in *. apply Ht in Hin as [Hf Hc].
      pose proof Hf as (ts & Hts & _). subst d. destruct (plain_table g _ _ Hts) as [A1 A2].
      apply has_field_iff in Hf. cbn [Factory.step]. unfold set_data_type.
      rewrite Hu, A1, A2, Hf, Hpg, Hc. simpl Nat.eqb. now rewrite andb_false_r.
    - rewrite E. now rewrite fold_with_types.
  Qed.

  Lemma exec_defaults : forall d dv f, base d f -> good_defaults d dv ->
    exec f (nested_ops OSetDefault dv) = Some (with_defaults f (set_all (f_defaults f) (flat dv))).
  Proof.
    intros d dv f Hb [Hw Ht]. rewrite nested_ops_map.
    destruct (exec_map (fun kv => OSetDefault (fst (fst kv)) (snd (fst kv)) (snd kv))
      (fun g kv => with_defaults g (dset2 (f_defaults g) (fst (fst kv)) (snd (fst kv)) (snd kv)))
      (base d) (flat dv) f) as [E _]; auto.
    - intros g [[t x] v] Hin [Hd Hu]. split; [| split; auto].
      apply flat_dget2 in Hin; auto. simpl in *. apply Ht in Hin as [Hf Hc].
      pose proof Hf as (ts & Hts & _). subst d. destruct (plain_table g _ _ Hts) as [A1 A2].
      apply has_field_iff in Hf. cbn [Factory.step]. unfold set_default. now rewrite Hu, A1, Hf, Hc.
    - rewrite E. now rewrite fold_with_defaults.
  Qed.

  Lemma exec_params : forall d ps f, base d f -> good_params parses d (f_types f) ps -> f_params f = [] ->
    exec f (map param_op ps) = Some (with_params f ps).
  Proof.
    intros d ps f Hb (Hk & Hh & Hc) Hp.
    destruct (exec_map param_op
      (fun g p => with_params g (dset pyeq (f_params g) (fst p) (snd p)))
      (fun g => base d g /\ f_types g = f_types f) ps f) as [E _]; auto.
    - intros g [n [odt v]] Hin [[Hd Hu] Ht]. split; [| split; [split |]; auto].
      assert (ps <> []) as Hne by (intros E; rewrite E in Hin; destruct Hin).
      apply Hh in Hne. rewrite <- Ht, <- Hd in Hne. pose proof Hne as (p & x & Hts & _).
      apply params_table_ok_iff in Hne. destruct (plain_table g _ _ Hts) as [A1 _].
      unfold param_op. cbn [fst snd]. destruct odt as [dt |]; cbn [Factory.step]; unfold add_parameter; rewrite A1, Hne, Hu; simpl.
      + destruct (Hc _ _ _ Hin) as [E1 E2]. rewrite E1, E2. reflexivity.
      + reflexivity.
    - rewrite E, fold_with_params, Hp. do 2 f_equal. now apply dict_of_distinct.
  Qed.

  Lemma exec_flags : forall f a b c e, good_flag a = true -> good_xlsx b = true -> good_dup c = true ->
    good_auto e = true -> exec f [OFlag a; OXlsx b; ODup c; OAuto e] = Some (with_flags f a b c e).
  Proof. intros f a b c e H1 H2 H3 H4. cbn [Factory.exec Factory.step]. rewrite H1, H2, H3, H4. reflexivity. Qed.

  Lemma exec_tips : forall d tips f, base d f -> wf2 tips ->
    (forall t x s, dget2 tips t x = Some s -> tip_ok d t x s) -> f_tips f = [] ->
    exec f (nested_ops OTip tips) = Some (with_tips f (flat tips)).
  Proof.
    intros d tips f Hb Hw Ht Hf. rewrite nested_ops_map.
    destruct (exec_map (fun kv => OTip (fst (fst kv)) (snd (fst kv)) (snd kv))
      (fun g kv => with_tips g (dset tf_eqb (f_tips g) (fst kv) (snd kv)))
      (base d) (flat tips) f) as [E _]; auto.
    - intros g [[t x] s] Hin [Hd Hu]. split; [| split; auto].
      apply flat_dget2 in Hin; auto. simpl in *. apply Ht in Hin as (A & B & C). subst d.
      apply is_table_iff in A. cbn [Factory.step]. unfold set_tip. rewrite A. apply String.eqb_neq in C. rewrite C.
      destruct B as [-> | B]; [reflexivity |]. apply has_field_iff in B. rewrite B, orb_true_r. reflexivity.
    - rewrite E, fold_with_tips, Hf. do 2 f_equal. apply dict_of_distinct.
      apply (keys_distinct_NoDup tf_eqb tf_eqb_eq). now apply flat_NoDup.
  Qed.

  (** *** The factory built from an acceptable schema *)

  Theorem create_ok : forall s, good_schema s -> exists g, create parses s = Some g /\
    reachable parses g /\ f_decl g = s_tables s /\ f_fks g = s_fks s /\ f_params g = s_params s /\
    (forall t x, shown_default g t x = match dget2 (s_defaults s) t x with
                                       | Some v => Some v
                                       | None => dget2 (zero_defaults (s_tables s)) t x
                                       end) /\
    (forall t x, shown_type g t x = dget2 (s_types s) t x) /\
    (forall t x, shown_tip g t x = dget2 (s_tips s) t x) /\
    f_flag g = s_flag s /\ f_xlsx g = s_xlsx s /\ f_dup g = s_dup s /\ f_auto g = s_auto s /\
    f_preds g = [] /\ f_gens g = [] /\ f_links g = false /\ f_used g = false.
  Proof.
    intros s [Hdecl Hdef Htys Hfks Hmaps Hpar Hnames (Hf1 & Hf2 & Hf3 & Hf4) [Htw Htips]].
    assert (param_names_ok s = true) as Hpn.
    { apply forallb_forall. intros [n d] Hin. destruct (Hnames _ _ Hin) as [nm ->]. reflexivity. }
    set (g := mkF (s_tables s) (set_all (zero_defaults (s_tables s)) (flat (s_defaults s)))
                (set_all [] (flat (s_types s))) [] (s_params s) (flat (s_tips s)) [] (s_fks s) false
                (s_flag s) (s_xlsx s) (s_dup s) (s_auto s) false).
    assert (create parses s = Some g) as Hc.
    { unfold create. rewrite Hpn. unfold init. rewrite Hdecl. unfold create_ops.
      rewrite exec_app, (exec_fks (s_tables s)); auto; [| now split].
      rewrite exec_app, (exec_types (s_tables s)); auto; [| now split].
      rewrite exec_app, (exec_defaults (s_tables s)); auto; [| now split].
      rewrite exec_app, (exec_params (s_tables s)); auto; [| now split |].
      - rewrite exec_app, exec_flags; auto.
        rewrite (exec_tips (s_tables s)); auto. now split.
      - destruct Hpar as (A & B & C). split; [exact A | split; [| exact C]].
        intros Hne. destruct (B Hne) as (p & x & H1 & H2). exists p, x. split; auto.
        cbn [f_types with_defaults with_types with_fks].
        rewrite set_all_flat by (apply Htys). rewrite H2. reflexivity. }
    exists g. split; auto. split.
    - exists (s_tables s). unfold create in Hc. rewrite Hpn in Hc.
      destruct (init (s_tables s)) as [f0 |] eqn:E0; [| discriminate].
      exists f0, (create_ops s). split; auto. now apply exec_run.
    - unfold g, shown_default, shown_type, shown_tip; cbn.
      split; [reflexivity |]. split; [reflexivity |]. split; [reflexivity |].
      split; [intros t x; apply set_all_flat; apply Hdef |].
      split.
      { intros t x. rewrite set_all_flat by (apply Htys). destruct (dget2 (s_types s) t x); reflexivity. }
      split; [| repeat split; reflexivity].
      intros t x. rewrite <- flat_get by auto. symmetry.
      apply (last_bind_distinct tf_eqb tf_eqb_sym tf_eqb_trans).
      apply (keys_distinct_NoDup tf_eqb tf_eqb_eq). now apply flat_NoDup.
  Qed.

  (** *** The schema of a reachable factory *)

  Lemma friendly_tips_set_all : forall l, friendly_tips l = set_all [] l.
  Proof. reflexivity. Qed.

  Lemma friendly_tips_get : forall l t x, NoDup (map fst l) ->
    dget2 (friendly_tips l) t x = dget tf_eqb l (t, x).
  Proof.
    intros l t x H. rewrite friendly_tips_set_all, set_all_get.
    rewrite (last_bind_distinct tf_eqb tf_eqb_sym tf_eqb_trans)
      by (now apply (keys_distinct_NoDup tf_eqb tf_eqb_eq)).
    destruct (dget tf_eqb l (t, x)); reflexivity.
  Qed.

  (** The invariants only look tables up. *)
  Definition same_lookups (d d' : list (string * tdecl)) : Prop := forall t, decl_of d' t = decl_of d t.

  Lemma field_of_same : forall d d' t x, same_lookups d d' -> field_of d t x -> field_of d' t x.
  Proof. intros d d' t x H (ts & H1 & H2). exists ts. rewrite H. auto. Qed.

  Lemma good_defaults_same : forall d d' v, same_lookups d d' -> good_defaults d v -> good_defaults d' v.
  Proof.
    intros d d' v H [H1 H2]. split; auto. intros t x w Hw. apply H2 in Hw as [A B]. split; auto.
    eapply field_of_same; eauto.
  Qed.

  Lemma good_types_same : forall d d' v, same_lookups d d' -> good_types d v -> good_types d' v.
  Proof.
    intros d d' v H [H1 H2]. split; auto. intros t x w Hw. apply H2 in Hw as [A B]. split; auto.
    eapply field_of_same; eauto.
  Qed.

  Lemma fk_ok_same : forall d d' k, same_lookups d d' -> fk_ok d k -> fk_ok d' k.
  Proof.
    intros d d' k H (A & B & C & D). split; [| split; [| split]]; auto.
    - now rewrite H.
    - now rewrite H.
    - intros p Hp. apply D in Hp as [D1 D2]. split; eapply field_of_same; eauto.
  Qed.

  Lemma good_fks_same : forall d d' k, same_lookups d d' -> good_factory_fks d k -> good_factory_fks d' k.
  Proof. intros d d' l H [H1 H2]. split; auto. intros k Hk. eapply fk_ok_same; eauto. Qed.

  Lemma good_params_same : forall d d' tys p, same_lookups d d' -> good_params parses d tys p ->
    good_params parses d' tys p.
  Proof.
    intros d d' tys p H (A & B & C). split; [auto | split; auto]. intros Hne.
    destruct (B Hne) as (q & x & H1 & H2). exists q, x. split; auto. now rewrite H.
  Qed.

  Lemma tip_ok_same : forall d d' t x s, same_lookups d d' -> tip_ok d t x s -> tip_ok d' t x s.
  Proof.
    intros d d' t x s H (A & B & C). split; [now rewrite H | split; auto].
    destruct B as [B | B]; auto. right. eapply field_of_same; eauto.
  Qed.

  Definition string_params (f : factory) : Prop := forall n d, In (n, d) (f_params f) -> exists s, n = VStr s.
  Definition no_empty_fk (f : factory) : Prop := forall k, In k (f_fks f) -> fk_map k <> [].

  Lemma schema_good : forall f tables, inv parses f -> string_params f -> no_empty_fk f ->
    Permutation (f_decl f) tables -> good_schema (schema_in_order f tables).
  Proof.
    intros f tables H Hs Hm Hp.
    assert (same_lookups (f_decl f) tables) as Hl.
    { intros t. apply decl_of_perm; auto. apply decl_ok_nodup. apply (inv_decl _ _ H). }
    destruct H. constructor; cbn; auto.
    - eapply decl_ok_perm; eauto.
    - eapply good_defaults_same; eauto.
    - eapply good_types_same; eauto.
    - eapply good_fks_same; eauto.
    - eapply good_params_same; eauto.
    - destruct inv_tips as [Hn Ht]. split.
      + apply (set_all_wf2 (f_tips f) []). apply wf2_nil.
      + intros t x s Hg. rewrite friendly_tips_get in Hg by auto.
        eapply tip_ok_same; eauto. apply Ht. apply dget_In in Hg as ([t' x'] & E & Hin).
        apply tf_eqb_eq in E. injection E as -> ->. exact Hin.
  Qed.

  Lemma zero_defaults_same : forall d d' t x, decl_ok d = true -> decl_ok d' = true -> same_lookups d d' ->
    dget2 (zero_defaults d') t x = dget2 (zero_defaults d) t x.
  Proof.
    intros d d' t x Hd Hd' Hl. destruct (data_field_dec d t x) as [H | H].
    - rewrite (proj1 (zero_defaults_get d t x Hd) H). apply (zero_defaults_get d' t x Hd').
      destruct H as (ts & A & B). exists ts. split; auto. now rewrite Hl.
    - rewrite (proj2 (zero_defaults_get d t x Hd) H). apply (zero_defaults_get d' t x Hd').
      intros (ts & A & B). apply H. exists ts. split; auto. now rewrite <- Hl.
  Qed.

  (** The defaults of a reachable factory cover all data fields, so the zeros
      of the new factory never show. *)
  Lemma defaults_cover : forall f t x, inv parses f ->
    match shown_default f t x with Some v => Some v | None => dget2 (zero_defaults (f_decl f)) t x end =
    shown_default f t x.
  Proof.
    intros f t x H. destruct (shown_default f t x) as [v |] eqn:E; auto.
    apply (zero_defaults_get (f_decl f) t x (inv_decl _ _ H)).
    intros Hd. now apply (inv_full _ _ H) in Hd.
  Qed.
End Exec.
