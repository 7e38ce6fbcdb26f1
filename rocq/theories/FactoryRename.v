(** * Renaming a column: the theorem behind the last part of C21. *)
From Coq Require Import ZArith Bool List String Ascii Arith Lia Permutation.
From Verif Require Import PyVal PyValFacts PyDict PyDictFacts PyStr ListFacts TypeDict TypeDictFacts Data
  FindTypes FindTypesFacts FK FKFacts ImpliedFacts WfCheck GraphFacts Factory FactoryFacts FactoryMore FactoryClone
  FactoryEdit FactoryColumns.
Import ListNotations.
Local Open Scope string_scope.
Local Open Scope list_scope.

Lemma remove_absent : forall l x, ~ In x l -> remove string_dec x l = l.
Proof. intros. now apply notin_remove. Qed.

Lemma map_renamed_absent : forall x y l, ~ In x l -> map (renamed x y) l = l.
Proof.
  intros x y l H. induction l as [| z l IH]; simpl; auto. simpl in H.
  rewrite IH by tauto. unfold renamed. destruct (string_dec z x); [| auto]. subst. tauto.
Qed.

Lemma insert_renamed : forall l x y, NoDup l -> In x l ->
  firstn (index_of x l) (remove string_dec x l) ++ y :: skipn (index_of x l) (remove string_dec x l) =
  map (renamed x y) l.
Proof.
  induction l as [| z l IH]; intros x y Hn Hx; [destruct Hx |]. inversion Hn; subst.
  cbn [index_of remove map]. destruct (string_dec x z) as [-> | Hne].
  - rewrite String.eqb_refl. rewrite remove_absent by auto. cbn [firstn skipn app].
    rewrite map_renamed_absent by auto. unfold renamed. destruct (string_dec z z); congruence.
  - destruct Hx as [-> | Hx]; [congruence |].
    assert (String.eqb z x = false) as -> by (apply String.eqb_neq; congruence).
    cbn [firstn skipn app]. rewrite IH by auto. unfold renamed at 2. destruct (string_dec z x); congruence.
Qed.

Lemma index_of_le : forall l x, In x l -> NoDup l -> (index_of x l <= List.length (remove string_dec x l))%nat.
Proof.
  induction l as [| z l IH]; intros x Hx Hn; [destruct Hx |]. inversion Hn; subst. cbn [index_of remove].
  destruct (string_dec x z) as [-> | Hne].
  - rewrite String.eqb_refl. lia.
  - destruct Hx as [-> | Hx]; [congruence |].
    assert (String.eqb z x = false) as -> by (apply String.eqb_neq; congruence). simpl. specialize (IH x Hx H2). lia.
Qed.

Lemma in_remove_str : forall l x z, In z (remove string_dec x l) <-> In z l /\ z <> x.
Proof.
  intros l x z. split.
  - apply in_remove.
  - intros [H1 H2]. now apply in_in_remove.
Qed.

Section Rename.
  Variable parses : value -> bool.
  Notation inv := (inv parses).

  Lemma step_type_ok : forall h t y dt, f_used h = false -> field_of (f_decl h) t y ->
    safe_creator (args_of dt) = Some dt -> (t = "parameters" -> f_params h = []) ->
    step parses h (OSetType t y (args_of dt)) = (with_types h (dset2 (f_types h) t y dt), false).
  Proof.
    intros h t y dt Hu Hy Hc Hp. cbn [step]. unfold set_data_type. pose proof Hy as (ts & Hts & _).
    destruct (plain_table h _ _ Hts) as [A1 A2]. apply has_field_iff in Hy. rewrite Hu, A1, A2, Hy, Hc.
    assert (String.eqb t "parameters" && has_data_field h t y && negb (Nat.eqb (List.length (f_params h)) 0) = false) as ->.
    { destruct (String.eqb t "parameters") eqn:E; auto. apply String.eqb_eq in E. rewrite (Hp E). simpl. apply andb_false_r. }
    reflexivity.
  Qed.

  Lemma step_default_ok : forall h t y v, f_used h = false -> field_of (f_decl h) t y -> acceptable_default v = true ->
    step parses h (OSetDefault t y v) = (with_defaults h (dset2 (f_defaults h) t y v), false).
  Proof.
    intros h t y v Hu Hy Hc. cbn [step]. unfold set_default. pose proof Hy as (ts & Hts & _).
    destruct (plain_table h _ _ Hts) as [A1 A2]. apply has_field_iff in Hy. now rewrite Hu, A1, Hy, Hc.
  Qed.

  Lemma step_tip_ok : forall h t y s, field_of (f_decl h) t y -> s <> "" ->
    step parses h (OTip t y s) = (with_tips h (dset tf_eqb (f_tips h) (t, y) s), false).
  Proof.
    intros h t y s Hy Hs. cbn [step]. unfold set_tip. pose proof Hy as (ts & Hts & _).
    destruct (plain_table h _ _ Hts) as [A1 A2]. apply has_field_iff in Hy. rewrite A1, Hy, orb_true_r.
    apply String.eqb_neq in Hs. rewrite Hs. reflexivity.
  Qed.

  Lemma exec_add_fks : forall l f, f_used f = false ->
    (forall k, In k l -> fk_ok (f_decl f) k) -> (forall k, In k l -> fk_map k <> []) ->
    exec parses f (map (fun k => OAddFk (fk_native k) (fk_foreign k) (fkarg_of (fk_map k))) l) =
    Some (with_fks f (fold_left (sadd fk_eqb) l (f_fks f))).
  Proof.
    intros l f Hu Hk Hm.
    destruct (exec_map parses (fun k => OAddFk (fk_native k) (fk_foreign k) (fkarg_of (fk_map k)))
                (fun g k => with_fks g (sadd fk_eqb (f_fks g) k)) (base (f_decl f)) l f) as [E _].
    - split; auto.
    - intros g k Hin [Hd Hu']. split; [| split; auto].
      destruct (Hk _ Hin) as ((nts & A) & (xts & B) & C & D). rewrite <- Hd in *.
      destruct (plain_table g _ _ A) as [A1 A2]. destruct (plain_table g _ _ B) as [B1 B2].
      cbn [Factory.step]. unfold add_fk. rewrite Hu', A1, A2, B1, B2. simpl negb. cbn [andb].
      rewrite mapping_of_fkarg; auto.
      assert (forallb (fun p => has_field g (fk_native k) (fst p) && has_field g (fk_foreign k) (snd p)) (fk_map k)
              = true) as ->.
      { apply forallb_forall. intros p Hp. destruct (D p Hp) as [D1 D2]. apply has_field_iff in D1, D2.
        now rewrite D1, D2. }
      destruct k; reflexivity.
    - now rewrite E, fold_with_fks.
  Qed.

  Lemma fold_sadd_In : forall l acc k, In k (fold_left (sadd fk_eqb) l acc) <-> In k acc \/ In k l.
  Proof.
    induction l as [| a l IH]; intros acc k; simpl; [tauto |]. rewrite IH. split.
    - intros [H | H]; auto. apply sadd_In in H as [H | ->]; auto.
    - intros [H | [-> | H]]; auto; left.
      + now apply sadd_keeps.
      + destruct (sadd_has fk_eqb (fun a => proj2 (fk_eqb_eq a a) eq_refl) acc k) as (k' & H1 & H2).
        apply fk_eqb_eq in H2. now subst.
  Qed.

  Definition uses_b (t x : string) (k : fk) : bool :=
    existsb (fun p => tf_eqb (t, x) (fk_native k, fst p) || tf_eqb (t, x) (fk_foreign k, snd p)) (fk_map k).

  Lemma uses_b_iff : forall t x k, uses_b t x k = true <-> fk_uses k t x.
  Proof.
    intros t x k. unfold uses_b, fk_uses. rewrite existsb_exists. split; intros (p & H1 & H2); exists p; split; auto.
    - apply orb_true_iff in H2 as [H2 | H2]; apply tf_eqb_eq in H2; injection H2 as -> ->; auto.
    - apply orb_true_iff. destruct H2 as [[<- <-] | [<- <-]]; [left | right]; apply tf_eqb_refl.
  Qed.

  Lemma rename_in_eq : forall t x y t' x',
    rename_in t x y t' x' = if string_dec t' t then renamed x y x' else x'.
  Proof.
    intros t x y t' x'. unfold rename_in, renamed. destruct (string_dec t' t) as [-> | H].
    - rewrite String.eqb_refl. destruct (string_dec x' x) as [-> | H].
      + now rewrite String.eqb_refl.
      + apply String.eqb_neq in H. now rewrite H.
    - apply String.eqb_neq in H. now rewrite H.
  Qed.

  Lemma rename_fk_ops_map : forall t x y fks,
    rename_fk_ops t x y fks =
    map (fun k => OAddFk (fk_native k) (fk_foreign k) (fkarg_of (fk_map k)))
        (map (renamed_fk t x y) (filter (uses_b t x) fks)).
  Proof.
    intros t x y fks. rewrite map_map. induction fks as [| k fks IH]; simpl; auto. unfold rename_fk_ops in *.
    cbn [flat_map filter]. rewrite IH. fold (uses_b t x k). destruct (uses_b t x k); simpl; auto.
    do 3 f_equal. apply map_ext. intros p. now rewrite !rename_in_eq.
  Qed.

  Lemma renamed_fk_unused : forall t x y k, ~ fk_uses k t x -> renamed_fk t x y k = k.
  Proof.
    intros t x y [n fo m] H. unfold renamed_fk. cbn [fk_native fk_foreign fk_map] in *. f_equal.
    rewrite <- (map_id m) at 2. apply map_ext_in. intros [a b] Hin. cbn [fst snd]. unfold renamed.
    f_equal.
    - destruct (string_dec n t); auto. destruct (string_dec a x); auto. exfalso. apply H. exists (a, b).
      cbn. auto.
    - destruct (string_dec fo t); auto. destruct (string_dec b x); auto. exfalso. apply H. exists (a, b).
      cbn. auto.
  Qed.

  Theorem rename_ok : forall f tables tables' t x y ts, inv f -> clonable f -> no_generic f ->
    Permutation (f_decl f) tables ->
    (forall g, clone_remove_column parses f tables t x = Some g -> Permutation (f_decl g) tables') ->
    decl_of (f_decl f) t = Some (Fields ts) -> In x (tpk ts ++ tdf ts) -> ~ In y (tpk ts ++ tdf ts) ->
    (forall z, In z (tpk ts ++ tdf ts) -> z <> x -> lower z <> lower y) ->
    (exists z, In z (tpk ts ++ tdf ts) /\ z <> x) -> (t = "parameters" -> f_params f = []) ->
    x <> "" -> y <> "" ->
    exists h, clone_rename_column parses f tables tables' t x y = Some h /\
      decl_of (f_decl h) t = Some (Fields (mkT (map (renamed x y) (tpk ts)) (map (renamed x y) (tdf ts)))) /\
      (forall t', t' <> t -> decl_of (f_decl h) t' = decl_of (f_decl f) t') /\
      (forall t' x', (t', x') <> (t, x) -> (t', x') <> (t, y) -> shown_default h t' x' = shown_default f t' x' /\
         shown_type h t' x' = shown_type f t' x' /\ shown_tip h t' x' = shown_tip f t' x') /\
      (shown_default h t y = shown_default f t x /\ shown_type h t y = shown_type f t x /\
       shown_tip h t y = shown_tip f t x) /\
      (shown_default h t x = None /\ shown_type h t x = None /\ shown_tip h t x = None) /\
      (forall k, In k (f_fks h) <-> exists k0, In k0 (f_fks f) /\ k = renamed_fk t x y k0) /\ same_rest f h.
  Proof.
    intros f tables tables' t x y ts Hf Hcl Hng Hperm Hperm' Ht Hx Hy Hlow Hz Hpar Hxe Hye.
    destruct (remove_ok parses f tables t x ts Hf Hcl Hng Hperm Ht Hx Hz Hpar)
      as (g & Eg & Rg & Ug & Dg & Dog & Og & Dx & Tx & Tipx & Fg & (Pg & PRg & GNg & Lg & Sg)).
    pose proof (reachable_inv _ _ Rg) as Ig. destruct Hcl as (Hsp & Hme & Hoff).
    set (ts' := mkT (remove string_dec x (tpk ts)) (remove string_dec x (tdf ts))) in *.
    set (kf := mem_str x (tpk ts)). set (i := index_of x (if kf then tpk ts else tdf ts)).
    pose proof (decl_ok_fields _ _ _ (inv_decl _ _ Hf) Ht) as [Hnd _].
    assert (In x (if kf then tpk ts else tdf ts)) as Hxc.
    { unfold kf. destruct (mem_str x (tpk ts)) eqn:E; [now apply mem_str_iff |].
      apply mem_str_false in E. apply in_app_iff in Hx as [Hx | Hx]; tauto. }
    assert (forall z, In z (tpk ts' ++ tdf ts') <-> In z (tpk ts ++ tdf ts) /\ z <> x) as Hin'.
    { intros z. unfold ts'. cbn [tpk tdf]. rewrite !in_app_iff, !in_remove_str. tauto. }
    destruct (add_ok parses g tables' t y kf (Some i) ts' i Ig) as (h & Eh & Rh & Uh & Dh & Doh & Oh & Dy & Th & Fh & (Ph & PRh & GNh & Lh & Sh)).
    { split; [| split].
      - intros n d Hn. rewrite Pg in Hn. eauto.
      - intros k Hk. apply Fg in Hk as [Hk _]. auto.
      - intros t' n Hg'. rewrite PRg. apply Hoff. now rewrite <- GNg. }
    { intros t' E. destruct (string_dec t' t) as [-> | Hne]; [congruence |]. rewrite Dog in E by auto. now apply Hng in E. }
    { now apply Hperm'. }
    { exact Dg. }
    { intros Hc. apply in_map_iff in Hc as (z & E & Hc). apply Hin' in Hc as [Hc1 Hc2]. now apply (Hlow z). }
    { reflexivity. }
    { unfold i, ts'. assert (NoDup (tpk ts)) by (now apply NoDup_app_l in Hnd).
      assert (NoDup (tdf ts)) by (now apply NoDup_app_r in Hnd).
      destruct kf; cbn [tpk tdf]; now apply index_of_le. }
    { intros Ek Hc. rewrite GNg in Hc. destruct (inv_gens _ _ Hf _ Hc) as (ts0 & A & B). rewrite Ht in A. injection A as <-.
      unfold kf in Ek. rewrite B in Ek. discriminate. }
    { intros E. rewrite Pg. auto. }
    pose proof (reachable_inv _ _ Rh) as Ih.
    assert (Dh' : decl_of (f_decl h) t = Some (Fields (mkT (map (renamed x y) (tpk ts)) (map (renamed x y) (tdf ts))))).
    { rewrite Dh. do 2 f_equal. unfold with_field, ts', i. cbn [tpk tdf].
      pose proof (NoDup_app_l _ _ Hnd) as N1. pose proof (NoDup_app_r _ _ Hnd) as N2. destruct kf eqn:Ek.
      - rewrite insert_renamed by auto. f_equal.
        assert (~ In x (tdf ts)) as Hxd by (intros Hc; eapply NoDup_app_disj; eauto).
        now rewrite remove_absent, map_renamed_absent.
      - rewrite insert_renamed by auto. f_equal.
        assert (~ In x (tpk ts)) as Hxd by (intros Hc; eapply NoDup_app_disj; eauto).
        now rewrite remove_absent, map_renamed_absent. }
    assert (field_of (f_decl h) t y) as Hfy.
    { eexists. split; [exact Dh' |]. cbn [tpk tdf]. rewrite <- map_app. apply in_map_iff. exists x. split; auto.
      unfold renamed. destruct (string_dec x x); congruence. }
    assert (forall z, field_of (f_decl f) t z -> field_of (f_decl h) t (renamed x y z)) as Hft.
    { intros z (ts0 & A & B). rewrite Ht in A. injection A as <-. eexists. split; [exact Dh' |]. cbn [tpk tdf].
      rewrite <- map_app. now apply in_map. }
    assert (forall t', t' <> t -> decl_of (f_decl h) t' = decl_of (f_decl f) t') as Hdo.
    { intros t' Hne. rewrite Doh, Dog; auto. }
    assert (forall t' z, t' <> t -> field_of (f_decl f) t' z -> field_of (f_decl h) t' z) as Hfo.
    { intros t' z Hne (ts0 & A & B). exists ts0. split; auto. now rewrite Hdo. }
    (* phase 1: the type *)
    set (h1 := match dget2 (f_types f) t x with Some dt => with_types h (dset2 (f_types h) t y dt) | None => h end).
    assert (exec parses h (match dget2 (f_types f) t x with Some dt => [OSetType t y (args_of dt)] | None => [] end) = Some h1) as E1.
    { unfold h1. destruct (dget2 (f_types f) t x) as [dt |] eqn:E; [| reflexivity].
      unfold exec. rewrite step_type_ok; auto.
      - apply (inv_types _ _ Hf) in E. tauto.
      - intros Et. rewrite Ph, Pg. auto. }
    set (h2 := match dget2 (f_defaults f) t x with Some v => with_defaults h1 (dset2 (f_defaults h1) t y v) | None => h1 end).
    assert (f_used h1 = false /\ f_decl h1 = f_decl h /\ f_defaults h1 = f_defaults h /\ f_tips h1 = f_tips h /\ f_fks h1 = f_fks h /\
            f_params h1 = f_params h /\ f_preds h1 = f_preds h /\ f_gens h1 = f_gens h /\ f_links h1 = f_links h /\ same_settings h h1)
      as (U1 & D1 & V1 & T1 & K1 & P1 & PR1 & GN1 & L1 & S1).
    { unfold h1. destruct (dget2 (f_types f) t x); cbn; repeat split; auto. }
    assert (exec parses h1 (match dget2 (f_defaults f) t x with Some v => [OSetDefault t y v] | None => [] end) = Some h2) as E2.
    { unfold h2. destruct (dget2 (f_defaults f) t x) as [v |] eqn:E; [| reflexivity].
      unfold exec. rewrite step_default_ok; auto.
      - now rewrite D1.
      - apply (inv_defaults _ _ Hf) in E. tauto. }
    assert (f_used h2 = false /\ f_decl h2 = f_decl h /\ f_types h2 = f_types h1 /\ f_tips h2 = f_tips h /\ f_fks h2 = f_fks h /\
            f_params h2 = f_params h /\ f_preds h2 = f_preds h /\ f_gens h2 = f_gens h /\ f_links h2 = f_links h /\ same_settings h h2)
      as (U2 & D2 & Y2 & T2 & K2 & P2 & PR2 & GN2 & L2 & S2).
    { unfold h2. destruct (dget2 (f_defaults f) t x); cbn; repeat split; auto; try apply S1. }
    set (l := map (renamed_fk t x y) (filter (uses_b t x) (f_fks f))).
    assert (forall k0, In k0 (f_fks f) -> fk_ok (f_decl h) (renamed_fk t x y k0)) as Hrok.
    { intros k0 Hk0. destruct (inv_fks _ _ Hf) as [_ Hok]. destruct (Hok _ Hk0) as ((nts & A) & (fts & B) & C & D).
      assert (forall t', (exists ts0, decl_of (f_decl f) t' = Some (Fields ts0)) -> exists ts0, decl_of (f_decl h) t' = Some (Fields ts0)) as Hpl.
      { intros t' (ts0 & E). destruct (string_dec t' t) as [-> | Hne]; [eauto |]. rewrite Hdo by auto. eauto. }
      split; [| split; [| split]]; cbn [fk_native fk_foreign fk_map renamed_fk]; eauto.
      - rewrite map_map. cbn [fst]. destruct (string_dec (fk_native k0) t) as [En | En].
        + assert (forall p, In p (fk_map k0) -> fst p <> y) as Hny.
          { intros p Hp E. apply D in Hp as [(ts0 & A' & B') _]. rewrite En, Ht in A'. injection A' as <-. congruence. }
          clear -C Hny. induction (fk_map k0) as [| [a b] m IH]; simpl in *; [constructor |].
          inversion C; subst. constructor; [| apply IH; auto].
          intros Hc. apply in_map_iff in Hc as ([a' b'] & E & Hc). cbn [fst] in E. unfold renamed in E.
          assert (a' = a) as ->.
          { destruct (string_dec a' x) as [e | ne], (string_dec a x) as [e' | ne'].
            - congruence.
            - exfalso. apply (Hny (a, b)); [now left | cbn; congruence].
            - exfalso. apply (Hny (a', b')); [now right | cbn; congruence].
            - exact E. }
          apply H1. apply in_map_iff. exists (a, b'). auto.
        + exact C.
      - intros q Hq. apply in_map_iff in Hq as (p & <- & Hp). destruct (D _ Hp) as [D1' D2']. cbn [fst snd]. split.
        + destruct (string_dec (fk_native k0) t) as [En | En]; [rewrite En in *; auto | auto].
        + destruct (string_dec (fk_foreign k0) t) as [En | En]; [rewrite En in *; auto | auto]. }
    set (h3 := with_fks h2 (fold_left (sadd fk_eqb) l (f_fks h2))).
    assert (exec parses h2 (rename_fk_ops t x y (f_fks f)) = Some h3) as E3.
    { rewrite rename_fk_ops_map. fold l. apply exec_add_fks; auto.
      - intros k Hk. unfold l in Hk. apply in_map_iff in Hk as (k0 & <- & Hk). apply filter_In in Hk as [Hk _].
        rewrite D2. auto.
      - intros k Hk. unfold l in Hk. apply in_map_iff in Hk as (k0 & <- & Hk). apply filter_In in Hk as [Hk _].
        cbn. intros E. apply map_eq_nil in E. now apply (Hme k0). }
    set (h4 := match dget tf_eqb (f_tips f) (t, x) with Some s => with_tips h3 (dset tf_eqb (f_tips h3) (t, y) s) | None => h3 end).
    assert (exec parses h3 (if String.eqb x "" then [] else match dget tf_eqb (f_tips f) (t, x) with Some s => [OTip t y s] | None => [] end) = Some h4) as E4.
    { apply String.eqb_neq in Hxe. rewrite Hxe. unfold h4.
      destruct (dget tf_eqb (f_tips f) (t, x)) as [s |] eqn:E; [| reflexivity]. unfold exec. rewrite step_tip_ok; auto.
      - unfold h3. cbn. now rewrite D2.
      - destruct (inv_tips _ _ Hf) as [_ Ht2]. apply dget_In in E as ([a b] & E & Hin).
        apply tf_eqb_eq in E. injection E as -> ->. apply Ht2 in Hin. apply Hin. }
    assert (f_decl h4 = f_decl h /\ f_types h4 = f_types h1 /\ f_defaults h4 = f_defaults h2 /\
            f_fks h4 = fold_left (sadd fk_eqb) l (f_fks h) /\
            f_params h4 = f_params h /\ f_preds h4 = f_preds h /\ f_gens h4 = f_gens h /\ f_links h4 = f_links h /\ same_settings h h4)
      as (D4 & Y4 & V4 & K4 & P4 & PR4 & GN4 & L4 & S4).
    { unfold h4, h3. destruct (dget tf_eqb (f_tips f) (t, x)); cbn; rewrite K2; repeat split; auto; apply S2. }
    exists h4. split.
    { unfold clone_rename_column. pose proof Ht as Ht'. apply table_of_iff in Ht'. rewrite Ht'.
      assert (mem_str x (tpk ts ++ tdf ts) = true) as -> by (now apply mem_str_iff).
      assert (mem_str y (tpk ts ++ tdf ts) = false) as -> by (now apply mem_str_false). cbn [negb andb].
      rewrite Eg. fold kf. fold i. rewrite Eh. rewrite exec_app, E1. rewrite exec_app, E2. rewrite exec_app, E3. exact E4. }
    assert ((t, y) <> (t, x)) as Hxy by (intros E; injection E as E; apply Hy; congruence).
    assert (tf_eqb (t, y) (t, x) = false) as Hxyb
      by (destruct (tf_eqb (t, y) (t, x)) eqn:E; auto; now apply tf_eqb_eq in E).
    assert (forall t' x', (t', x') <> (t, y) -> String.eqb t t' && String.eqb y x' = false) as Hnb.
    { intros t' x' Hne. destruct (String.eqb t t' && String.eqb y x') eqn:E; auto.
      apply andb_true_iff in E as [A B]. apply String.eqb_eq in A, B. congruence. }
    assert (forall t' x', shown_type h4 t' x' = if tf_eqb (t, y) (t', x') then
              match shown_type f t x with Some dt => Some dt | None => shown_type h t' x' end else shown_type h t' x') as Ft.
    { intros t' x'. unfold shown_type at 1. rewrite Y4. unfold h1. unfold shown_type at 1.
      destruct (dget2 (f_types f) t x) as [dt |] eqn:E; cbn [f_types with_types].
      - rewrite dget2_dset2. unfold tf_eqb. cbn [fst snd]. destruct (_ && _); reflexivity.
      - fold (shown_type h t' x'). now destruct (tf_eqb (t, y) (t', x')). }
    assert (forall t' x', shown_default h4 t' x' = if tf_eqb (t, y) (t', x') then
              match shown_default f t x with Some dt => Some dt | None => shown_default h t' x' end else shown_default h t' x') as Fd.
    { intros t' x'. unfold shown_default at 1. rewrite V4. unfold h2. unfold shown_default at 1.
      destruct (dget2 (f_defaults f) t x) as [dt |] eqn:E; cbn [f_defaults with_defaults].
      - rewrite dget2_dset2, V1. unfold tf_eqb. cbn [fst snd]. destruct (_ && _); reflexivity.
      - rewrite V1. fold (shown_default h t' x'). now destruct (tf_eqb (t, y) (t', x')). }
    assert (forall t' x', shown_tip h4 t' x' = if tf_eqb (t, y) (t', x') then
              match shown_tip f t x with Some dt => Some dt | None => shown_tip h t' x' end else shown_tip h t' x') as Fti.
    { intros t' x'. unfold shown_tip at 1. unfold h4. unfold shown_tip at 1.
      destruct (dget tf_eqb (f_tips f) (t, x)) as [s |] eqn:E; cbn [f_tips with_tips].
      - rewrite tget_dset. unfold h3; cbn [f_tips with_fks]. rewrite T2. destruct (tf_eqb (t, y) (t', x')); reflexivity.
      - unfold h3; cbn [f_tips with_fks]. rewrite T2. fold (shown_tip h t' x'). now destruct (tf_eqb (t, y) (t', x')). }
    assert (forall t' x', (t', x') <> (t, y) -> tf_eqb (t, y) (t', x') = false) as Hb2.
    { intros t' x' Hne. destruct (tf_eqb (t, y) (t', x')) eqn:E; auto. apply tf_eqb_eq in E. congruence. }
    assert (~ field_of (f_decl f) t y) as Hnfy.
    { intros (ts0 & A & B). rewrite Ht in A. injection A as <-. contradiction. }
    assert (shown_type f t y = None) as Ny1.
    { destruct (shown_type f t y) eqn:E; auto. apply (inv_types _ _ Hf) in E. tauto. }
    assert (shown_tip f t y = None) as Ny2.
    { destruct (shown_tip f t y) eqn:E; auto. exfalso. destruct (inv_tips _ _ Hf) as [_ Ht2].
      apply dget_In in E as ([a b] & E & Hin). apply tf_eqb_eq in E. injection E as -> ->.
      apply Ht2 in Hin as (_ & [B | B] & _); [congruence | contradiction]. }
    split; [now rewrite D4 |]. split; [intros t' Hne; rewrite D4; now apply Hdo |]. split; [| split; [| split; [| split]]].
    - intros t' x' N1 N2. rewrite Ft, Fd, Fti, Hb2 by auto. destruct (Th t' x') as [Th1 Th2].
      destruct (Og _ _ N1) as (O1 & O2 & O3). rewrite Oh, Th1, Th2 by auto. auto.
    - rewrite Ft, Fd, Fti, tf_eqb_refl. destruct (Th t y) as [Th1 Th2]. destruct (Og _ _ Hxy) as (O1 & O2 & O3).
      rewrite Th1, Th2, O2, O3, Ny1, Ny2. split; [| split].
      + destruct (shown_default f t x) as [v |] eqn:E; auto. rewrite Dy.
        destruct kf eqn:Ek; auto. exfalso. assert (data_field_of (f_decl f) t x) as Hdf.
        { exists ts. split; auto. }
        now apply (inv_full _ _ Hf) in Hdf.
      + now destruct (shown_type f t x).
      + now destruct (shown_tip f t x).
    - assert ((t, x) <> (t, y)) as Hyx by congruence.
      rewrite Ft, Fd, Fti, Hb2 by auto. destruct (Th t x) as [Th1 Th2]. rewrite Oh, Th1, Th2 by auto. auto.
    - intros k. rewrite K4, fold_sadd_In, Fh, Fg. split.
      + intros [[Hk Hnu] | Hk].
        * exists k. split; auto. now rewrite renamed_fk_unused.
        * unfold l in Hk. apply in_map_iff in Hk as (k0 & <- & Hk). apply filter_In in Hk as [Hk _]. eauto.
      + intros (k0 & Hk0 & ->). destruct (uses_b t x k0) eqn:Eu.
        * right. unfold l. apply in_map. apply filter_In. auto.
        * left. assert (~ fk_uses k0 t x) as Hnu by (rewrite <- uses_b_iff; congruence).
          rewrite renamed_fk_unused; auto.
    - split; [congruence |]. split.
      { intros t' n. unfold shown_pred. rewrite PR4. fold (shown_pred h t' n). rewrite PRh. apply PRg. }
      split; [congruence |]. split; [congruence |].
      destruct S4 as (A1 & A2 & A3 & A4), Sh as (B1 & B2 & B3 & B4), Sg as (C1 & C2 & C3 & C4).
      repeat split; congruence.
  Qed.
End Rename.
