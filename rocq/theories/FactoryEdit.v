(** * Clones and column edits: the theorems behind C20 and C21. *)
From Coq Require Import ZArith Bool List String Ascii Arith Lia Permutation.
From Verif Require Import PyVal PyValFacts PyDict PyDictFacts PyStr ListFacts TypeDict TypeDictFacts Data
  FindTypes FindTypesFacts FK FKFacts ImpliedFacts WfCheck GraphFacts Factory FactoryFacts FactoryMore FactoryClone.
Import ListNotations.
Local Open Scope string_scope.
Local Open Scope list_scope.

(** ** Specification vocabulary *)

(** Nothing but tables, fields and field settings may differ. *)
Definition same_rest (f g : factory) : Prop :=
  f_params g = f_params f /\ (forall t n, shown_pred g t n = shown_pred f t n) /\ f_gens g = f_gens f /\
  f_links g = f_links f /\ same_settings f g.

(** The conditions under which a factory can be cloned at all. *)
Definition clonable (f : factory) : Prop := string_params f /\ no_empty_fk f /\ preds_off_gens f.

(** The foreign key mentions the field. *)
Definition fk_uses (k : fk) (t x : string) : Prop :=
  exists p, In p (fk_map k) /\ ((fk_native k = t /\ fst p = x) \/ (fk_foreign k = t /\ snd p = x)).

Definition renamed (x y z : string) : string := if string_dec z x then y else z.

Definition renamed_fk (t x y : string) (k : fk) : fk :=
  mkFk (fk_native k) (fk_foreign k)
    (map (fun p => ((if string_dec (fk_native k) t then renamed x y (fst p) else fst p),
                    (if string_dec (fk_foreign k) t then renamed x y (snd p) else snd p))) (fk_map k)).

(** ** Small facts *)

Lemma strip_decl_nil : forall t d, strip_decl t [] d = d.
Proof.
  assert (forall t l, strip_fields t [] l = l) as H.
  { intros t l. unfold strip_fields. induction l as [| x l IH]; cbn [filter mem_tf existsb negb]; auto. f_equal. exact IH. }
  intros t [| [pk df]]; simpl; auto. now rewrite !H.
Qed.

Lemma option_map_id {A} (h : A -> A) : (forall a, h a = a) -> forall o, option_map h o = o.
Proof. intros H [a |]; simpl; auto. now rewrite H. Qed.

Section Edits.
  Variable parses : value -> bool.
  Notation good_schema := (good_schema parses).
  Notation inv := (inv parses).

  Lemma reachable_exec : forall f g ops, reachable parses f -> exec parses f ops = Some g -> reachable parses g.
  Proof.
    intros f g ops (d & f0 & ops0 & Hi & ->) H. apply exec_run in H. exists d, f0, (ops0 ++ ops).
    split; auto. unfold run in *. now rewrite fold_left_app.
  Qed.

  Lemma all_plain_ok : forall f tables, no_generic f -> NoDup (map fst (f_decl f)) -> Permutation (f_decl f) tables ->
    all_plain (schema_in_order f tables) = true.
  Proof.
    intros f tables Hg Hn Hp. apply forallb_forall. intros [t [| ts]] Hin; auto. exfalso.
    cbn in Hin. eapply Permutation_in in Hin; [| apply Permutation_sym; exact Hp].
    apply (Hg t). now apply decl_of_In.
  Qed.

  Lemma restrict_eq : forall s keep rm, s_tables s <> [] -> keep <> [] ->
    (forall t, In t keep -> decl_of (s_tables s) t <> None) -> all_plain s = true ->
    (forall t x, In (t, x) match rm with Some l => l | None => [] end -> field_of (s_tables s) t x) ->
    restrict s (Some keep) rm = Some (restricted keep match rm with Some l => l | None => [] end s).
  Proof.
    intros s keep rm Hne Hk Hin Hpl Hrm. unfold restrict.
    destruct keep as [| t0 keep]; [congruence |]. set (K := t0 :: keep) in *. cbv zeta.
    rewrite Hpl.
    assert (Nat.eqb (List.length (s_tables s)) 0 = false) as ->
      by (apply Nat.eqb_neq; destruct (s_tables s); simpl; congruence).
    assert (forallb (fun t => dmem String.eqb (s_tables s) t) K = true) as ->.
    { apply forallb_forall. intros t Ht. specialize (Hin t Ht). unfold decl_of in Hin. unfold dmem.
      destruct (dget String.eqb (s_tables s) t); congruence. }
    assert (forallb (fun p => match dget String.eqb (s_tables s) (fst p) with
                             | Some (Fields ts) => mem_str (snd p) (tpk ts ++ tdf ts)
                             | _ => false end) match rm with Some l => l | None => [] end = true) as ->.
    { apply forallb_forall. intros [t x] Hp. apply Hrm in Hp as (ts & H1 & H2). unfold decl_of in H1.
      cbn [fst snd]. rewrite H1. now apply mem_str_iff. }
    reflexivity.
  Qed.

  (** *** C20 *)

  Theorem clone_ok : forall f tables keep, inv f -> clonable f -> no_generic f ->
    Permutation (f_decl f) tables -> keep <> [] -> (forall t, In t keep -> in_tables f t) ->
    (forall t, In t (f_gens f) -> In t keep) ->
    exists g, clone parses f tables (Some keep) = Some g /\
      (forall t, In t keep -> decl_of (f_decl g) t = decl_of (f_decl f) t /\
         (forall x, shown_default g t x = shown_default f t x /\ shown_type g t x = shown_type f t x /\
                    shown_tip g t x = shown_tip f t x) /\
         (forall n, shown_pred g t n = shown_pred f t n)) /\
      (forall t, ~ In t keep -> decl_of (f_decl g) t = None /\
         (forall x, shown_default g t x = None /\ shown_type g t x = None /\ shown_tip g t x = None) /\
         (forall n, shown_pred g t n = None)) /\
      (forall k, In k (f_fks g) <-> In k (f_fks f) /\ In (fk_native k) keep /\ In (fk_foreign k) keep) /\
      (In "parameters" keep -> f_params g = f_params f) /\ (~ In "parameters" keep -> f_params g = []) /\
      f_gens g = f_gens f /\ f_links g = f_links f /\ same_settings f g.
  Proof.
    intros f tables keep Hf (Hsp & Hme & Hoff) Hng Hperm Hne Hin Hgk.
    pose proof (inv_decl _ _ Hf) as Hdok. pose proof (decl_ok_nodup _ Hdok) as Hnd.
    assert (same_lookups (f_decl f) tables) as Hl by (intros t; now apply decl_of_perm).
    pose proof (schema_good parses f tables Hf Hsp Hme Hperm) as Hgood.
    set (s := schema_in_order f tables) in *.
    assert (restrict s (Some keep) None = Some (restricted keep [] s)) as Hr.
    { rewrite restrict_eq; auto.
      - cbn. intros E. subst tables. destruct keep as [| t ?]; [congruence |].
        assert (in_tables f t) as Ht by (apply Hin; now left). unfold in_tables in Ht. rewrite <- Hl in Ht.
        now apply Ht.
      - intros t Ht. cbn. rewrite Hl. now apply Hin.
      - now apply all_plain_ok.
      - intros t x []. }
    assert (good_schema (restricted keep [] s)) as Hgr.
    { apply restricted_good; auto.
      intros t ts Ht Hts. cbn in Hts. rewrite Hl in Hts. destruct (decl_ok_fields _ _ _ Hdok Hts) as [_ Hx].
      destruct (tpk ts ++ tdf ts) as [| x l]; [congruence |]. exists x. simpl. auto. }
    destruct (create_ok parses _ Hgr) as (g & Hc & Hreach & Gd & Gf & Gp & Gdv & Gty & Gti & G1 & G2 & G3 & G4 & Gpr & Gg & Gl & Gu).
    cbn [s_tables s_fks s_params s_defaults s_types s_tips s_flag s_xlsx s_dup s_auto restricted s schema_in_order] in *.
    assert (forall t, decl_of (f_decl g) t = if mem_str t keep then decl_of (f_decl f) t else None) as Gdec.
    { intros t. rewrite Gd, restrict_decl_of, Hl. destruct (mem_str t keep); auto.
      apply option_map_id. intros a. apply strip_decl_nil. }
    destruct (finish_ok parses f g (Some keep) Hf Gu Gpr) as (h & He & (Hd' & Hdv' & Hty' & Hpa' & Hti' & Hfk' & Hu' & Hse') & Hge & Hli & Hpd).
    { intros t Ht. destruct (inv_gens _ _ Hf t Ht) as (ts & A & B). exists ts. split; auto.
      rewrite Gdec. apply Hgk in Ht. apply mem_str_iff in Ht. now rewrite Ht. }
    { exact Hoff. }
    { intros t n Hk Hp. unfold keep_pred in Hk. rewrite Gdec, Hk.
      apply mem_str_iff in Hk. pose proof (Hin _ Hk) as Ht. unfold in_tables in Ht.
      destruct (decl_of (f_decl f) t) as [[| ts] |] eqn:E; [now apply Hng in E | eauto | congruence]. }
    exists h. split.
    { unfold clone, clone_with. fold s. rewrite Hr, Hc. exact He. }
    assert (forall t x, shown_default h t x = if mem_str t keep then shown_default f t x else None) as Hdef.
    { intros t x. unfold shown_default. rewrite Hdv'. fold (shown_default g t x). rewrite Gdv, strip_nested_get.
      cbn [mem_tf existsb negb]. rewrite andb_true_r. destruct (mem_str t keep) eqn:Ek.
      - fold (shown_default f t x). rewrite <- (defaults_cover parses f t x Hf) at 2.
        destruct (shown_default f t x); auto. rewrite <- Gd.
        assert (decl_ok (f_decl g) = true) as Hdg by (apply reachable_inv in Hreach; apply (inv_decl _ _ Hreach)).
        assert (data_field_of (f_decl g) t x <-> data_field_of (f_decl f) t x) as Hiff
          by (unfold data_field_of; rewrite Gdec, Ek; tauto).
        destruct (data_field_dec (f_decl f) t x) as [Hx | Hx].
        + rewrite (proj1 (zero_defaults_get _ t x Hdok) Hx). apply (zero_defaults_get _ t x Hdg). tauto.
        + rewrite (proj2 (zero_defaults_get _ t x Hdok) Hx). apply (zero_defaults_get _ t x Hdg). tauto.
      - rewrite <- Gd.
        assert (decl_ok (f_decl g) = true) as Hdg by (apply reachable_inv in Hreach; apply (inv_decl _ _ Hreach)).
        apply (zero_defaults_get _ t x Hdg). intros (ts & A & B). rewrite Gdec, Ek in A. discriminate. }
    assert (forall t x, shown_type h t x = if mem_str t keep then shown_type f t x else None) as Htype.
    { intros t x. unfold shown_type. rewrite Hty'. fold (shown_type g t x). rewrite Gty, strip_nested_get.
      cbn [mem_tf existsb negb]. now rewrite andb_true_r. }
    assert (forall t x, shown_tip h t x = if mem_str t keep then shown_tip f t x else None) as Htip.
    { intros t x. unfold shown_tip. rewrite Hti'. fold (shown_tip g t x). rewrite Gti, strip_nested_get.
      cbn [mem_tf existsb negb]. rewrite andb_true_r. rewrite friendly_tips_get by (apply (inv_tips _ _ Hf)). reflexivity. }
    split; [| split; [| split; [| split; [| split; [| split; [| split]]]]]].
    - intros t Ht. apply mem_str_iff in Ht. rewrite Hd', Gdec. split; [now rewrite Ht |]. split.
      + intros x. rewrite Hdef, Htype, Htip, Ht. auto.
      + intros n. rewrite Hpd. unfold keep_pred. now rewrite Ht.
    - intros t Ht. apply mem_str_false in Ht. rewrite Hd', Gdec. split; [now rewrite Ht |]. split.
      + intros x. rewrite Hdef, Htype, Htip, Ht. auto.
      + intros n. rewrite Hpd. unfold keep_pred. now rewrite Ht.
    - intros k. rewrite Hfk', Gf, filter_In, keep_fk_iff. cbn. tauto.
    - intros Hp. apply mem_str_iff in Hp. now rewrite Hpa', Gp, Hp.
    - intros Hp. apply mem_str_false in Hp. now rewrite Hpa', Gp, Hp.
    - exact Hge.
    - rewrite Hli, Gl. reflexivity.
    - destruct Hse' as (A & B & C & D). repeat split; congruence.
  Qed.

  (** Without restrictions, generic tables are no obstacle. *)
  Theorem clone_all_ok : forall f tables, inv f -> clonable f -> Permutation (f_decl f) tables ->
    exists g, clone parses f tables None = Some g /\
      (forall t, decl_of (f_decl g) t = decl_of (f_decl f) t) /\
      (forall t x, shown_default g t x = shown_default f t x /\ shown_type g t x = shown_type f t x /\
                   shown_tip g t x = shown_tip f t x) /\
      (forall k, In k (f_fks g) <-> In k (f_fks f)) /\ same_rest f g.
  Proof.
    intros f tables Hf (Hsp & Hme & Hoff) Hperm.
    pose proof (inv_decl _ _ Hf) as Hdok. pose proof (decl_ok_nodup _ Hdok) as Hnd.
    assert (same_lookups (f_decl f) tables) as Hl by (intros t; now apply decl_of_perm).
    pose proof (schema_good parses f tables Hf Hsp Hme Hperm) as Hgood.
    destruct (create_ok parses _ Hgood) as (g & Hc & Hreach & Gd & Gf & Gp & Gdv & Gty & Gti & G1 & G2 & G3 & G4 & Gpr & Gg & Gl & Gu).
    cbn [s_tables s_fks s_params s_defaults s_types s_tips s_flag s_xlsx s_dup s_auto schema_in_order] in *.
    destruct (finish_ok parses f g None Hf Gu Gpr) as (h & He & (Hd' & Hdv' & Hty' & Hpa' & Hti' & Hfk' & Hu' & Hse') & Hge & Hli & Hpd).
    { intros t Ht. destruct (inv_gens _ _ Hf t Ht) as (ts & A & B). exists ts. split; auto. now rewrite Gd, Hl. }
    { exact Hoff. }
    { intros t n _ Hp. rewrite Gd, Hl. unfold shown_pred, dget_or in Hp.
      destruct (dget String.eqb (f_preds f) t) as [l |] eqn:E; [| now cbn in Hp].
      destruct (inv_preds _ _ Hf) as [P1 P2]. apply dget_In_NoDup in E; auto. now apply P2 in E. }
    exists h. split.
    { unfold clone, clone_with, restrict. rewrite Hc. exact He. }
    split; [intros t; now rewrite Hd', Gd |]. split.
    - intros t x. split; [| split].
      + unfold shown_default. rewrite Hdv'. fold (shown_default g t x). rewrite Gdv.
        fold (shown_default f t x). rewrite <- (defaults_cover parses f t x Hf) at 2.
        destruct (shown_default f t x); auto. apply zero_defaults_same; auto. eapply decl_ok_perm; eauto.
      + unfold shown_type. rewrite Hty'. fold (shown_type g t x). now rewrite Gty.
      + unfold shown_tip. rewrite Hti'. fold (shown_tip g t x). rewrite Gti.
        now rewrite friendly_tips_get by (apply (inv_tips _ _ Hf)).
    - split; [intros k; now rewrite Hfk', Gf |].
      destruct Hse' as (A & B & C & D). split; [congruence |]. split; [exact Hpd |].
      split; [exact Hge |]. split; [rewrite Hli, Gl; reflexivity |]. repeat split; congruence.
  Qed.
End Edits.
