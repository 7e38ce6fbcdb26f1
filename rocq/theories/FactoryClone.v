(** * Clones and column edits: correctness under the conditions the code needs. *)
From Coq Require Import ZArith Bool List String Ascii Arith Lia Permutation.
From Verif Require Import PyVal PyValFacts PyDict PyDictFacts PyStr ListFacts TypeDict TypeDictFacts Data
  FindTypes FindTypesFacts FK FKFacts ImpliedFacts WfCheck GraphFacts Factory FactoryFacts FactoryMore.
Import ListNotations.
Local Open Scope string_scope.
Local Open Scope list_scope.

(** ** Specification vocabulary *)

Definition no_generic (f : factory) : Prop := forall t, decl_of (f_decl f) t <> Some Generic.
Definition in_tables (f : factory) (t : string) : Prop := decl_of (f_decl f) t <> None.

(** No row predicate sits on a generator table. *)
Definition preds_off_gens (f : factory) : Prop :=
  forall t n, In t (f_gens f) -> shown_pred f t n = None.

(** Everything the properties speak about. *)
Definition same_settings (f g : factory) : Prop :=
  f_flag g = f_flag f /\ f_xlsx g = f_xlsx f /\ f_dup g = f_dup f /\ f_auto g = f_auto f.

(** ** Filtered schemas *)

Lemma mem_tf_iff : forall p l, mem_tf p l = true <-> In p l.
Proof.
  intros p l. unfold mem_tf. rewrite existsb_exists. split.
  - intros (q & H & E). apply tf_eqb_eq in E. now subst.
  - intros H. exists p. split; auto. apply tf_eqb_refl.
Qed.

Lemma mem_tf_false : forall p l, mem_tf p l = false <-> ~ In p l.
Proof. intros p l. rewrite <- not_true_iff_false, mem_tf_iff. tauto. Qed.

Lemma dget_filter_keys {V} (h : string -> bool) : forall (d : list (string * V)) t,
  dget String.eqb (filter (fun kv => h (fst kv)) d) t = if h t then dget String.eqb d t else None.
Proof.
  induction d as [| [k v] d IH]; intros t; simpl.
  - now destruct (h t).
  - destruct (h k) eqn:E; simpl.
    + destruct (String.eqb k t) eqn:Ek; auto. apply String.eqb_eq in Ek. subst. now rewrite E.
    + rewrite IH. destruct (String.eqb k t) eqn:Ek; auto. apply String.eqb_eq in Ek. subst. now rewrite E.
Qed.

Lemma dget_map_snd {V W} (h : string -> V -> W) : forall (d : list (string * V)) t,
  dget String.eqb (map (fun kv => (fst kv, h (fst kv) (snd kv))) d) t = option_map (h t) (dget String.eqb d t).
Proof.
  induction d as [| [k v] d IH]; intros t; simpl; auto.
  destruct (String.eqb k t) eqn:E; auto. apply String.eqb_eq in E. now subst.
Qed.

Lemma strip_nested_get {V} : forall keep rm (d : list (string * list (string * V))) t x,
  dget2 (strip_nested keep rm d) t x =
  if mem_str t keep && negb (mem_tf (t, x) rm) then dget2 d t x else None.
Proof.
  intros keep rm d t x. unfold dget2, strip_nested, dget_or.
  rewrite (dget_map_snd (fun t' l => filter (fun xv => negb (mem_tf (t', fst xv) rm)) l)).
  rewrite (dget_filter_keys (fun k => mem_str k keep)).
  destruct (mem_str t keep); simpl; auto.
  destruct (dget String.eqb d t) as [l |]; simpl.
  - now rewrite (dget_filter_keys (fun k => negb (mem_tf (t, k) rm))).
  - now destruct (negb (mem_tf (t, x) rm)).
Qed.

Lemma map_fst_strip {V} : forall keep rm (d : list (string * list (string * V))),
  map fst (strip_nested keep rm d) = map fst (filter (fun tl => mem_str (fst tl) keep) d).
Proof. intros. unfold strip_nested. now rewrite map_map. Qed.

Lemma strip_nested_wf2 {V} : forall keep rm (d : list (string * list (string * V))), wf2 d -> wf2 (strip_nested keep rm d).
Proof.
  intros keep rm d [H1 H2]. split.
  - rewrite map_fst_strip. now apply filter_NoDup_map.
  - intros t l Hin. unfold strip_nested in Hin. apply in_map_iff in Hin as ([t' l'] & E & Hin). simpl in E.
    injection E as <- <-. apply filter_In in Hin as [Hin _]. apply filter_NoDup_map. eauto.
Qed.

Definition restrict_tables (keep : list string) (rm : list (string * string)) (d : list (string * tdecl)) :=
  map (fun td => (fst td, strip_decl (fst td) rm (snd td))) (filter (fun td => mem_str (fst td) keep) d).

Lemma restrict_decl_of : forall keep rm d t,
  decl_of (restrict_tables keep rm d) t =
  if mem_str t keep then option_map (strip_decl t rm) (decl_of d t) else None.
Proof.
  intros. unfold restrict_tables, decl_of. rewrite (dget_map_snd (fun t' x => strip_decl t' rm x)).
  rewrite (dget_filter_keys (fun k => mem_str k keep)). now destruct (mem_str t keep).
Qed.

Lemma strip_fields_In : forall t rm l x, In x (strip_fields t rm l) <-> In x l /\ ~ In (t, x) rm.
Proof.
  intros. unfold strip_fields. rewrite filter_In, negb_true_iff, mem_tf_false. tauto.
Qed.

Lemma restrict_field_of : forall keep rm d t x,
  field_of (restrict_tables keep rm d) t x <-> In t keep /\ field_of d t x /\ ~ In (t, x) rm.
Proof.
  intros keep rm d t x. unfold field_of. rewrite restrict_decl_of.
  destruct (mem_str t keep) eqn:E.
  - apply mem_str_iff in E. split.
    + intros (ts & H1 & H2). destruct (decl_of d t) as [[| ts'] |]; try discriminate. simpl in H1.
      injection H1 as <-. cbn [tpk tdf] in H2. rewrite in_app_iff, !strip_fields_In in H2. split; auto. split; [| tauto].
      exists ts'. split; auto. rewrite in_app_iff. tauto.
    + intros (_ & (ts & H1 & H2) & H3). rewrite H1. simpl.
      eexists. split; [reflexivity |]. cbn [tpk tdf]. rewrite in_app_iff in *. rewrite !strip_fields_In. tauto.
  - apply mem_str_false in E. split; [intros (ts & H & _); discriminate | tauto].
Qed.

Lemma restrict_data_field_of : forall keep rm d t x,
  data_field_of (restrict_tables keep rm d) t x <-> In t keep /\ data_field_of d t x /\ ~ In (t, x) rm.
Proof.
  intros keep rm d t x. unfold data_field_of. rewrite restrict_decl_of.
  destruct (mem_str t keep) eqn:E.
  - apply mem_str_iff in E. split.
    + intros (ts & H1 & H2). destruct (decl_of d t) as [[| ts'] |]; try discriminate. simpl in H1.
      injection H1 as <-. cbn [tpk tdf] in H2. rewrite !strip_fields_In in H2. split; auto. split; [| tauto].
      exists ts'. tauto.
    + intros (_ & (ts & H1 & H2) & H3). rewrite H1. simpl.
      eexists. split; [reflexivity |]. cbn [tpk tdf]. rewrite !strip_fields_In. tauto.
  - apply mem_str_false in E. split; [intros (ts & H & _); discriminate | tauto].
Qed.

Lemma forallb_filter {A} (h q : A -> bool) : forall l, forallb h l = true -> forallb h (filter q l) = true.
Proof. intros l H. rewrite forallb_forall in *. intros x Hx. apply filter_In in Hx. apply H. tauto. Qed.

Lemma NoDup_map_filter {A B} (g : A -> B) (q : A -> bool) : forall l, NoDup (map g l) -> NoDup (map g (filter q l)).
Proof. intros. now apply filter_NoDup_map. Qed.

Lemma strip_decl_ok : forall t rm d,
  decl_table_ok d = true ->
  (forall ts, d = Fields ts -> exists x, In x (tpk ts ++ tdf ts) /\ ~ In (t, x) rm) ->
  decl_table_ok (strip_decl t rm d) = true.
Proof.
  intros t rm [| ts] H Hx; auto. simpl in *. repeat rewrite andb_true_iff in *.
  destruct H as [[H1 H2] H3]. apply distinct_b_iff in H2, H3.
  assert (strip_fields t rm (tpk ts) ++ strip_fields t rm (tdf ts) = strip_fields t rm (tpk ts ++ tdf ts)) as ->
    by (unfold strip_fields; symmetry; apply filter_app).
  split; [split |].
  - destruct (Hx _ eq_refl) as (x & Hin & Hn).
    assert (In x (strip_fields t rm (tpk ts ++ tdf ts))) as Hs by (now apply strip_fields_In).
    destruct (strip_fields t rm (tpk ts ++ tdf ts)); [destruct Hs | reflexivity].
  - apply distinct_b_iff. unfold strip_fields. now apply NoDup_filter.
  - apply distinct_b_iff. unfold strip_fields. now apply NoDup_map_filter.
Qed.

Lemma restrict_tables_ok : forall keep rm d, decl_ok d = true ->
  (forall t ts, In t keep -> decl_of d t = Some (Fields ts) -> exists x, In x (tpk ts ++ tdf ts) /\ ~ In (t, x) rm) ->
  decl_ok (restrict_tables keep rm d) = true.
Proof.
  intros keep rm d H Hx. pose proof (decl_ok_nodup d H) as Hnd. unfold decl_ok in *. repeat rewrite andb_true_iff in *.
  destruct H as [[[H1 H2] H3] H4]. rewrite distinct_b_iff in *. unfold restrict_tables.
  split; [split; [split |] |].
  - rewrite forallb_forall in *. intros td Htd. apply in_map_iff in Htd as ([t0 d0] & <- & Hin).
    apply filter_In in Hin as [Hin _]. apply (H1 _ Hin).
  - rewrite forallb_forall in *. intros td Htd. apply in_map_iff in Htd as ([t0 d0] & <- & Hin).
    apply filter_In in Hin as [Hin _]. apply (H2 _ Hin).
  - rewrite map_map. simpl. now apply NoDup_map_filter.
  - rewrite forallb_forall in *. intros td Htd. apply in_map_iff in Htd as ([t0 d0] & <- & Hin).
    apply filter_In in Hin as [Hin Hk]. simpl in *. apply mem_str_iff in Hk.
    apply strip_decl_ok; [apply (H4 _ Hin) |]. intros ts ->. apply Hx; auto. now apply decl_of_In.
Qed.

Definition restricted (keep : list string) (rm : list (string * string)) (s : fschema) : fschema :=
  mkS (restrict_tables keep rm (s_tables s)) (filter (keep_fk keep rm) (s_fks s))
      (strip_nested keep rm (s_defaults s)) (strip_nested keep rm (s_types s))
      (if mem_str "parameters" keep then s_params s else [])
      (s_flag s) (s_xlsx s) (s_dup s) (s_auto s) (strip_nested keep rm (s_tips s)).

Lemma keep_fk_iff : forall keep rm k, keep_fk keep rm k = true <->
  In (fk_native k) keep /\ In (fk_foreign k) keep /\
  forall p, In p (fk_map k) -> ~ In (fk_native k, fst p) rm /\ ~ In (fk_foreign k, snd p) rm.
Proof.
  intros. unfold keep_fk. rewrite !andb_true_iff, !mem_str_iff, forallb_forall. split.
  - intros [[H1 H2] H3]. split; [auto | split; auto]. intros p Hp. apply H3 in Hp.
    rewrite andb_true_iff, !negb_true_iff, !mem_tf_false in Hp. exact Hp.
  - intros (H1 & H2 & H3). split; auto. intros p Hp. apply H3 in Hp.
    now rewrite andb_true_iff, !negb_true_iff, !mem_tf_false.
Qed.

Section Clones.
  Variable parses : value -> bool.
  Notation good_schema := (good_schema parses).

  Lemma restricted_good : forall keep rm s, good_schema s ->
    (forall t ts, In t keep -> decl_of (s_tables s) t = Some (Fields ts) ->
       exists x, In x (tpk ts ++ tdf ts) /\ ~ In (t, x) rm) ->
    (s_params s <> [] -> forall x, ~ In ("parameters", x) rm) ->
    good_schema (restricted keep rm s).
  Proof.
    intros keep rm s [Hdecl [Hdw Hdef] [Htw Htys] [Hfn Hfks] Hmaps (Hp1 & Hp2 & Hp3) Hnames Hflags [Hsw Htips]] Hne Hpr.
    constructor; cbn [s_tables s_defaults s_types s_fks s_params s_flag s_xlsx s_dup s_auto s_tips restricted]; auto.
    - now apply restrict_tables_ok.
    - split; [now apply strip_nested_wf2 |]. intros t x v Hg. rewrite strip_nested_get in Hg.
      destruct (mem_str t keep) eqn:Ek; [| discriminate]. destruct (mem_tf (t, x) rm) eqn:Er; [discriminate |].
      simpl in Hg. apply Hdef in Hg as [A B]. split; auto. apply restrict_field_of.
      apply mem_str_iff in Ek. apply mem_tf_false in Er. auto.
    - split; [now apply strip_nested_wf2 |]. intros t x v Hg. rewrite strip_nested_get in Hg.
      destruct (mem_str t keep) eqn:Ek; [| discriminate]. destruct (mem_tf (t, x) rm) eqn:Er; [discriminate |].
      simpl in Hg. apply Htys in Hg as [A B]. split; auto. apply restrict_field_of.
      apply mem_str_iff in Ek. apply mem_tf_false in Er. auto.
    - split; [now apply NoDup_filter |]. intros k Hk. apply filter_In in Hk as [Hk Hkk].
      apply keep_fk_iff in Hkk as (K1 & K2 & K3). destruct (Hfks _ Hk) as ((nts & A) & (fts & B) & C & D).
      split; [| split; [| split]]; auto.
      + rewrite restrict_decl_of. apply mem_str_iff in K1. rewrite K1, A. simpl. eauto.
      + rewrite restrict_decl_of. apply mem_str_iff in K2. rewrite K2, B. simpl. eauto.
      + intros p Hp. destruct (D _ Hp), (K3 _ Hp). rewrite !restrict_field_of. tauto.
    - intros k Hk. apply filter_In in Hk as [Hk _]. auto.
    - destruct (mem_str "parameters" keep) eqn:Ek; [| split; [exact I | split; [congruence | intros n dt v []]]].
      split; [auto | split; auto]. intros Hn. destruct (Hp2 Hn) as (p & x & A & B). exists p, x. split.
      + rewrite restrict_decl_of, Ek, A. cbn [option_map strip_decl tpk tdf strip_fields filter].
        assert (mem_tf ("parameters", p) rm = false) as -> by (apply mem_tf_false; auto).
        assert (mem_tf ("parameters", x) rm = false) as -> by (apply mem_tf_false; auto). reflexivity.
      + rewrite strip_nested_get, B. now destruct (_ && _).
    - destruct (mem_str "parameters" keep); [auto | intros n d []].
    - split; [now apply strip_nested_wf2 |]. intros t x v Hg. rewrite strip_nested_get in Hg.
      destruct (mem_str t keep) eqn:Ek; [| discriminate]. destruct (mem_tf (t, x) rm) eqn:Er; [discriminate |].
      simpl in Hg. apply Htips in Hg as (A & B & C). split; [| split; auto].
      + rewrite restrict_decl_of, Ek. destruct (decl_of (s_tables s) t); [discriminate | congruence].
      + destruct B as [B | B]; auto. right. apply restrict_field_of.
        apply mem_str_iff in Ek. apply mem_tf_false in Er. auto.
  Qed.

  (** *** Row predicates *)

  Definition tn_eqb (a b : string * value) : bool := String.eqb (fst a) (fst b) && pyeq (snd a) (snd b).

  Lemma tn_eqb_sym : forall a b, tn_eqb a b = tn_eqb b a.
  Proof. intros. unfold tn_eqb. now rewrite String.eqb_sym, pyeq_sym. Qed.
  Lemma tn_eqb_refl : forall a, tn_eqb a a = true.
  Proof. intros. unfold tn_eqb. now rewrite String.eqb_refl, pyeq_refl. Qed.
  Lemma tn_eqb_trans : forall a b c, tn_eqb a b = true -> tn_eqb b c = true -> tn_eqb a c = true.
  Proof.
    intros a b c H1 H2. unfold tn_eqb in *. apply andb_true_iff in H1 as [A1 B1], H2 as [A2 B2].
    apply String.eqb_eq in A1, A2. rewrite A1, A2, String.eqb_refl. simpl. eapply pyeq_trans; eauto.
  Qed.

  Definition pset (ps : list (string * list (value * rpred))) (q : (string * value) * rpred) :=
    dset String.eqb ps (fst (fst q)) (dset pyeq (dget_or String.eqb ps (fst (fst q)) []) (snd (fst q)) (snd q)).
  Definition pget (ps : list (string * list (value * rpred))) (t : string) (n : value) :=
    dget pyeq (dget_or String.eqb ps t []) n.
  Definition pflat (h : string -> bool) (ps : list (string * list (value * rpred))) : list ((string * value) * rpred) :=
    flat_map (fun tl => if h (fst tl) then map (fun np => ((fst tl, fst np), snd np)) (snd tl) else []) ps.

  Lemma pget_pset : forall ps q t n, pget (pset ps q) t n = if tn_eqb (fst q) (t, n) then Some (snd q) else pget ps t n.
  Proof.
    intros ps [[t0 n0] p] t n. unfold pget, pset, tn_eqb. cbn [fst snd]. unfold dget_or at 1. rewrite sget_dset.
    destruct (String.eqb t0 t) eqn:Et; simpl.
    - apply String.eqb_eq in Et. subst. now rewrite pget_dset.
    - reflexivity.
  Qed.

  Lemma pget_fold : forall l ps t n,
    pget (fold_left pset l ps) t n = match last_bind tn_eqb l (t, n) with Some p => Some p | None => pget ps t n end.
  Proof.
    induction l as [| q l IH]; intros ps t n; simpl; auto.
    rewrite IH, pget_pset. destruct q as [k p]. cbn [fst snd]. destruct (last_bind tn_eqb l (t, n)); auto.
    destruct (tn_eqb k (t, n)); reflexivity.
  Qed.

  Lemma last_bind_app {V} : forall (a b : list ((string * value) * V)) k,
    last_bind tn_eqb (a ++ b) k = match last_bind tn_eqb b k with Some v => Some v | None => last_bind tn_eqb a k end.
  Proof.
    induction a as [| [k0 v0] a IH]; intros b k; simpl.
    - now destruct (last_bind tn_eqb b k).
    - rewrite IH. now destruct (last_bind tn_eqb b k).
  Qed.

  Lemma last_bind_tag : forall t l n,
    last_bind tn_eqb (map (fun np : value * rpred => ((t, fst np), snd np)) l) (t, n) = last_bind pyeq l n.
  Proof.
    intros t l n. induction l as [| [m p] l IH]; simpl; auto.
    rewrite IH. unfold tn_eqb. simpl. now rewrite String.eqb_refl.
  Qed.

  Lemma last_bind_none_tag : forall (l : list ((string * value) * rpred)) t n,
    (forall q, In q l -> fst (fst q) <> t) -> last_bind tn_eqb l (t, n) = None.
  Proof.
    induction l as [| [[t0 n0] p] l IH]; intros t n H; simpl; auto.
    rewrite IH by (intros q Hq; apply H; now right).
    unfold tn_eqb. simpl. specialize (H _ (or_introl eq_refl)). simpl in H.
    apply String.eqb_neq in H. now rewrite H.
  Qed.

  Lemma pflat_get : forall d h ps t n, good_preds d ps ->
    last_bind tn_eqb (pflat h ps) (t, n) = if h t then pget ps t n else None.
  Proof.
    intros d h ps t n [H1 H2]. unfold pget, dget_or.
    induction ps as [| [t0 l0] ps IH]; simpl in *.
    - now destruct (h t).
    - inversion H1; subst. rewrite last_bind_app.
      assert (forall q, In q (pflat h ps) -> fst (fst q) <> t0) as Hq.
      { intros q Hq E. apply H3. unfold pflat in Hq. apply in_flat_map in Hq as ([t1 l1] & Hin & Hq).
        simpl in Hq. destruct (h t1); [| destruct Hq]. apply in_map_iff in Hq as (np & <- & _). simpl in E. subst.
        apply in_map_iff. exists (t0, l1). auto. }
      destruct (String.eqb t0 t) eqn:Et.
      + apply String.eqb_eq in Et. subst t0. fold (pflat h ps). rewrite last_bind_none_tag by auto.
        destruct (h t) eqn:Eh; auto. rewrite last_bind_tag.
        apply (last_bind_distinct pyeq pyeq_sym pyeq_trans). apply (H2 t l0). auto.
      + fold (pflat h ps). rewrite IH by eauto.
        assert (last_bind tn_eqb (if h t0 then map (fun np : value * rpred => ((t0, fst np), snd np)) l0 else []) (t, n)
                = None) as ->.
        { destruct (h t0); auto. apply last_bind_none_tag. intros q Hq'.
          apply in_map_iff in Hq' as (np & <- & _). simpl. now apply String.eqb_neq. }
        now destruct (if h t then _ else None).
  Qed.

  Lemma fold_with_preds : forall l f,
    fold_left (fun g q => with_preds g (pset (f_preds g) q)) l f = with_preds f (fold_left pset l (f_preds f)).
  Proof. induction l as [| k l IH]; intros f; simpl; [destruct f; reflexivity |]. now rewrite IH. Qed.

  Definition keep_pred (keep : option (list string)) (t : string) : bool :=
    match keep with None => true | Some l => mem_str t l end.

  Lemma pred_ops_map : forall keep ps,
    pred_ops keep ps = map (fun q => OPred (fst (fst q)) (Some (snd q)) (snd (fst q))) (pflat (keep_pred keep) ps).
  Proof.
    intros keep ps. unfold pred_ops, pflat. rewrite map_flat_map. apply flat_map_ext_in. intros [t l] _.
    cbn [fst snd]. unfold keep_pred. destruct (match keep with None => true | Some l0 => mem_str t l0 end); auto.
    now rewrite map_map.
  Qed.

  Lemma step_gens_ok : forall g gs, f_used g = false -> good_gens (f_decl g) gs ->
    step parses g (OSetGens gs) = (with_gens g gs, false).
  Proof.
    intros g gs Hu Hg. cbn [step]. unfold set_gens. rewrite Hu. cbn [negb andb].
    assert (forallb (is_table g) gs = true) as ->.
    { apply forallb_forall. intros t Hin. destruct (Hg _ Hin) as (ts & E & _). now destruct (plain_table g _ _ E). }
    assert (forallb (fun t => negb (is_generic g t)) gs = true) as ->.
    { apply forallb_forall. intros t Hin. destruct (Hg _ Hin) as (ts & E & _).
      destruct (plain_table g _ _ E) as [_ ->]. reflexivity. }
    assert (forallb (fun t => match table_of g t with Some ts => Nat.eqb (List.length (tpk ts)) 0 | None => true end) gs
            = true) as ->.
    { apply forallb_forall. intros t Hin. destruct (Hg _ Hin) as (ts & E & Hp). apply table_of_iff in E.
      rewrite E, Hp. reflexivity. }
    reflexivity.
  Qed.

  (** *** The second half of [clone] *)
  Theorem finish_ok : forall f g keep, inv parses f -> f_used g = false -> f_preds g = [] ->
    good_gens (f_decl g) (f_gens f) -> preds_off_gens f ->
    (forall t n, keep_pred keep t = true -> shown_pred f t n <> None ->
       exists ts, decl_of (f_decl g) t = Some (Fields ts)) ->
    exists h, exec parses g (OSetGens (f_gens f) :: pred_ops keep (f_preds f) ++ (if f_links f then [OLinks] else []))
              = Some h /\
      (f_decl h = f_decl g /\ f_defaults h = f_defaults g /\ f_types h = f_types g /\ f_params h = f_params g /\
       f_tips h = f_tips g /\ f_fks h = f_fks g /\ f_used h = false /\ same_settings g h) /\
      f_gens h = f_gens f /\ f_links h = orb (f_links g) (f_links f) /\
      forall t n, shown_pred h t n = if keep_pred keep t then shown_pred f t n else None.
  Proof.
    intros f g keep Hf Hu Hp Hg Hoff Hdecl. pose proof (inv_preds _ _ Hf) as Hps.
    change (OSetGens (f_gens f) :: pred_ops keep (f_preds f) ++ (if f_links f then [OLinks] else []))
      with ([OSetGens (f_gens f)] ++ pred_ops keep (f_preds f) ++ (if f_links f then [OLinks] else [])).
    rewrite exec_app. unfold exec at 1. rewrite step_gens_ok by auto. rewrite exec_app, pred_ops_map.
    destruct (exec_map parses (fun q : (string * value) * rpred => OPred (fst (fst q)) (Some (snd q)) (snd (fst q)))
      (fun g q => with_preds g (pset (f_preds g) q))
      (fun h => f_decl h = f_decl g /\ f_used h = false /\ f_gens h = f_gens f)
      (pflat (keep_pred keep) (f_preds f)) (with_gens g (f_gens f))) as [E _].
    - auto.
    - intros h [[t n] p] Hin (Hd & Hu' & Hgn). split; [| auto].
      assert (keep_pred keep t = true /\ exists l, In (t, l) (f_preds f) /\ In (n, p) l) as [Hk (l & Hl & Hnp)].
      { unfold pflat in Hin. apply in_flat_map in Hin as ([t1 l1] & Hl & Hq). cbn [fst snd] in Hq.
        destruct (keep_pred keep t1) eqn:Ek; [| destruct Hq]. apply in_map_iff in Hq as ([n' p'] & E & Hq).
        cbn [fst snd] in E. injection E as -> -> ->. split; eauto. }
      destruct Hps as [Hn Hps]. destruct (Hps _ _ Hl) as (_ & Hkd & Hr). destruct (Hr _ _ Hnp) as [Hnn Hrs].
      assert (shown_pred f t n = Some p) as Hsp.
      { unfold shown_pred, dget_or. apply dget_In_NoDup in Hl; auto. rewrite Hl.
        apply (In_dget pyeq pyeq_refl); auto. }
      assert (mem_str t (f_gens f) = false) as Hng.
      { apply mem_str_false. intros Hc. specialize (Hoff t n Hc). congruence. }
      destruct (Hdecl t n Hk) as (ts & Hts); [congruence |]. rewrite <- Hd in Hts.
      destruct (plain_table h _ _ Hts) as [A1 A2].
      cbn [fst snd step]. unfold add_pred. rewrite Hu', A1, A2, Hgn, Hng. cbn [negb andb].
      apply mem_str_iff in Hrs. rewrite Hrs. unfold or_raise, pset. cbn [fst snd].
      destruct n; try reflexivity. congruence.
    - rewrite E, fold_with_preds. cbn [f_preds with_gens]. rewrite Hp.
      set (np := fold_left pset (pflat (keep_pred keep) (f_preds f)) []).
      assert (forall t n, dget pyeq (dget_or String.eqb np t []) n = if keep_pred keep t then shown_pred f t n else None) as Hnp.
      { intros t n. fold (pget np t n). unfold np. rewrite pget_fold, (pflat_get (f_decl f)) by auto.
        destruct (keep_pred keep t); auto. fold (shown_pred f t n). unfold pget. fold (shown_pred f t n).
        now destruct (shown_pred f t n). }
      destruct (f_links f) eqn:El; cbn [exec step].
      + exists (with_links (with_preds (with_gens g (f_gens f)) np) true). split; [reflexivity |].
        split; [cbn; repeat split; auto |]. split; [reflexivity |]. split; [cbn; now rewrite orb_true_r |].
        exact Hnp.
      + exists (with_preds (with_gens g (f_gens f)) np). split; [reflexivity |].
        split; [cbn; repeat split; auto |]. split; [reflexivity |]. split; [cbn; now rewrite orb_false_r |].
        exact Hnp.
  Qed.
End Clones.
