(** * The factory state machine: invariants. *)
From Coq Require Import ZArith Bool List String Ascii Arith Lia Permutation.
From Verif Require Import PyVal PyValFacts PyDict PyDictFacts PyStr ListFacts TypeDict TypeDictFacts Data
  FindTypes FindTypesFacts FK FKFacts ImpliedFacts WfCheck GraphFacts Factory.
Import ListNotations.
Local Open Scope string_scope.
Local Open Scope list_scope.

(** ** Specification vocabulary *)

Definition decl_of (d : list (string * tdecl)) (t : string) : option tdecl := dget String.eqb d t.

(** [t] is a table with fields, [x] one of them (a data field). *)
Definition field_of (d : list (string * tdecl)) (t x : string) : Prop :=
  exists ts, decl_of d t = Some (Fields ts) /\ In x (tpk ts ++ tdf ts).
Definition data_field_of (d : list (string * tdecl)) (t x : string) : Prop :=
  exists ts, decl_of d t = Some (Fields ts) /\ In x (tdf ts).

(** What the user sees for a field. *)
Definition shown_default (f : factory) (t x : string) : option value := dget2 (f_defaults f) t x.
Definition shown_type (f : factory) (t x : string) : option dtype := dget2 (f_types f) t x.
Definition shown_tip (f : factory) (t x : string) : option string := dget tf_eqb (f_tips f) (t, x).
Definition shown_param (f : factory) (n : value) : option (option dtype * value) := dget pyeq (f_params f) n.
Definition shown_pred (f : factory) (t : string) (n : value) : option rpred :=
  dget pyeq (dget_or String.eqb (f_preds f) t []) n.

(** A factory obtained from the constructor by any calls (raising ones
    included). *)
Definition reachable (parses : value -> bool) (f : factory) : Prop :=
  exists decls f0 ops, init decls = Some f0 /\ f = run parses f0 ops.

(** ** Dictionaries *)

Definition sget_dset {V} := @dget_dset string V String.eqb String.eqb_refl String.eqb_sym string_eqb_trans.
Definition pget_dset {V} := @dget_dset value V pyeq pyeq_refl pyeq_sym pyeq_trans.
Definition tget_dset {V} := @dget_dset (string * string) V tf_eqb tf_eqb_refl tf_eqb_sym tf_eqb_trans.

(** All entries of a two-level dict, in iteration order. *)
Definition flat {V} (d : list (string * list (string * V))) : list ((string * string) * V) :=
  flat_map (fun tl => map (fun xv => ((fst tl, fst xv), snd xv)) (snd tl)) d.

Definition set_all {V} (d : list (string * list (string * V))) (l : list ((string * string) * V)) :=
  fold_left (fun acc kv => dset2 acc (fst (fst kv)) (snd (fst kv)) (snd kv)) l d.

Lemma flat_In {V} : forall (d : list (string * list (string * V))) t x v,
  In ((t, x), v) (flat d) <-> exists l, In (t, l) d /\ In (x, v) l.
Proof.
  intros d t x v. unfold flat. rewrite in_flat_map. split.
  - intros ([t' l] & H1 & H2). apply in_map_iff in H2 as ([x' v'] & E & H2). simpl in *.
    injection E as <- <- <-. eauto.
  - intros (l & H1 & H2). exists (t, l). split; auto. apply in_map_iff. exists (x, v). auto.
Qed.

Lemma flat_NoDup {V} : forall (d : list (string * list (string * V))), wf2 d -> NoDup (map fst (flat d)).
Proof.
  intros d [H1 H2]. unfold flat. rewrite map_flat_map.
  apply (NoDup_flat_map _ fst fst); auto.
  - intros [t l] Hin. simpl. rewrite map_map. simpl. apply H2 in Hin.
    clear -Hin. induction l as [| [x v] l IH]; simpl in *; [constructor |].
    inversion Hin; subst. constructor; auto. intros Hc. apply in_map_iff in Hc as ([x' v'] & E & Hc).
    simpl in E. injection E as ->. apply H1. apply in_map_iff. exists (x, v'). auto.
  - intros [t l] y Hin Hy. simpl in *. rewrite map_map in Hy. apply in_map_iff in Hy as ([x v] & <- & _). auto.
Qed.

Lemma set_all_get {V} : forall (l : list ((string * string) * V)) d t x,
  dget2 (set_all d l) t x = match last_bind tf_eqb l (t, x) with Some v => Some v | None => dget2 d t x end.
Proof.
  induction l as [| [[t0 x0] v0] l IH]; intros d t x; simpl; auto.
  unfold set_all in *. simpl. rewrite IH. destruct (last_bind tf_eqb l (t, x)); auto.
  rewrite dget2_dset2. unfold tf_eqb. simpl. destruct (String.eqb t0 t && String.eqb x0 x); auto.
Qed.

Lemma flat_get {V} : forall (d : list (string * list (string * V))) t x, wf2 d ->
  last_bind tf_eqb (flat d) (t, x) = dget2 d t x.
Proof.
  intros d t x Hd. pose proof (flat_NoDup d Hd) as Hnd.
  assert (keys_distinct tf_eqb (map fst (flat d))) as Hk by now apply (keys_distinct_NoDup tf_eqb tf_eqb_eq).
  rewrite (last_bind_distinct tf_eqb tf_eqb_sym tf_eqb_trans) by exact Hk.
  destruct (dget2 d t x) as [v |] eqn:E.
  - apply wf2_declared in E; auto. apply flat_In in E.
    apply (In_dget tf_eqb tf_eqb_refl); auto.
  - apply (dget_None tf_eqb). intros [t' x'] v Hin. apply flat_In in Hin.
    destruct (tf_eqb (t', x') (t, x)) eqn:Et; auto. apply tf_eqb_eq in Et. injection Et as -> ->.
    apply wf2_declared in Hin; auto. congruence.
Qed.

Lemma set_all_flat {V} : forall (d b : list (string * list (string * V))) t x, wf2 d ->
  dget2 (set_all b (flat d)) t x = match dget2 d t x with Some v => Some v | None => dget2 b t x end.
Proof. intros d b t x H. now rewrite set_all_get, flat_get. Qed.

Lemma set_all_wf2 {V} : forall (l : list ((string * string) * V)) d, wf2 d -> wf2 (set_all d l).
Proof.
  induction l as [| kv l IH]; intros d H; simpl; auto. apply (IH (dset2 _ _ _ _)). now apply wf2_dset2.
Qed.

Lemma wf2_nil {V} : wf2 ([] : list (string * list (string * V))).
Proof. split; [constructor | intros t l []]. Qed.

(** ** Declarations *)

Lemma distinct_b_iff : forall l, distinct_b l = true <-> NoDup l.
Proof.
  intros l. unfold distinct_b. rewrite Nat.eqb_eq.
  assert (forall l acc, NoDup acc -> 
    List.length (fold_left (sadd String.eqb) l acc) <= List.length acc + List.length l /\
    (List.length (fold_left (sadd String.eqb) l acc) = List.length acc + List.length l <-> NoDup (acc ++ l))) as H.
  { clear l. induction l as [| x l IH]; intros acc Hacc; simpl.
    - rewrite app_nil_r. split; [lia |]. split; auto.
    - unfold sadd at 2 4. destruct (smem String.eqb acc x) eqn:E.
      + destruct (IH acc Hacc) as [H1 H2]. split; [lia |]. split; [lia |]. intros Hnd. exfalso.
        apply smem_iff in E as (y & Hy & Ey). apply String.eqb_eq in Ey. subst y.
        apply (NoDup_app_disj _ _ x Hnd); simpl; auto.
      + assert (~ In x acc) as Hx.
        { intros Hx. assert (smem String.eqb acc x = true); [| congruence].
          apply smem_iff. exists x. split; auto. apply String.eqb_refl. }
        destruct (IH (acc ++ [x])) as [H1 H2]; [now apply NoDup_snoc |].
        rewrite app_length in H1, H2. simpl in H1, H2. rewrite <- app_assoc in H2. simpl in H2.
        split; [lia |]. rewrite <- H2. lia. }
  destruct (H l [] (NoDup_nil _)) as [_ H2]. simpl in H2. exact H2.
Qed.

Lemma decl_ok_nodup : forall d, decl_ok d = true -> NoDup (map fst d).
Proof.
  intros d H. unfold decl_ok in H. apply andb_true_iff in H as [H _]. apply andb_true_iff in H as [_ H].
  apply distinct_b_iff in H. rewrite <- (map_map fst lower) in H. now apply NoDup_map_inv' in H.
Qed.

Lemma decl_of_In : forall d t td, NoDup (map fst d) -> (decl_of d t = Some td <-> In (t, td) d).
Proof. intros. now apply dget_In_NoDup. Qed.

Lemma decl_ok_fields : forall d t ts, decl_ok d = true -> decl_of d t = Some (Fields ts) ->
  NoDup (tpk ts ++ tdf ts) /\ tpk ts ++ tdf ts <> [].
Proof.
  intros d t ts H Ht. pose proof (decl_ok_nodup d H) as Hnd.
  apply decl_of_In in Ht; auto.
  unfold decl_ok in H. apply andb_true_iff in H as [_ H]. rewrite forallb_forall in H.
  apply H in Ht. simpl in Ht. apply andb_true_iff in Ht as [Ht _]. apply andb_true_iff in Ht as [Hl Ht].
  apply distinct_b_iff in Ht. split; auto. intros E. rewrite E in Hl. discriminate.
Qed.

Lemma forallb_perm {A} (h : A -> bool) : forall l l', Permutation l l' -> forallb h l = true -> forallb h l' = true.
Proof.
  intros l l' Hp H. rewrite forallb_forall in *. intros x Hx. apply H.
  eapply Permutation_in; [apply Permutation_sym; eauto | auto].
Qed.

Lemma decl_ok_perm : forall d d', Permutation d d' -> decl_ok d = true -> decl_ok d' = true.
Proof.
  intros d d' Hp H. unfold decl_ok in *. repeat rewrite andb_true_iff in H.
  destruct H as [[[H1 H2] H3] H4].
  rewrite (forallb_perm _ _ _ Hp H1), (forallb_perm _ _ _ Hp H2), (forallb_perm _ _ _ Hp H4).
  rewrite andb_true_r. simpl. rewrite distinct_b_iff in *.
  eapply Permutation_NoDup; [| exact H3]. now apply Permutation_map.
Qed.

Lemma decl_of_perm : forall d d' t, Permutation d d' -> NoDup (map fst d) -> decl_of d' t = decl_of d t.
Proof.
  intros d d' t Hp Hnd.
  assert (NoDup (map fst d')) as Hnd' by (eapply Permutation_NoDup; [apply Permutation_map |]; eauto).
  destruct (decl_of d' t) as [td |] eqn:E; symmetry.
  - apply decl_of_In in E; auto. apply decl_of_In; auto.
    eapply Permutation_in; [apply Permutation_sym |]; eauto.
  - destruct (decl_of d t) as [td |] eqn:E2; auto. exfalso.
    apply decl_of_In in E2; auto. apply (Permutation_in _ Hp) in E2. apply decl_of_In in E2; auto. congruence.
Qed.

(** ** The invariants *)

Definition good_defaults (d : list (string * tdecl)) (dv : defaults) : Prop :=
  wf2 dv /\ forall t x v, dget2 dv t x = Some v -> field_of d t x /\ acceptable_default v = true.

Definition full_defaults (d : list (string * tdecl)) (dv : defaults) : Prop :=
  forall t x, data_field_of d t x -> dget2 dv t x <> None.

Definition good_types (d : list (string * tdecl)) (tys : types) : Prop :=
  wf2 tys /\ forall t x dt, dget2 tys t x = Some dt ->
    field_of d t x /\ safe_creator (args_of dt) = Some dt.

Definition fk_ok (d : list (string * tdecl)) (k : fk) : Prop :=
  (exists ts, decl_of d (fk_native k) = Some (Fields ts)) /\
  (exists ts, decl_of d (fk_foreign k) = Some (Fields ts)) /\
  NoDup (map fst (fk_map k)) /\
  forall p, In p (fk_map k) -> field_of d (fk_native k) (fst p) /\ field_of d (fk_foreign k) (snd p).

Definition good_factory_fks (d : list (string * tdecl)) (fks : list fk) : Prop :=
  NoDup fks /\ forall k, In k fks -> fk_ok d k.

(** Parameters need a table [parameters] with one key and one untyped data
    field. *)
Definition params_home (d : list (string * tdecl)) (tys : types) : Prop :=
  exists p x, decl_of d "parameters" = Some (Fields (mkT [p] [x])) /\ dget2 tys "parameters" x = None.

Definition good_params (parses : value -> bool) (d : list (string * tdecl)) (tys : types)
  (ps : list (value * (option dtype * value))) : Prop :=
  keys_distinct pyeq (map fst ps) /\ (ps <> [] -> params_home d tys) /\
  forall n dt v, In (n, (Some dt, v)) ps -> safe_creator (args_of dt) = Some dt /\ valid_data parses dt v = true.

Definition tip_ok (d : list (string * tdecl)) (t x s : string) : Prop :=
  decl_of d t <> None /\ (x = "" \/ field_of d t x) /\ s <> "".

Definition good_gens (d : list (string * tdecl)) (g : list string) : Prop :=
  forall t, In t g -> exists ts, decl_of d t = Some (Fields ts) /\ tpk ts = [].

Definition good_preds (d : list (string * tdecl)) (ps : list (string * list (value * rpred))) : Prop :=
  NoDup (map fst ps) /\ forall t l, In (t, l) ps ->
    (exists ts, decl_of d t = Some (Fields ts)) /\ keys_distinct pyeq (map fst l) /\
    forall n p, In (n, p) l -> n <> VNone /\ In (p_resp p) ["Boolean"; "Error Message"].

Record inv (parses : value -> bool) (f : factory) : Prop := mkInv {
  inv_decl : decl_ok (f_decl f) = true;
  inv_defaults : good_defaults (f_decl f) (f_defaults f);
  inv_full : full_defaults (f_decl f) (f_defaults f);
  inv_types : good_types (f_decl f) (f_types f);
  inv_fks : good_factory_fks (f_decl f) (f_fks f);
  inv_params : good_params parses (f_decl f) (f_types f) (f_params f);
  inv_tips : NoDup (map fst (f_tips f)) /\
             forall t x s, In ((t, x), s) (f_tips f) -> tip_ok (f_decl f) t x s;
  inv_flags : good_flag (f_flag f) = true /\ good_xlsx (f_xlsx f) = true /\ good_dup (f_dup f) = true /\
              good_auto (f_auto f) = true;
  inv_gens : good_gens (f_decl f) (f_gens f);
  inv_preds : good_preds (f_decl f) (f_preds f)
}.

(** ** Reflection *)

Lemma table_of_iff : forall f t ts, table_of f t = Some ts <-> decl_of (f_decl f) t = Some (Fields ts).
Proof.
  intros f t ts. unfold table_of, decl_of. destruct (dget String.eqb (f_decl f) t) as [[| ts'] |]; split; intros H;
    try discriminate; injection H as <-; auto.
Qed.

Lemma is_table_iff : forall f t, is_table f t = true <-> decl_of (f_decl f) t <> None.
Proof.
  intros f t. unfold is_table, dmem, decl_of. destruct (dget String.eqb (f_decl f) t); split; congruence.
Qed.

Lemma has_field_iff : forall f t x, has_field f t x = true <-> field_of (f_decl f) t x.
Proof.
  intros f t x. unfold has_field, field_of. split.
  - destruct (table_of f t) as [ts |] eqn:E; [| discriminate]. intros H. exists ts.
    apply table_of_iff in E. split; auto. apply mem_str_iff in H. rewrite in_app_iff in *. tauto.
  - intros (ts & E & H). apply table_of_iff in E. rewrite E. apply mem_str_iff. rewrite in_app_iff in *. tauto.
Qed.

Lemma has_data_field_iff : forall f t x, has_data_field f t x = true <-> data_field_of (f_decl f) t x.
Proof.
  intros f t x. unfold has_data_field, data_field_of. split.
  - destruct (table_of f t) as [ts |] eqn:E; [| discriminate]. intros H. exists ts.
    apply table_of_iff in E. split; auto. now apply mem_str_iff in H.
  - intros (ts & E & H). apply table_of_iff in E. rewrite E. now apply mem_str_iff.
Qed.

Lemma is_generic_false : forall f t, is_table f t = true -> is_generic f t = false ->
  exists ts, decl_of (f_decl f) t = Some (Fields ts).
Proof.
  intros f t H1 H2. unfold is_table, dmem in H1. unfold is_generic in H2. unfold decl_of.
  destruct (dget String.eqb (f_decl f) t) as [[| ts] |]; try discriminate. eauto.
Qed.

Lemma plain_table : forall f t ts, decl_of (f_decl f) t = Some (Fields ts) ->
  is_table f t = true /\ is_generic f t = false.
Proof.
  intros f t ts H. unfold is_table, dmem, is_generic, decl_of in *. rewrite H. auto.
Qed.

Lemma params_table_ok_iff : forall f, params_table_ok f = true <-> params_home (f_decl f) (f_types f).
Proof.
  intros f. unfold params_table_ok, params_home. split.
  - destruct (table_of f "parameters") as [[[| p [| ? ?]] [| x [| ? ?]]] |] eqn:E; try discriminate.
    intros H. exists p, x. apply table_of_iff in E. split; auto.
    unfold dmem in H. unfold dget2. destruct (dget String.eqb _ x); [discriminate | auto].
  - intros (p & x & E & H). apply table_of_iff in E. rewrite E. unfold dmem.
    unfold dget2 in H. now rewrite H.
Qed.

(** ** Initial state *)

Lemma zero_defaults_flat : forall d,
  zero_defaults d = set_all [] (flat_map (fun td => match snd td with
    | Generic => []
    | Fields ts => map (fun x => ((fst td, x), VNum (of_int 0))) (tdf ts) end) d).
Proof.
  intros d. unfold zero_defaults, set_all.
  rewrite <- (fold_left_flat_map (fun acc kv => dset2 acc (fst (fst kv)) (snd (fst kv)) (snd kv))).
  apply fold_left_ext_in. intros acc [t [| ts]] _; simpl; auto. now rewrite fold_left_map.
Qed.

Lemma last_bind_const : forall (l : list ((string * string) * value)) k w,
  (forall k' v, In (k', v) l -> v = w) ->
  last_bind tf_eqb l k = if existsb (fun kv => tf_eqb (fst kv) k) l then Some w else None.
Proof.
  induction l as [| [k0 v0] l IH]; intros k w H; simpl; auto.
  rewrite (IH k w) by (intros; eapply H; right; eauto).
  assert (v0 = w) as -> by (eapply H; left; eauto).
  destruct (existsb (fun kv => tf_eqb (fst kv) k) l); [now rewrite orb_true_r |].
  rewrite orb_false_r. reflexivity.
Qed.

Lemma zero_defaults_get : forall d t x, decl_ok d = true ->
  (data_field_of d t x -> dget2 (zero_defaults d) t x = Some (VNum (of_int 0))) /\
  (~ data_field_of d t x -> dget2 (zero_defaults d) t x = None).
Proof.
  intros d t x Hd. rewrite zero_defaults_flat, set_all_get.
  set (l := flat_map _ d).
  assert (forall k v, In (k, v) l <-> v = VNum (of_int 0) /\ data_field_of d (fst k) (snd k)) as Hl.
  { intros [t' x'] v. unfold l. rewrite in_flat_map. split.
    - intros ([t0 [| ts]] & H1 & H2); simpl in *; [destruct H2 |].
      apply in_map_iff in H2 as (x0 & E & H2). injection E as <- <- <-. split; auto.
      exists ts. split; auto. apply decl_of_In; auto. now apply decl_ok_nodup.
    - intros (-> & ts & H1 & H2). simpl in *. exists (t', Fields ts).
      apply decl_of_In in H1; [| now apply decl_ok_nodup]. split; auto. simpl. apply in_map_iff. eauto. }
  rewrite (last_bind_const l (t, x) (VNum (of_int 0))) by (intros k v H; now apply Hl in H).
  split; intros H.
  - assert (existsb (fun kv => tf_eqb (fst kv) (t, x)) l = true) as ->; auto.
    apply existsb_exists. exists ((t, x), VNum (of_int 0)). split; [now apply Hl | apply tf_eqb_refl].
  - assert (existsb (fun kv => tf_eqb (fst kv) (t, x)) l = false) as ->; auto.
    apply not_true_is_false. intros Hc. apply existsb_exists in Hc as ([k v] & H1 & H2).
    simpl in H2. apply tf_eqb_eq in H2. subst k. apply Hl in H1. tauto.
Qed.

Lemma data_field_field : forall d t x, data_field_of d t x -> field_of d t x.
Proof. intros d t x (ts & H1 & H2). exists ts. split; auto. apply in_app_iff. auto. Qed.

Lemma data_field_dec : forall d t x, data_field_of d t x \/ ~ data_field_of d t x.
Proof.
  intros d t x. unfold data_field_of. destruct (decl_of d t) as [[| ts] |].
  - right. intros (ts & E & _). discriminate.
  - destruct (in_dec string_dec x (tdf ts)) as [H | H].
    + left. eauto.
    + right. intros (ts' & E & H'). injection E as <-. contradiction.
  - right. intros (ts & E & _). discriminate.
Qed.

Lemma init_inv : forall parses d f, init d = Some f -> inv parses f.
Proof.
  intros parses d f H. unfold init in H. destruct (decl_ok d) eqn:E; [| discriminate].
  injection H as <-. constructor; simpl; auto.
  - split.
    + rewrite zero_defaults_flat. apply set_all_wf2, wf2_nil.
    + intros t x v H. destruct (data_field_dec d t x) as [Hd | Hd].
      * rewrite (proj1 (zero_defaults_get d t x E) Hd) in H. injection H as <-.
        split; [now apply data_field_field | reflexivity].
      * rewrite (proj2 (zero_defaults_get d t x E) Hd) in H. discriminate.
  - intros t x Hd. rewrite (proj1 (zero_defaults_get d t x E) Hd). discriminate.
  - split; [apply wf2_nil | intros t x dt H; discriminate].
  - split; [constructor | intros k []].
  - split; [exact I |]. split; [congruence | intros n dt v []].
  - split; [constructor | intros t x s []].
  - intros t [].
  - split; [constructor | intros t l []].
Qed.

(** ** Every call preserves the invariants *)

Lemma dset_In_gen {K V} (eqb : K -> K -> bool) : forall (d : list (K * V)) k v k' v',
  In (k', v') (dset eqb d k v) -> (v' = v /\ (k' = k \/ exists v0, In (k', v0) d)) \/ In (k', v') d.
Proof.
  induction d as [| [k0 v0] d IH]; simpl; intros k v k' v' H.
  - destruct H as [H | []]. injection H as <- <-. auto.
  - destruct (eqb k0 k) eqn:E; simpl in H.
    + destruct H as [H | H]; auto. injection H as <- <-. left. split; auto. right. exists v0. auto.
    + destruct H as [H | H]; auto. apply IH in H as [[H1 [H2 | [w H2]]] | H]; auto.
      left. split; auto. right. exists w. auto.
Qed.

Lemma NoDup_snoc_gen {A} : forall (l : list A) x, NoDup l -> ~ In x l -> NoDup (l ++ [x]).
Proof.
  intros l x H Hx. apply NoDup_app_intro; auto; [repeat constructor; simpl; tauto |].
  intros y Hy [<- | []]. contradiction.
Qed.

Lemma f2n_incl : forall m ff nf, In (ff, nf) (foreign_to_native m) -> In (nf, ff) m.
Proof.
  intros m ff nf. unfold foreign_to_native, dict_of, dupdate.
  assert (forall l acc, In (ff, nf) (fold_left (fun acc kv => dset String.eqb acc (fst kv) (snd kv)) l acc) ->
            In (ff, nf) acc \/ In (ff, nf) l) as H.
  { induction l as [| [k v] l IH]; intros acc H; simpl in *; auto.
    apply IH in H as [H | H]; auto. apply dset_In in H as [[-> ->] | H]; auto. }
  intros Hin. apply H in Hin as [[] | Hin]. apply in_map_iff in Hin as ([a b] & E & Hin).
  simpl in E. injection E as -> ->. exact Hin.
Qed.

Lemma f2n_keys : forall m, NoDup (map fst (foreign_to_native m)).
Proof.
  intros m. apply (keys_distinct_NoDup String.eqb String.eqb_eq). unfold foreign_to_native, dict_of.
  apply keys_distinct_dupdate. exact I.
Qed.

Lemma pair_fst_inj {A B} : forall (m : list (A * B)) a b b', NoDup (map fst m) -> In (a, b) m -> In (a, b') m -> b = b'.
Proof.
  intros m a b b' Hnd H1 H2.
  assert ((a, b) = (a, b')) as E by (eapply (NoDup_map_inj_in fst); eauto). now injection E.
Qed.

(** A composed mapping has distinct native fields, all of them (with their
    foreign fields) taken from the two given mappings. *)
Lemma derive_incl : forall f1 f2 p, In p (fk_map (derive f1 f2)) ->
  exists bf, In (fst p, bf) (fk_map f1) /\ In (bf, snd p) (fk_map f2).
Proof.
  intros f1 f2 [nf ff] H. simpl in H. apply in_flat_map in H as ([ff' bf] & Hin & H). simpl in H.
  destruct (dget String.eqb (foreign_to_native (fk_map f1)) bf) as [n |] eqn:E; [| destruct H].
  destruct H as [H | []]. injection H as -> ->. exists bf. simpl.
  apply dget_In_NoDup in E; [| apply f2n_keys]. apply f2n_incl in E. apply f2n_incl in Hin. auto.
Qed.

Lemma derive_nodup : forall f1 f2, NoDup (map fst (fk_map f1)) -> NoDup (map fst (fk_map f2)) ->
  NoDup (map fst (fk_map (derive f1 f2))).
Proof.
  intros f1 f2 H1 H2. simpl.
  assert (NoDup (map snd (foreign_to_native (fk_map f2)))) as Hs.
  { pose proof (f2n_keys (fk_map f2)) as Hk.
    assert (forall p, In p (foreign_to_native (fk_map f2)) -> In (snd p, fst p) (fk_map f2)) as Hi
      by (intros [a b] Hin; now apply f2n_incl).
    induction (foreign_to_native (fk_map f2)) as [| [a b] l IH]; simpl in *; [constructor |].
    inversion Hk; subst. constructor; auto.
    intros Hc. apply in_map_iff in Hc as ([a' b'] & E & Hc). simpl in E. subst b'.
    assert (a' = a) as ->.
    { eapply (pair_fst_inj (fk_map f2) b); [auto | apply (Hi (a', b)) | apply (Hi (a, b))]; auto. }
    apply H3. apply in_map_iff. exists (a, b). auto. }
  rewrite map_flat_map.
  induction (foreign_to_native (fk_map f2)) as [| [ff bf] l IH]; simpl in *; [constructor |].
  inversion Hs; subst. destruct (dget String.eqb (foreign_to_native (fk_map f1)) bf) as [n |] eqn:E; simpl; auto.
  constructor; auto. intros Hc. apply in_flat_map in Hc as ([ff' bf'] & Hin & Hc). simpl in Hc.
  destruct (dget String.eqb (foreign_to_native (fk_map f1)) bf') as [n' |] eqn:E'; [| destruct Hc].
  destruct Hc as [Hc | []]. simpl in Hc. subst n'.
  apply dget_In_NoDup in E; [| apply f2n_keys]. apply dget_In_NoDup in E'; [| apply f2n_keys].
  apply f2n_incl in E, E'. assert (bf = bf') as -> by (eapply (pair_fst_inj (fk_map f1)); eauto).
  apply H3. apply in_map_iff. exists (ff', bf'). auto.
Qed.

Lemma fk_ok_derive : forall d f1 f2, fk_ok d f1 -> fk_ok d f2 -> fk_native f2 = fk_foreign f1 ->
  fk_ok d (derive f1 f2).
Proof.
  intros d f1 f2 (A1 & B1 & C1 & D1) (A2 & B2 & C2 & D2) E. split; [| split; [| split]]; auto.
  - now apply derive_nodup.
  - intros p Hp. apply derive_incl in Hp as (bf & Hp1 & Hp2). simpl.
    apply D1 in Hp1. apply D2 in Hp2. simpl in *. tauto.
Qed.

Lemma add_implied_good : forall d sch n fks r, good_factory_fks d fks ->
  add_implied n sch fks = Some r -> good_factory_fks d r.
Proof.
  induction n as [| n IH]; intros fks r H E; simpl in E; [discriminate |].
  destruct (find_derived sch fks) as [g |] eqn:Eg.
  - apply IH in E; auto. apply find_derived_spec in Eg as (f1 & f2 & H1 & H2 & Hb & -> & Hnew & _).
    destruct H as [Hn Hok]. split.
    + now apply NoDup_snoc_gen.
    + intros k Hk. apply in_app_iff in Hk as [Hk | [<- | []]]; auto. apply fk_ok_derive; auto.
  - injection E as <-. exact H.
Qed.

Lemma of_nat_inj : forall i j, canon (VNum (of_int (Z.of_nat i))) = canon (VNum (of_int (Z.of_nat j))) -> i = j.
Proof.
  intros i j H. unfold canon, of_int in H. injection H as H.
  pose proof one_units_pos. apply Z.mul_cancel_r in H; lia.
Qed.

(** The search for a fresh predicate name succeeds within its range. *)
Lemma fresh_name_spec : forall {V} (d : list (value * V)), exists i,
  fresh_name d = VNum (of_int (Z.of_nat i)) /\ dget pyeq d (VNum (of_int (Z.of_nat i))) = None /\
  forall j, (j < i)%nat -> dget pyeq d (VNum (of_int (Z.of_nat j))) <> None.
Proof.
  intros V d. unfold fresh_name.
  set (h := fun i => negb (dmem pyeq d (VNum (of_int (Z.of_nat i))))).
  assert (forall n s, match find h (seq s n) with
            | Some i => (s <= i)%nat /\ h i = true /\ forall j, (s <= j < i)%nat -> h j = false
            | None => forall j, (s <= j < s + n)%nat -> h j = false end) as Hf.
  { induction n as [| n IH]; intros s; simpl.
    - intros j Hj. lia.
    - destruct (h s) eqn:E; [split; [lia | split; auto; intros; lia] |].
      specialize (IH (S s)). destruct (find h (seq (S s) n)) as [i |].
      + destruct IH as (H1 & H2 & H3). split; [lia |]. split; auto. intros j Hj.
        destruct (Nat.eq_dec j s) as [-> | Hne]; auto. apply H3. lia.
      + intros j Hj. destruct (Nat.eq_dec j s) as [-> | Hne]; auto. apply IH. lia. }
  specialize (Hf (S (List.length d)) 0%nat).
  destruct (find h (seq 0 (S (List.length d)))) as [i |].
  - destruct Hf as (_ & H2 & H3). exists i. split; auto. unfold h, dmem in *. split.
    + destruct (dget pyeq d _); [discriminate | auto].
    + intros j Hj Hc. specialize (H3 j). rewrite Hc in H3. discriminate H3. lia.
  - exfalso.
    assert (incl (map (fun i => canon (VNum (of_int (Z.of_nat i)))) (seq 0 (S (List.length d))))
                 (map (fun kv => canon (fst kv)) d)) as Hi.
    { intros c Hc. apply in_map_iff in Hc as (i & <- & Hi). apply in_seq in Hi.
      specialize (Hf i ltac:(lia)). unfold h, dmem in Hf.
      destruct (dget pyeq d (VNum (of_int (Z.of_nat i)))) as [v |] eqn:E; [| discriminate].
      apply dget_In in E as (k & E & Hin). apply pyeq_iff in E. rewrite <- E.
      apply in_map_iff. exists (k, v). auto. }
    apply NoDup_incl_length in Hi.
    + rewrite !map_length, seq_length in Hi. lia.
    + apply FinFun.Injective_map_NoDup; [| apply seq_NoDup]. intros i j. apply of_nat_inj.
Qed.

Section Steps.
  Variable parses : value -> bool.
  Notation inv := (inv parses).
  Notation step := (step parses).

  Lemma inv_with_types : forall f tys, inv f -> good_types (f_decl f) tys ->
    (f_params f <> [] -> params_home (f_decl f) tys) -> inv (with_types f tys).
  Proof.
    intros f tys [] H1 H2. constructor; simpl; auto.
    destruct inv_params0 as (A & B & C). split; auto.
  Qed.

  Lemma inv_with_defaults : forall f dv, inv f -> good_defaults (f_decl f) dv -> full_defaults (f_decl f) dv ->
    inv (with_defaults f dv).
  Proof. intros f dv [] H1 H2. constructor; simpl; auto. Qed.

  Lemma inv_with_fks : forall f k, inv f -> good_factory_fks (f_decl f) k -> inv (with_fks f k).
  Proof. intros f k [] H1. constructor; simpl; auto. Qed.

  Lemma inv_with_params : forall f p, inv f -> good_params parses (f_decl f) (f_types f) p -> inv (with_params f p).
  Proof. intros f p [] H1. constructor; simpl; auto. Qed.

  Lemma inv_with_preds : forall f p, inv f -> good_preds (f_decl f) p -> inv (with_preds f p).
  Proof. intros f p [] H1. constructor; simpl; auto. Qed.

  Lemma set_data_type_inv : forall f t x a g, inv f -> set_data_type f t x a = Some g -> inv g.
  Proof.
    intros f t x a g H E. unfold set_data_type in E.
    destruct (_ && _) eqn:Ec in E; [| discriminate]. repeat rewrite andb_true_iff in Ec.
    destruct Ec as [[[[_ _] _] Hf] Hp]. destruct (safe_creator a) as [dt |] eqn:Es; [| discriminate].
    injection E as <-. pose proof (inv_types _ _ H) as [Hw Ht]. apply inv_with_types; auto.
    - split; [now apply wf2_dset2 |]. intros t' x' dt' Hg. rewrite dget2_dset2 in Hg.
      destruct (String.eqb t t' && String.eqb x x') eqn:E; auto.
      apply andb_true_iff in E as [E1 E2]. apply String.eqb_eq in E1, E2. subst t' x'.
      injection Hg as <-. split; [now apply has_field_iff |]. now apply (safe_creator_idem a).
    - intros Hne. destruct (proj1 (proj2 (inv_params _ _ H)) Hne) as (p & d & Hd & Hu). exists p, d. split; auto.
      rewrite dget2_dset2. destruct (String.eqb t "parameters" && String.eqb x d) eqn:E; auto. exfalso.
      apply andb_true_iff in E as [E1 E2]. apply String.eqb_eq in E1, E2. subst t x.
      apply negb_true_iff in Hp. rewrite String.eqb_refl in Hp.
      assert (has_data_field f "parameters" d = true) as Hdf.
      { apply has_data_field_iff. exists (mkT [p] [d]). split; auto. simpl. auto. }
      rewrite Hdf in Hp. destruct (f_params f); [congruence | discriminate].
  Qed.

  Lemma clear_data_type_get : forall f t x g, wf2 (f_types f) -> clear_data_type f t x = Some g ->
    g = with_types f (f_types g) /\ wf2 (f_types g) /\
    forall t' x', dget2 (f_types g) t' x' = if String.eqb t t' && String.eqb x x' then None else dget2 (f_types f) t' x'.
  Proof.
    intros f t x g Hw E. unfold clear_data_type in E.
    destruct (dmem String.eqb (dget_or String.eqb (f_types f) t []) x) eqn:Em; simpl in E.
    - destruct (f_used f); [discriminate |]. injection E as <-. split; [reflexivity |].
      pose proof (dget_or_NoDup (f_types f) t Hw) as Hnd. simpl. split.
      + split; [apply dset_NoDup; apply Hw |]. intros t' fs Hin. apply dset_In in Hin as [[-> ->] | Hin].
        * apply (keys_distinct_NoDup String.eqb String.eqb_eq). apply (keys_distinct_ddel String.eqb).
          now apply (keys_distinct_NoDup String.eqb String.eqb_eq).
        * eapply (proj2 Hw); eauto.
      + intros t' x'. unfold dget2. unfold dget_or at 1. rewrite sget_dset.
        destruct (String.eqb t t') eqn:Et; simpl; auto.
        apply String.eqb_eq in Et. subst t'. destruct (String.eqb x x') eqn:Ex.
        * apply String.eqb_eq in Ex. subst x'.
          apply (dget_ddel_same String.eqb String.eqb_sym string_eqb_trans).
          now apply (keys_distinct_NoDup String.eqb String.eqb_eq).
        * now apply (dget_ddel_other String.eqb String.eqb_sym string_eqb_trans).
    - injection E as <-. split; [destruct f; reflexivity |]. split; auto. intros t' x'.
      destruct (String.eqb t t' && String.eqb x x') eqn:E; auto.
      apply andb_true_iff in E as [E1 E2]. apply String.eqb_eq in E1, E2. subst t' x'.
      unfold dmem in Em. unfold dget2. destruct (dget String.eqb _ x); [discriminate | auto].
  Qed.

  Lemma clear_data_type_inv : forall f t x g, inv f -> clear_data_type f t x = Some g -> inv g.
  Proof.
    intros f t x g H E. pose proof (inv_types _ _ H) as [Hw Ht].
    destruct (clear_data_type_get f t x g Hw E) as (-> & Hw' & Hg). simpl in *.
    apply inv_with_types; auto.
    - split; auto. intros t' x' dt Hd. rewrite Hg in Hd. destruct (_ && _); [discriminate | auto].
    - intros Hne. destruct (proj1 (proj2 (inv_params _ _ H)) Hne) as (p & d & Hd & Hu). exists p, d. split; auto.
      rewrite Hg. now destruct (_ && _).
  Qed.

  Lemma good_preds_set : forall d ps t l, good_preds d ps -> (exists ts, decl_of d t = Some (Fields ts)) ->
    keys_distinct pyeq (map fst l) ->
    (forall n p, In (n, p) l -> n <> VNone /\ In (p_resp p) ["Boolean"; "Error Message"]) ->
    good_preds d (dset String.eqb ps t l).
  Proof.
    intros d ps t l [H1 H2] Ht Hk Hl. split; [now apply dset_NoDup |].
    intros t' l' Hin. apply dset_In in Hin as [[-> ->] | Hin]; auto.
  Qed.

  Lemma good_preds_get : forall d ps t, good_preds d ps ->
    keys_distinct pyeq (map fst (dget_or String.eqb ps t [])) /\
    forall n p, In (n, p) (dget_or String.eqb ps t []) -> n <> VNone /\ In (p_resp p) ["Boolean"; "Error Message"].
  Proof.
    intros d ps t [H1 H2]. unfold dget_or. destruct (dget String.eqb ps t) as [l |] eqn:E.
    - apply dget_In_NoDup in E; auto. apply H2 in E. tauto.
    - split; [exact I | intros n p []].
  Qed.

  Lemma add_pred_inv : forall f t p n g, inv f -> add_pred f t p n = Some g -> inv g.
  Proof.
    intros f t p n g H E. unfold add_pred in E.
    destruct (_ && _) eqn:Ec in E; [| discriminate]. repeat rewrite andb_true_iff in Ec.
    destruct Ec as [[[_ Ht] Hg] _]. apply negb_true_iff in Hg.
    pose proof (is_generic_false f t Ht Hg) as Hts.
    pose proof (inv_preds _ _ H) as Hps. destruct (good_preds_get _ _ t Hps) as [Hk Hl].
    destruct p as [p |].
    - destruct (mem_str (p_resp p) ["Boolean"; "Error Message"]) eqn:Em; [| discriminate].
      apply mem_str_iff in Em. injection E as <-. apply inv_with_preds; auto. apply good_preds_set; auto.
      + apply (keys_distinct_dset pyeq). exact Hk.
      + intros m q Hin. apply dset_In_gen in Hin as [[-> [-> | [q0 Hin]]] | Hin]; auto.
        * split; auto. destruct n; try discriminate.
          destruct (fresh_name_spec (dget_or String.eqb (f_preds f) t [])) as (i & -> & _). discriminate.
        * split; auto. apply Hl in Hin. tauto.
    - destruct (dget String.eqb (f_preds f) t) as [l |] eqn:El; injection E as <-; auto.
      apply inv_with_preds; auto. unfold dget_or in Hk, Hl. rewrite El in Hk, Hl. apply good_preds_set; auto.
      + now apply (keys_distinct_ddel pyeq).
      + intros m q Hin. apply ddel_incl in Hin. auto.
  Qed.

  Lemma add_parameter_inv : forall f n v a e g, inv f -> add_parameter parses f n v a e = Some g -> inv g.
  Proof.
    intros f n v a e g H E. unfold add_parameter in E.
    destruct (_ && _) eqn:Ec in E; [| discriminate]. repeat rewrite andb_true_iff in Ec.
    destruct Ec as [[_ Hh] _]. apply params_table_ok_iff in Hh.
    destruct (inv_params _ _ H) as (A & B & C). destruct e.
    - destruct (safe_creator a) as [dt |] eqn:Es; [| discriminate].
      destruct (valid_data parses dt v) eqn:Ev; [| discriminate]. injection E as <-.
      apply inv_with_params; auto. split; [now apply (keys_distinct_dset pyeq) | split; auto].
      intros n' dt' v' Hin. apply dset_In_gen in Hin as [[E _] | Hin]; eauto.
      injection E as <- <-. split; auto. now apply (safe_creator_idem a).
    - injection E as <-.
      apply inv_with_params; auto. split; [now apply (keys_distinct_dset pyeq) | split; auto].
      intros n' dt' v' Hin. apply dset_In_gen in Hin as [[E _] | Hin]; eauto. discriminate.
  Qed.

  Lemma remove_parameter_inv : forall f n g, inv f -> remove_parameter f n = Some g -> inv g.
  Proof.
    intros f n g H E. unfold remove_parameter in E. destruct (dmem pyeq (f_params f) n); [| discriminate].
    injection E as <-. destruct (inv_params _ _ H) as (A & B & C). apply inv_with_params; auto.
    split; [now apply (keys_distinct_ddel pyeq) | split].
    - intros Hne. apply B. intros E. rewrite E in Hne. now apply Hne.
    - intros n' dt v Hin. apply ddel_incl in Hin. eauto.
  Qed.

  Lemma set_default_inv : forall f t x v g, inv f -> set_default f t x v = Some g -> inv g.
  Proof.
    intros f t x v g H E. unfold set_default in E.
    destruct (_ && _) eqn:Ec in E; [| discriminate]. repeat rewrite andb_true_iff in Ec.
    destruct Ec as [[_ Hf] Ha]. injection E as <-. destruct (inv_defaults _ _ H) as [Hw Hd].
    apply inv_with_defaults; auto.
    - split; [now apply wf2_dset2 |]. intros t' x' v' Hg. rewrite dget2_dset2 in Hg.
      destruct (String.eqb t t' && String.eqb x x') eqn:E; auto.
      apply andb_true_iff in E as [E1 E2]. apply String.eqb_eq in E1, E2. subst t' x'.
      injection Hg as <-. split; auto. now apply has_field_iff.
    - intros t' x' Hdf. rewrite dget2_dset2. destruct (_ && _); [discriminate |]. now apply (inv_full _ _ H).
  Qed.

  Lemma set_table_defaults_get : forall f t l g, wf2 (f_defaults f) -> set_table_defaults f (t, l) = Some g ->
    g = with_defaults f (f_defaults g) /\ wf2 (f_defaults g) /\
    (forall x v, In (x, v) l -> field_of (f_decl f) t x /\ acceptable_default v = true) /\
    forall t' x', dget2 (f_defaults g) t' x' =
      if String.eqb t t' then match last_bind String.eqb l x' with
                              | Some v => Some v | None => dget2 (f_defaults f) t x' end
      else dget2 (f_defaults f) t' x'.
  Proof.
    intros f t l g Hw E. unfold set_table_defaults in E.
    destruct (_ && _) eqn:Ec in E; [| discriminate]. repeat rewrite andb_true_iff in Ec. simpl in *.
    destruct Ec as [[[_ Hf] _] Ha]. rewrite forallb_forall in Hf, Ha. injection E as <-.
    split; [reflexivity |]. simpl. split; [| split].
    - split; [apply dset_NoDup; apply Hw |]. intros t' fs Hin. apply dset_In in Hin as [[-> ->] | Hin].
      + apply (keys_distinct_NoDup String.eqb String.eqb_eq). apply keys_distinct_dupdate.
        apply (keys_distinct_NoDup String.eqb String.eqb_eq). now apply dget_or_NoDup.
      + eapply (proj2 Hw); eauto.
    - intros x v Hin. split; [apply has_field_iff; apply (Hf _ Hin) | apply (Ha _ Hin)].
    - intros t' x'. unfold dget2. unfold dget_or at 1. rewrite sget_dset.
      destruct (String.eqb t t') eqn:Et; auto.
      now rewrite (dget_dupdate String.eqb String.eqb_refl String.eqb_sym string_eqb_trans).
  Qed.

  Lemma last_bind_In_s {V} : forall (l : list (string * V)) k v, last_bind String.eqb l k = Some v -> In (k, v) l.
  Proof.
    induction l as [| [k0 v0] l IH]; intros k v H; simpl in H; [discriminate |].
    destruct (last_bind String.eqb l k) as [w |] eqn:E.
    - injection H as ->. right. now apply IH.
    - destruct (String.eqb k0 k) eqn:E2; [| discriminate]. apply String.eqb_eq in E2. injection H as ->. subst. now left.
  Qed.

  Lemma set_table_defaults_inv : forall f tl g, inv f -> set_table_defaults f tl = Some g -> inv g.
  Proof.
    intros f [t l] g H E. destruct (inv_defaults _ _ H) as [Hw Hd].
    destruct (set_table_defaults_get f t l g Hw E) as (-> & Hw' & Hl & Hg). simpl in *.
    apply inv_with_defaults; auto.
    - split; auto. intros t' x' v Hv. rewrite Hg in Hv. destruct (String.eqb t t') eqn:Et; auto.
      apply String.eqb_eq in Et. subst t'. destruct (last_bind String.eqb l x') as [w |] eqn:El; auto.
      injection Hv as ->. apply last_bind_In_s in El. auto.
    - intros t' x' Hdf. rewrite Hg. destruct (String.eqb t t') eqn:Et; [| now apply (inv_full _ _ H)].
      apply String.eqb_eq in Et. subst t'. destruct (last_bind String.eqb l x'); [discriminate |].
      now apply (inv_full _ _ H).
  Qed.

  Lemma set_defaults_inv : forall f l, inv f -> inv (fst (set_defaults f l)).
  Proof.
    intros f l H. unfold set_defaults. destruct (f_used f); auto. revert f H.
    induction l as [| tl l IH]; intros f H; simpl; auto.
    destruct (set_table_defaults f tl) as [g |] eqn:E; simpl; auto.
    apply IH. eapply set_table_defaults_inv; eauto.
  Qed.

  Lemma set_gens_inv : forall f gs g, inv f -> set_gens f gs = Some g -> inv g.
  Proof.
    intros f gs g H E. unfold set_gens in E.
    destruct (_ && _) eqn:Ec in E; [| discriminate]. repeat rewrite andb_true_iff in Ec.
    destruct Ec as [[[_ Ht] Hg] Hp]. rewrite forallb_forall in Ht, Hg, Hp. injection E as <-.
    destruct H. constructor; simpl; auto. intros t Hin.
    destruct (is_generic_false f t (Ht _ Hin)) as (ts & Hts); [specialize (Hg _ Hin); now apply negb_true_iff |].
    exists ts. split; auto. specialize (Hp _ Hin). apply table_of_iff in Hts. rewrite Hts in Hp.
    apply Nat.eqb_eq in Hp. destruct (tpk ts); [auto | discriminate].
  Qed.

  Lemma clear_fks_inv : forall f t g, inv f -> clear_fks f t = Some g -> inv g.
  Proof.
    intros f t g H E. unfold clear_fks in E. destruct (f_used f); [discriminate |].
    destruct (inv_fks _ _ H) as [Hn Hk]. destruct t as [t |].
    - destruct (is_table f t); [| discriminate]. injection E as <-. apply inv_with_fks; auto. split.
      + now apply NoDup_filter.
      + intros k Hin. apply filter_In in Hin. apply Hk. tauto.
    - injection E as <-. apply inv_with_fks; auto. split; [constructor | intros k []].
  Qed.

  Lemma mapping_of_spec : forall m l, mapping_of m = Some l -> l <> [] /\ NoDup (map fst l).
  Proof.
    intros [n x | [| p l]] l' H; simpl in H; try discriminate; injection H as <-.
    - split; [discriminate | repeat constructor; simpl; tauto].
    - split.
      + intros E. pose proof (dget_dupdate String.eqb String.eqb_refl String.eqb_sym string_eqb_trans (p :: l) [] (fst p)) as Hg.
        unfold dict_of in E. rewrite E in Hg. simpl in Hg. destruct p as [k v]. simpl in Hg.
        rewrite String.eqb_refl in Hg. destruct (last_bind String.eqb l k); discriminate.
      + apply (keys_distinct_NoDup String.eqb String.eqb_eq). unfold dict_of. apply keys_distinct_dupdate. exact I.
  Qed.

  Lemma sadd_fk_NoDup : forall l k, NoDup l -> NoDup (sadd fk_eqb l k).
  Proof.
    intros l k H. unfold sadd. destruct (smem fk_eqb l k) eqn:E; auto. apply NoDup_snoc_gen; auto.
    intros Hin. assert (smem fk_eqb l k = true); [| congruence].
    apply smem_iff. exists k. split; auto. now apply fk_eqb_eq.
  Qed.

  Lemma add_fk_inv : forall f n x m g, inv f -> add_fk f n x m = Some g -> inv g.
  Proof.
    intros f n x m g H E. unfold add_fk in E.
    destruct (_ && _) eqn:Ec in E; [| discriminate]. repeat rewrite andb_true_iff in Ec.
    destruct Ec as [[[[_ Hn] Hgn] Hx] Hgx]. apply negb_true_iff in Hgn, Hgx.
    destruct (mapping_of m) as [l |] eqn:Em; [| discriminate].
    destruct (forallb _ l) eqn:El; [| discriminate]. injection E as <-.
    apply mapping_of_spec in Em as [_ Hnd]. rewrite forallb_forall in El.
    destruct (inv_fks _ _ H) as [Hf Hk]. apply inv_with_fks; auto. split; [now apply sadd_fk_NoDup |].
    intros k Hin. apply sadd_In in Hin as [Hin | ->]; auto. split; [| split; [| split]]; simpl; auto.
    - now apply is_generic_false.
    - now apply is_generic_false.
    - intros p Hp. apply El in Hp. apply andb_true_iff in Hp as [H1 H2]. apply has_field_iff in H1, H2. auto.
  Qed.

  Lemma set_tip_inv : forall f t x s g, inv f -> set_tip f t x s = Some g -> inv g.
  Proof.
    intros f t x s g H E. unfold set_tip in E. destruct (_ && _) eqn:Ec in E; [| discriminate].
    apply andb_true_iff in Ec as [Ht Hx]. injection E as <-. destruct H. destruct inv_tips0 as [Hn Hk].
    constructor; simpl; auto. apply is_table_iff in Ht. destruct (String.eqb s "") eqn:Es.
    - split.
      + apply (keys_distinct_NoDup tf_eqb tf_eqb_eq). apply (keys_distinct_ddel tf_eqb).
        now apply (keys_distinct_NoDup tf_eqb tf_eqb_eq).
      + intros t' x' s' Hin. apply ddel_incl in Hin. auto.
    - split.
      + apply (keys_distinct_NoDup tf_eqb tf_eqb_eq). apply (keys_distinct_dset tf_eqb).
        now apply (keys_distinct_NoDup tf_eqb tf_eqb_eq).
      + intros t' x' s' Hin. apply dset_In_gen in Hin as [[-> [E | [s0 Hin]]] | Hin]; auto.
        * injection E as -> ->. split; [auto | split].
          -- apply orb_true_iff in Hx as [Hx | Hx]; [left; now apply String.eqb_eq | right; now apply has_field_iff].
          -- now apply String.eqb_neq.
        * apply Hk in Hin as (A & B & _). split; [auto | split]; auto. now apply String.eqb_neq.
  Qed.

  Lemma or_raise_inv : forall f o, inv f -> (forall g, o = Some g -> inv g) -> inv (fst (or_raise f o)).
  Proof. intros f [g |] H1 H2; simpl; auto. Qed.

  Theorem step_inv : forall f o, inv f -> inv (fst (step f o)).
  Proof.
    intros f o H. destruct o; simpl; try (apply or_raise_inv; auto; intros g Hg).
    - eapply set_data_type_inv; eauto.
    - eapply clear_data_type_inv; eauto.
    - eapply add_pred_inv; eauto.
    - eapply add_parameter_inv; eauto.
    - eapply remove_parameter_inv; eauto.
    - eapply set_default_inv; eauto.
    - now apply set_defaults_inv.
    - eapply set_gens_inv; eauto.
    - eapply clear_fks_inv; eauto.
    - eapply add_fk_inv; eauto.
    - destruct (f_used f); [discriminate |].
      destruct (add_implied n (plain_schema f) (f_fks f)) as [r |] eqn:E; [| discriminate].
      injection Hg as <-. apply inv_with_fks; auto. eapply add_implied_good; eauto. apply (inv_fks _ _ H).
    - destruct H. constructor; simpl; auto.
    - eapply set_tip_inv; eauto.
    - destruct (good_flag v) eqn:E; [| discriminate]. injection Hg as <-. destruct H. constructor; simpl; tauto.
    - destruct (good_xlsx v) eqn:E; [| discriminate]. injection Hg as <-. destruct H. constructor; simpl; tauto.
    - destruct (good_dup v) eqn:E; [| discriminate]. injection Hg as <-. destruct H. constructor; simpl; tauto.
    - destruct (good_auto v) eqn:E; [| discriminate]. injection Hg as <-. destruct H. constructor; simpl; tauto.
    - destruct H. constructor; simpl; auto.
  Qed.

  Theorem run_inv : forall ops f, inv f -> inv (run parses f ops).
  Proof.
    induction ops as [| o ops IH]; intros f H; simpl; auto. apply IH. now apply step_inv.
  Qed.

  Theorem reachable_inv : forall f, reachable parses f -> inv f.
  Proof. intros f (d & f0 & ops & Hi & ->). apply run_inv. eapply init_inv; eauto. Qed.
End Steps.
