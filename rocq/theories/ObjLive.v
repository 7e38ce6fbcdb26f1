(** * Histories of calls on TicDat objects: row shapes, missing keys, freezing. *)
From Coq Require Import ZArith Bool List String Arith Lia.
From Verif Require Import PyVal PyValFacts PyDict PyDictFacts ListFacts Data FindTypes FindTypesFacts FK FKFacts
  GraphFacts FactoryFacts Obj ObjFacts ObjMore.
Import ListNotations.
Local Open Scope string_scope.
Local Open Scope list_scope.

(** ** Specification vocabulary *)

(** A row object of the table: a row with exactly the data fields; the empty
    dict if the table has none. *)
Definition row_ok (ts : tschema) (r : rowobj) : Prop :=
  match r with
  | RoRow _ c => tdf ts <> [] /\ List.length c = List.length (tdf ts)
  | RoFree _ l => tdf ts = [] /\ l = []
  | RoRaw _ => False
  end.

Definition ktable_ok (ts : tschema) (s : ktable) : Prop :=
  no_equal_keys (map fst (k_rows s)) /\
  forall k r, In (k, r) (k_rows s) -> key_shape ts k /\ row_ok ts r.

Definition ltable_ok (ts : tschema) (s : ltable) : Prop := forall r, In r (l_rows s) -> row_ok ts r.

(** The calls that go through TicDat's own code: not [update], [setdefault] and
    [|=] of the table, which store plain dicts, and no writes into the rows of
    a table without data fields. *)
Definition checked_k (ts : tschema) (o : kop) : Prop :=
  match o with
  | KUpdate _ | KSetDefault _ _ | KIor _ => False
  | KRowSet _ _ _ | KRowUpdate _ _ | KRowSetDefault _ _ _ => tdf ts <> []
  | _ => True
  end.
Definition checked_l (ts : tschema) (o : lop) : Prop :=
  match o with
  | LRowSet _ _ _ | LRowUpdate _ _ | LRowSetDefault _ _ _ => tdf ts <> []
  | _ => True
  end.

(** The calls that freezing guards. *)
Definition guarded (o : oop) : Prop :=
  match o with
  | OnK _ (KSetDefault _ _) | OnK _ KPopItem | OnK _ KClear | OnK _ (KIor _) | OnK _ (KRowSetDefault _ _ _)
  | OnL _ (LRowSetDefault _ _ _) => False
  | _ => True
  end.

(** What the user sees of an object: keys and cells. *)
Definition row_data (r : rowobj) : row + list (string * value) :=
  match r with RoRow _ c => inl c | RoFree _ l | RoRaw l => inr l end.
Definition table_data (x : live_table) : list (pkey * (row + list (string * value))) + list (row + list (string * value)) :=
  match x with
  | LK s => inl (map (fun kr => (fst kr, row_data (snd kr))) (k_rows s))
  | LL s => inr (map row_data (l_rows s))
  end.
Definition obj_data (d : live_obj) := map (fun tx => (fst tx, table_data (snd tx))) (o_tables d).

(** ** Rows *)

Lemma make_row_ok : forall dv t ts x r, NoDup (tdf ts) -> make_row dv t ts x = Some r -> row_ok ts r.
Proof.
  intros dv t ts x r Hn H. unfold make_row in H. destruct (row_factory dv t ts x) as [c |] eqn:E.
  2:{ destruct (tdf ts); discriminate. }
  destruct (tdf ts) as [| f fs] eqn:Ed.
  - injection H as <-. simpl. auto.
  - injection H as <-. simpl. rewrite Ed. split; [discriminate |]. apply row_factory_iff in E; [| now rewrite Ed].
    apply fits_length in E. now rewrite Ed in E.
Qed.

Lemma row_set_ok : forall ts r f v r', tdf ts <> [] -> row_ok ts r -> row_set ts r f v = Some r' -> row_ok ts r'.
Proof.
  intros ts [fz c | fz l | l] f v r' Hne Hr H; simpl in *; try tauto.
  destruct (mem_str f (tdf ts) && negb fz); [| discriminate]. injection H as <-. simpl. split; auto.
  now apply set_nth_length.
Qed.

Lemma row_update_ok : forall ts r u r', tdf ts <> [] -> row_ok ts r -> row_update r u = Some r' -> row_ok ts r'.
Proof. intros ts [fz c | fz l | l] u r' Hne Hr H; simpl in *; try tauto. discriminate. Qed.
Lemma row_setdefault_ok : forall ts r f v r', tdf ts <> [] -> row_ok ts r -> row_setdefault r f v = Some r' -> row_ok ts r'.
Proof. intros ts [fz c | fz l | l] f v r' Hne Hr H; simpl in *; try tauto. discriminate. Qed.

Lemma key_ok_shape : forall ts k, key_ok ts k = true -> key_shape ts k.
Proof.
  intros ts [v | l] H; simpl in *.
  - now apply Nat.eqb_eq.
  - apply andb_true_iff in H as [_ H]. now apply Nat.eqb_eq.
Qed.

(** ** Keyed tables *)

Lemma dset_ok : forall ts l k r, no_equal_keys (map fst l) ->
  (forall k r, In (k, r) l -> key_shape ts k /\ row_ok ts r) ->
  ((exists r0, dget pkey_eqb l k = Some r0) \/ key_shape ts k) -> row_ok ts r ->
  no_equal_keys (map fst (dset pkey_eqb l k r)) /\
  forall k' r', In (k', r') (dset pkey_eqb l k r) -> key_shape ts k' /\ row_ok ts r'.
Proof.
  intros ts l k r Hk Hl Hs Hr. split.
  - apply no_equal_keys_iff. apply (keys_distinct_dset pkey_eqb). now apply no_equal_keys_iff.
  - intros k' r' Hin. apply dset_In_gen in Hin as [[-> [-> | [r0 Hin]]] | Hin].
    + split; auto. destruct Hs as [[r0 Hs] | Hs]; auto. apply dget_In in Hs as (k' & E & Hin).
      apply Hl in Hin as [Hin _]. apply pkey_eqb_iff in E. unfold key_shape in *.
      destruct k, k'; simpl in E; try discriminate; auto. injection E as E.
      apply (f_equal (@List.length value)) in E. rewrite !map_length in E. lia.
    + split; auto. eapply Hl; eauto.
    + eauto.
Qed.

Section K.
  Variable dv : defaults.
  Variable t : string.
  Variable ts : tschema.
  Hypothesis Hnd : NoDup (tdf ts).

  Lemma k_setitem_ok : forall s k x, ktable_ok ts s -> ktable_ok ts (fst (k_setitem dv t ts s k x)).
  Proof.
    intros s k x [H1 H2]. unfold k_setitem. destruct (key_ok ts k) eqn:Ek; [| now split].
    destruct (make_row dv t ts x) as [r |] eqn:Er; [| now split]. destruct (k_frozen s); [now split |]. simpl.
    apply dset_ok; auto.
    - right. now apply key_ok_shape.
    - eapply make_row_ok; eauto.
  Qed.

  Lemma k_getitem_ok : forall s k, ktable_ok ts s -> ktable_ok ts (fst (k_getitem dv t ts s k)).
  Proof.
    intros s k H. unfold k_getitem. cbv zeta. cbn [fst].
    destruct (negb _ && negb _); auto. now apply k_setitem_ok.
  Qed.

  Lemma on_row_ok : forall s k h, ktable_ok ts s ->
    (forall r r', row_ok ts r -> h r = Some r' -> row_ok ts r') -> ktable_ok ts (fst (on_row dv t ts s k h)).
  Proof.
    intros s k h H Hh. unfold on_row. pose proof (k_getitem_ok s k H) as H'.
    assert (snd (k_getitem dv t ts s k) = dget pkey_eqb (k_rows (fst (k_getitem dv t ts s k))) k) as Eg by reflexivity.
    destruct (k_getitem dv t ts s k) as [s' o]. cbn [fst snd] in *. destruct o as [r |]; auto.
    destruct (h r) as [r' |] eqn:E; auto. destruct H' as [A B]. simpl. apply dset_ok; eauto.
    symmetry in Eg. apply dget_In in Eg as (k' & _ & Hin). apply B in Hin. apply (Hh r); auto. tauto.
  Qed.

  Lemma removelast_In {A} : forall (l : list A) x, In x (removelast l) -> In x l.
  Proof.
    induction l as [| a l IH]; intros x H; simpl in *; auto. destruct l as [| b l]; [contradiction |].
    destruct H as [-> | H]; auto.
  Qed.

  Lemma kstep_ok : forall s o, ktable_ok ts s -> checked_k ts o -> ktable_ok ts (fst (kstep dv t ts s o)).
  Proof.
    intros s o H Hc. assert (forall k, ktable_ok ts (set_rows s (ddel pkey_eqb (k_rows s) k))) as Hdel.
    { intros k. destruct H as [A B]. split; simpl.
      - apply no_equal_keys_iff. apply (keys_distinct_ddel pkey_eqb). now apply no_equal_keys_iff.
      - intros k' r Hin. apply (ddel_incl pkey_eqb) in Hin. auto. }
    destruct o; cbn [kstep]; try contradiction; try exact H.
    - pose proof (k_getitem_ok s p H) as Hg. destruct (k_getitem dv t ts s p). exact Hg.
    - now apply k_setitem_ok.
    - destruct (k_frozen s); auto. destruct (dmem pkey_eqb (k_rows s) p); auto. apply Hdel.
    - destruct (k_frozen s); auto. destruct (dmem pkey_eqb (k_rows s) p); auto. apply Hdel.
    - destruct (k_rows s) as [| kr l] eqn:E; [exact H |]. destruct H as [A B]. rewrite E in *. split; cbn [fst set_rows k_rows].
      + unfold no_equal_keys in *. assert (forall (m : list (pkey * rowobj)), NoDup (map canon_key (map fst m)) ->
          NoDup (map canon_key (map fst (removelast m)))) as Hrl.
        { clear. induction m as [| a m IH]; intros Hn; auto. inversion Hn as [| ? ? N1 N2]; subst.
          destruct m as [| b m]; [constructor |]. change (removelast (a :: b :: m)) with (a :: removelast (b :: m)).
          cbn [map]. constructor; auto. intros Hin. apply N1. rewrite !map_map in *.
          apply in_map_iff in Hin as (x & Ex & Hin). apply removelast_In in Hin. rewrite <- Ex.
          apply (in_map (fun y => canon_key (fst y))). exact Hin. }
        now apply Hrl.
      + intros k r Hin. apply removelast_In in Hin. auto.
    - split; simpl; [constructor | tauto].
    - apply on_row_ok; auto. intros r r'. now apply row_set_ok.
    - apply on_row_ok; auto. intros r r'. now apply row_update_ok.
    - apply on_row_ok; auto. intros r r'. now apply row_setdefault_ok.
  Qed.

  Theorem krun_ok : forall ops s, ktable_ok ts s -> Forall (checked_k ts) ops -> ktable_ok ts (krun dv t ts s ops).
  Proof.
    induction ops as [| o ops IH]; intros s H Hf; auto. inversion Hf; subst. apply IH; auto. now apply kstep_ok.
  Qed.

  (** ** Lists *)

  Lemma set_at_In {A} : forall i (x : A) l y, In y (set_at i x l) -> y = x \/ In y l.
  Proof.
    induction i as [| i IH]; intros x [| a l] y H; simpl in *; auto.
    - destruct H as [-> | H]; auto.
    - destruct H as [-> | H]; auto. apply IH in H. tauto.
  Qed.
  Lemma del_at_In {A} : forall i (l : list A) y, In y (del_at i l) -> In y l.
  Proof.
    induction i as [| i IH]; intros [| a l] y H; simpl in *; auto. destruct H as [-> | H]; auto.
  Qed.

  Lemma l_on_row_ok : forall s i h, ltable_ok ts s ->
    (forall r r', row_ok ts r -> h r = Some r' -> row_ok ts r') -> ltable_ok ts (fst (l_on_row s i h)).
  Proof.
    intros s i h H Hh. unfold l_on_row. destruct (nth_error (l_rows s) i) as [r |] eqn:E; auto.
    destruct (h r) as [r' |] eqn:Eh; auto. intros x Hx. simpl in Hx. apply set_at_In in Hx as [-> | Hx]; auto.
    apply (Hh r); auto. apply H. now apply nth_error_In in E.
  Qed.

  Lemma lstep_ok : forall s o, ltable_ok ts s -> checked_l ts o -> ltable_ok ts (fst (lstep dv t ts s o)).
  Proof.
    intros s o H Hc. destruct o; cbn [lstep].
    - destruct (make_row dv t ts r) as [x |] eqn:E; auto. destruct (l_frozen s); auto. intros y Hy. simpl in Hy.
      apply in_app_iff in Hy as [Hy | [<- | Hy]].
      + apply H. now apply firstn_In in Hy || (rewrite <- (firstn_skipn n (l_rows s)); apply in_app_iff; auto).
      + eapply make_row_ok; eauto.
      + apply H. rewrite <- (firstn_skipn n (l_rows s)); apply in_app_iff; auto.
    - destruct (make_row dv t ts r) as [x |] eqn:E; auto. destruct (_ || _); auto. intros y Hy. simpl in Hy.
      apply set_at_In in Hy as [-> | Hy]; auto. eapply make_row_ok; eauto.
    - destruct (_ || _); auto. intros y Hy. simpl in Hy. apply del_at_In in Hy. auto.
    - apply l_on_row_ok; auto. intros x x'. now apply row_set_ok.
    - apply l_on_row_ok; auto. intros x x'. now apply row_update_ok.
    - apply l_on_row_ok; auto. intros x x'. now apply row_setdefault_ok.
  Qed.

  Theorem lrun_ok : forall ops s, ltable_ok ts s -> Forall (checked_l ts) ops -> ltable_ok ts (lrun dv t ts s ops).
  Proof.
    induction ops as [| o ops IH]; intros s H Hf; auto. inversion Hf; subst. apply IH; auto. now apply lstep_ok.
  Qed.

  (** ** Reading and writing a cell *)

  Lemma mem_str_true : forall f l, In f l -> mem_str f l = true.
  Proof. intros. now apply mem_str_iff. Qed.

  Theorem write_read : forall s k c f v, ktable_ok ts s -> dget pkey_eqb (k_rows s) k = Some (RoRow false c) ->
    In f (tdf ts) ->
    exists s' c', kstep dv t ts s (KRowSet k f v) = (s', false) /\
      dget pkey_eqb (k_rows s') k = Some (RoRow false c') /\
      cell_at ts c' f = Some v /\ (forall g, g <> f -> cell_at ts c' g = cell_at ts c g) /\
      (forall k', pkey_eqb k k' = false -> dget pkey_eqb (k_rows s') k' = dget pkey_eqb (k_rows s) k') /\
      map fst (k_rows s') = map fst (k_rows s) /\ k_frozen s' = k_frozen s.
  Proof.
    intros s k c f v [_ Hok] Hg Hf.
    assert (List.length c = List.length (tdf ts)) as Hl.
    { pose proof (dget_In _ _ _ _ Hg) as (k' & _ & Hin). apply Hok in Hin. simpl in Hin. tauto. }
    exists (set_rows s (dset pkey_eqb (k_rows s) k (RoRow false (set_nth_cell (tdf ts) c f v)))).
    exists (set_nth_cell (tdf ts) c f v). split.
    { cbn [kstep]. unfold on_row, k_getitem. unfold dmem. rewrite Hg. cbn [negb andb]. rewrite Hg. cbn [row_set].
      rewrite (mem_str_true f) by auto. reflexivity. }
    cbn [set_rows k_rows k_frozen]. split; [| split; [| split; [| split; [| split; auto]]]].
    - apply (dget_dset_same pkey_eqb pkey_eqb_refl).
    - unfold cell_at. rewrite set_nth_get by auto. now rewrite String.eqb_refl.
    - intros g Hgf. unfold cell_at. destruct (in_dec string_dec g (tdf ts)) as [Hin | Hin].
      + rewrite set_nth_get by auto. destruct (String.eqb f g) eqn:E; auto. apply String.eqb_eq in E. congruence.
      + assert (forall r : row, dget String.eqb (combine (tdf ts) r) g = None) as Hnone.
        { intros r. apply (dget_None String.eqb). intros f' v' Hc. apply in_combine_l in Hc.
          apply String.eqb_neq. congruence. }
        now rewrite !Hnone.
    - intros k' Hk. apply (dget_dset_other pkey_eqb pkey_eqb_sym pkey_eqb_trans); auto.
    - apply (dset_keys_mem pkey_eqb). congruence.
  Qed.

  Theorem write_other : forall s k fz c f v, dget pkey_eqb (k_rows s) k = Some (RoRow fz c) ->
    ~ In f (tdf ts) -> kstep dv t ts s (KRowSet k f v) = (s, true).
  Proof.
    intros s k fz c f v Hg Hf. cbn [kstep]. unfold on_row, k_getitem. unfold dmem. rewrite Hg. cbn [negb andb].
    rewrite Hg. cbn [row_set]. replace (mem_str f (tdf ts)) with false; auto. symmetry. now apply mem_str_false.
  Qed.

  (** ** Missing keys *)

  (** The default row of the table. *)
  Definition default_row (r : rowobj) : Prop :=
    match r with
    | RoRow fz c => fz = false /\ tdf ts <> [] /\ List.length c = List.length (tdf ts) /\
        forall f, In f (tdf ts) -> cell_at ts c f = Some (match dget2 dv t f with Some v => v | None => VNum (of_int 0) end)
    | RoFree fz l => fz = false /\ tdf ts = [] /\ l = []
    | RoRaw _ => False
    end.

  Lemma make_default : exists r, make_row dv t ts (RDict []) = Some r /\ default_row r.
  Proof.
    unfold make_row. destruct (tdf ts) as [| f fs] eqn:Ed.
    - unfold row_factory. rewrite Ed. simpl. exists (RoFree false []). simpl. auto.
    - unfold row_factory. rewrite Ed. cbn [forallb fold_left option_map]. eexists. split; [reflexivity |].
      cbn [default_row]. split; auto. rewrite Ed. split; [discriminate |]. rewrite <- Ed. rewrite map_length. split; auto.
      intros g Hg. unfold cell_at. rewrite dget_combine_map by auto. reflexivity.
  Qed.

  Theorem missing_key : forall s k, k_frozen s = false -> dget pkey_eqb (k_rows s) k = None -> key_ok ts k = true ->
    exists r, default_row r /\ k_getitem dv t ts s k = (mkK false (k_rows s ++ [(k, r)]), Some r).
  Proof.
    intros s k Hz Hg Hk. destruct make_default as (r & Hr & Hd). exists r. split; auto.
    unfold k_getitem, dmem. rewrite Hg, Hz. cbn [negb andb]. unfold k_setitem. rewrite Hk, Hr, Hz. cbn [fst set_rows k_rows].
    rewrite (dget_dset_same pkey_eqb pkey_eqb_refl). rewrite (dset_absent pkey_eqb) by auto. unfold set_rows.
    now rewrite Hz.
  Qed.

  Theorem present_key : forall s k r, dget pkey_eqb (k_rows s) k = Some r -> k_getitem dv t ts s k = (s, Some r).
  Proof.
    intros s k r H. unfold k_getitem, dmem. rewrite H. cbn [negb andb]. now rewrite H.
  Qed.

  Theorem bad_key : forall s k, dget pkey_eqb (k_rows s) k = None -> k_frozen s = true \/ key_ok ts k = false ->
    k_getitem dv t ts s k = (s, None).
  Proof.
    intros s k H Hor. unfold k_getitem, dmem. rewrite H. destruct (k_frozen s) eqn:E.
    - cbn [negb andb]. now rewrite H.
    - cbn [negb andb]. destruct Hor as [Hor | Hor]; [discriminate |]. unfold k_setitem. rewrite Hor. cbn [fst].
      now rewrite H.
  Qed.

  Theorem bad_key_set : forall s k x, key_ok ts k = false -> k_setitem dv t ts s k x = (s, true).
  Proof. intros s k x H. unfold k_setitem. now rewrite H. Qed.

  Theorem key_ok_iff : forall k, tpk ts <> [] ->
    (key_ok ts k = true <->
     match k with
     | KAtom _ => exists f, tpk ts = [f]
     | KTup l => List.length l = List.length (tpk ts) /\ List.length l <> 1
     end).
  Proof.
    intros [v | l] Hne; simpl.
    - rewrite Nat.eqb_eq. destruct (tpk ts) as [| f [| g m]]; simpl; split; try congruence; eauto; intros [h E]; discriminate.
    - rewrite andb_true_iff, Nat.ltb_lt, Nat.eqb_eq. destruct (tpk ts); [congruence |]. simpl. lia.
  Qed.
End K.

(** ** Objects *)

Definition live_table_ok (ts : tschema) (x : live_table) : Prop :=
  match x with
  | LK s => tpk ts <> [] /\ ktable_ok ts s
  | LL s => tpk ts = [] /\ ltable_ok ts s
  end.

Definition live_ok (sch : schema) (d : live_obj) : Prop :=
  NoDup (map fst (o_tables d)) /\
  (forall t ts, In (t, ts) sch -> In t (map fst (o_tables d))) /\
  forall t x, In (t, x) (o_tables d) -> live_table_ok (ts_of sch t) x.

Definition checked (sch : schema) (o : oop) : Prop :=
  match o with
  | OnK t ko => checked_k (ts_of sch t) ko
  | OnL t lo => checked_l (ts_of sch t) lo
  | SetAttr t x => live_table_ok (ts_of sch t) x
  | LinkSet _ _ => True
  end.

Lemma dset_names {V} : forall (l : list (string * V)) t x, NoDup (map fst l) -> NoDup (map fst (dset String.eqb l t x)).
Proof.
  intros l t x H. apply (keys_distinct_NoDup String.eqb String.eqb_eq). apply (keys_distinct_dset String.eqb).
  now apply (keys_distinct_NoDup String.eqb String.eqb_eq).
Qed.

Lemma dset_covers {V} : forall (l : list (string * V)) t x u, In u (map fst l) -> In u (map fst (dset String.eqb l t x)).
Proof.
  induction l as [| [t0 x0] l IH]; intros t x u H; simpl in *; [tauto |].
  destruct (String.eqb t0 t); simpl; auto. destruct H as [-> | H]; auto.
Qed.

Lemma ostep_ok : forall sch dv d o, (forall t, NoDup (tdf (ts_of sch t))) -> live_ok sch d -> checked sch o ->
  live_ok sch (fst (ostep sch dv d o)).
Proof.
  intros sch dv d o Hnd (Hn & Hcov & H) Hc. destruct o as [t ko | t lo | t x | i k]; cbn [ostep].
  - destruct (dget String.eqb (o_tables d) t) as [[s | s] |] eqn:E; try (split; [| split]; assumption).
    apply dget_In in E as (t' & Et & Hin). apply String.eqb_eq in Et. subst t'.
    destruct (H _ _ Hin) as [Hpk Hok].
    pose proof (kstep_ok dv t (ts_of sch t) (Hnd t) s ko Hok Hc) as Hs.
    destruct (kstep dv t (ts_of sch t) s ko) as [s' r]. cbn [fst] in *. split; [| split]; cbn [o_tables].
    + now apply dset_names.
    + intros u ts Hu. apply dset_covers. eauto.
    + intros t' x Hx. apply dset_In in Hx as [[-> ->] | Hx]; [split; auto |]. now apply H in Hx.
  - destruct (dget String.eqb (o_tables d) t) as [[s | s] |] eqn:E; try (split; [| split]; assumption).
    apply dget_In in E as (t' & Et & Hin). apply String.eqb_eq in Et. subst t'.
    destruct (H _ _ Hin) as [Hpk Hok].
    pose proof (lstep_ok dv t (ts_of sch t) (Hnd t) s lo Hok Hc) as Hs.
    destruct (lstep dv t (ts_of sch t) s lo) as [s' r]. cbn [fst] in *. split; [| split]; cbn [o_tables].
    + now apply dset_names.
    + intros u ts Hu. apply dset_covers. eauto.
    + intros t' x Hx. apply dset_In in Hx as [[-> ->] | Hx]; [split; auto |]. now apply H in Hx.
  - destruct (o_frozen d); [split; [| split]; assumption |]. cbn [fst]. split; [| split]; cbn [o_tables].
    + now apply dset_names.
    + intros u ts Hu. apply dset_covers. eauto.
    + intros t' y Hy. apply dset_In in Hy as [[-> ->] | Hy]; auto.
  - destruct (nth_error (o_links d) i) as [l |]; [| split; [| split]; assumption].
    destruct (lk_frozen l); split; try split; assumption.
Qed.

Theorem orun_ok : forall sch dv ops d, (forall t, NoDup (tdf (ts_of sch t))) -> live_ok sch d ->
  Forall (checked sch) ops -> live_ok sch (orun sch dv d ops).
Proof.
  induction ops as [| o ops IH]; intros d Hnd H Hf; auto. inversion Hf; subst. apply IH; auto. now apply ostep_ok.
Qed.

(** ** Freezing *)

Definition row_frozen (r : rowobj) : Prop :=
  match r with RoRow fz _ | RoFree fz _ => fz = true | RoRaw _ => False end.
Definition table_frozen (x : live_table) : Prop :=
  match x with
  | LK s => k_frozen s = true /\ forall k r, In (k, r) (k_rows s) -> row_frozen r
  | LL s => l_frozen s = true /\ forall r, In r (l_rows s) -> row_frozen r
  end.

Lemma freeze_row_spec : forall r r', freeze_row r = Some r' -> row_frozen r' /\ row_data r' = row_data r.
Proof. intros [fz c | fz [| a l] | l] r' H; try discriminate; injection H as <-; simpl; auto. Qed.

Lemma freeze_table_spec : forall x x', freeze_table x = Some x' -> table_frozen x' /\ table_data x' = table_data x.
Proof.
  intros [s | s] x' H; cbn [freeze_table] in H.
  - destruct (map_opt _ (k_rows s)) as [l |] eqn:E; [| discriminate]. injection H as <-. apply map_opt_Forall2 in E.
    assert (Forall2 (fun a b => fst b = fst a /\ row_frozen (snd b) /\ row_data (snd b) = row_data (snd a)) (k_rows s) l) as Hf.
    { eapply Forall2_imp; [| exact E]. intros [k r] y _ Hy. cbn [fst snd] in *.
      destruct (freeze_row r) as [r' |] eqn:Er; [| discriminate]. injection Hy as <-. apply freeze_row_spec in Er. auto. }
    split; cbn [table_frozen table_data k_frozen k_rows].
    + split; auto. intros k r Hin. destruct (Forall2_In_r _ _ _ _ Hf Hin) as (a & _ & _ & A & _). exact A.
    + f_equal. clear E. induction Hf as [| a b la lb (A & B & C) _ IH]; simpl; auto. rewrite IH, A, C. reflexivity.
  - destruct (map_opt _ (l_rows s)) as [l |] eqn:E; [| discriminate]. injection H as <-. apply map_opt_Forall2 in E.
    assert (Forall2 (fun a b => row_frozen b /\ row_data b = row_data a) (l_rows s) l) as Hf.
    { eapply Forall2_imp; [| exact E]. intros r y _ Hy. now apply freeze_row_spec in Hy. }
    split; cbn [table_frozen table_data l_frozen l_rows].
    + split; auto. intros r Hin. destruct (Forall2_In_r _ _ _ _ Hf Hin) as (a & _ & A & _). exact A.
    + f_equal. clear E. induction Hf as [| a b la lb (B & C) _ IH]; simpl; auto. rewrite IH, C. reflexivity.
Qed.

Lemma frozen_row_set : forall ts r f v, row_frozen r -> row_set ts r f v = None.
Proof. intros ts [fz c | fz l | l] f v H; simpl in *; subst; auto; try contradiction. now rewrite andb_false_r. Qed.
Lemma frozen_row_update : forall r u, row_frozen r -> row_update r u = None.
Proof. intros [fz c | fz l | l] u H; simpl in *; subst; auto; contradiction. Qed.

Lemma frozen_getitem : forall dv t ts s k, k_frozen s = true -> k_getitem dv t ts s k = (s, dget pkey_eqb (k_rows s) k).
Proof. intros dv t ts s k H. unfold k_getitem. rewrite H. now rewrite andb_false_r. Qed.

Lemma kstep_frozen : forall dv t ts s o, table_frozen (LK s) -> guarded (OnK t o) -> fst (kstep dv t ts s o) = s.
Proof.
  intros dv t ts s o [Hz Hr] Hg. destruct o; cbn [kstep guarded] in *; try contradiction; auto.
  - rewrite frozen_getitem by auto. reflexivity.
  - unfold k_setitem. destruct (key_ok ts p); auto. destruct (make_row dv t ts r); auto. now rewrite Hz.
  - now rewrite Hz.
  - now rewrite Hz.
  - now rewrite Hz.
  - unfold on_row. rewrite frozen_getitem by auto. destruct (dget pkey_eqb (k_rows s) p) as [r |] eqn:E; auto.
    rewrite frozen_row_set; auto. apply dget_In in E as (k' & _ & Hin). eauto.
  - unfold on_row. rewrite frozen_getitem by auto. destruct (dget pkey_eqb (k_rows s) p) as [r |] eqn:E; auto.
    rewrite frozen_row_update; auto. apply dget_In in E as (k' & _ & Hin). eauto.
Qed.

Lemma lstep_frozen : forall dv t ts s o, table_frozen (LL s) -> guarded (OnL t o) -> fst (lstep dv t ts s o) = s.
Proof.
  intros dv t ts s o [Hz Hr] Hg. destruct o; cbn [lstep guarded] in *; try contradiction.
  - rewrite Hz. destruct (make_row dv t ts r); auto.
  - rewrite Hz. destruct (make_row dv t ts r); auto.
  - now rewrite Hz.
  - unfold l_on_row. destruct (nth_error (l_rows s) n) as [r |] eqn:E; auto. rewrite frozen_row_set; auto.
    apply Hr. now apply nth_error_In in E.
  - unfold l_on_row. destruct (nth_error (l_rows s) n) as [r |] eqn:E; auto. rewrite frozen_row_update; auto.
    apply Hr. now apply nth_error_In in E.
Qed.

Lemma dset_self {V} : forall (l : list (string * V)) t x, dget String.eqb l t = Some x -> dset String.eqb l t x = l.
Proof.
  induction l as [| [t0 x0] l IH]; intros t x H; simpl in *; [discriminate |].
  destruct (String.eqb t0 t) eqn:E; [now injection H as -> |]. now rewrite IH.
Qed.

Definition obj_frozen (d : live_obj) : Prop :=
  o_frozen d = true /\ forall t x, In (t, x) (o_tables d) -> table_frozen x.

Lemma ostep_frozen : forall sch dv d o, obj_frozen d -> guarded o ->
  o_tables (fst (ostep sch dv d o)) = o_tables d /\ o_frozen (fst (ostep sch dv d o)) = o_frozen d.
Proof.
  intros sch dv d o [Hz H] Hg. destruct o as [t ko | t lo | t x | i k]; cbn [ostep].
  - destruct (dget String.eqb (o_tables d) t) as [[s | s] |] eqn:E; auto.
    pose proof (dget_In _ _ _ _ E) as (t' & _ & Hin). apply H in Hin.
    pose proof (kstep_frozen dv t (ts_of sch t) s ko Hin Hg) as Hs.
    destruct (kstep dv t (ts_of sch t) s ko) as [s' r]. cbn [fst] in *. subst s'. simpl. split; auto. now apply dset_self.
  - destruct (dget String.eqb (o_tables d) t) as [[s | s] |] eqn:E; auto.
    pose proof (dget_In _ _ _ _ E) as (t' & _ & Hin). apply H in Hin.
    pose proof (lstep_frozen dv t (ts_of sch t) s lo Hin Hg) as Hs.
    destruct (lstep dv t (ts_of sch t) s lo) as [s' r]. cbn [fst] in *. subst s'. simpl. split; auto. now apply dset_self.
  - rewrite Hz. auto.
  - destruct (nth_error (o_links d) i) as [l |]; auto. destruct (lk_frozen l); auto.
Qed.

Lemma freeze_spec : forall d d', freeze d = Some d' -> obj_frozen d' /\ obj_data d' = obj_data d.
Proof.
  intros d d' H. unfold freeze in H. destruct (map_opt _ (o_tables d)) as [l |] eqn:E; [| discriminate].
  injection H as <-. apply map_opt_Forall2 in E.
  assert (Forall2 (fun a b => fst b = fst a /\ table_frozen (snd b) /\ table_data (snd b) = table_data (snd a))
            (o_tables d) l) as Hf.
  { eapply Forall2_imp; [| exact E]. intros [t x] y _ Hy. cbn [fst snd] in *.
    destruct (freeze_table x) as [x' |] eqn:Ex; [| discriminate]. injection Hy as <-. apply freeze_table_spec in Ex. auto. }
  split.
  - split; auto. cbn [o_tables]. intros t x Hin. destruct (Forall2_In_r _ _ _ _ Hf Hin) as (a & _ & _ & A & _). exact A.
  - unfold obj_data. cbn [o_tables]. clear E. induction Hf as [| a b la lb (A & B & C) _ IH]; simpl; auto.
    rewrite IH, A, C. reflexivity.
Qed.

(** Guarded calls never change a frozen object. *)
Theorem frozen_stays : forall sch dv d d' ops, freeze d = Some d' -> Forall guarded ops ->
  obj_data (orun sch dv d' ops) = obj_data d.
Proof.
  intros sch dv d d' ops H Hf. apply freeze_spec in H as [Hz Hd]. rewrite <- Hd. clear Hd d. revert d' Hz.
  induction ops as [| o ops IH]; intros d Hz; auto. inversion Hf; subst. unfold orun in *. cbn [fold_left].
  destruct (ostep_frozen sch dv d o Hz H1) as [A B]. rewrite IH; auto.
  - unfold obj_data. now rewrite A.
  - destruct Hz as [Z1 Z2]. split; [congruence |]. now rewrite A.
Qed.

(** Every well-formed object can be frozen. *)
Theorem freeze_some : forall sch d, live_ok sch d -> exists d', freeze d = Some d'.
Proof.
  intros sch d (_ & _ & H). unfold freeze.
  assert (exists l, map_opt (fun tx => option_map (pair (fst tx)) (freeze_table (snd tx))) (o_tables d) = Some l) as [l ->];
    [| eauto].
  apply map_opt_some. intros [t x] Hin. cbn [fst snd]. specialize (H _ _ Hin).
  assert (exists x', freeze_table x = Some x') as [x' ->]; [| simpl; eauto].
  destruct x as [s | s]; cbn [freeze_table].
  - assert (exists l, map_opt (fun kr => option_map (pair (fst kr)) (freeze_row (snd kr))) (k_rows s) = Some l) as [l ->];
      [| simpl; eauto].
    apply map_opt_some. intros [k r] Hr. cbn [fst snd]. destruct H as [_ [_ H]]. apply H in Hr as [_ Hr].
    destruct r as [fz c | fz l0 | l0]; simpl in *; try tauto; eauto. destruct Hr as [_ ->]. simpl. eauto.
  - assert (exists l, map_opt freeze_row (l_rows s) = Some l) as [l ->]; [| simpl; eauto].
    apply map_opt_some. intros r Hr. destruct H as [_ H]. apply H in Hr.
    destruct r as [fz c | fz l0 | l0]; simpl in *; try tauto; eauto. destruct Hr as [_ ->]. simpl. eauto.
Qed.

(** ** From live objects to datasets *)

Definition row_cells (r : rowobj) : row := match r with RoRow _ c => c | _ => [] end.
Definition snapshot (x : live_table) : otable :=
  match x with
  | LK s => OKeyed (map (fun kr => (fst kr, row_cells (snd kr))) (k_rows s))
  | LL s => OListed (map row_cells (l_rows s))
  end.

Lemma row_cells_length : forall ts r, row_ok ts r -> List.length (row_cells r) = List.length (tdf ts).
Proof. intros ts [fz c | fz l | l] H; simpl in *; try tauto. destruct H as [-> _]. reflexivity. Qed.

Definition snap (d : live_obj) : obj := fun t =>
  match dget String.eqb (o_tables d) t with Some x => snapshot x | None => OListed [] end.

Lemma snap_ok : forall sch d, wf_schema sch -> live_ok sch d -> obj_ok sch (snap d) /\ obj_keys sch (snap d).
Proof.
  intros sch d Hwf (Hn & Hcov & H).
  assert (forall t ts, In (t, ts) sch -> exists x, dget String.eqb (o_tables d) t = Some x /\ live_table_ok ts x) as Hx.
  { intros t ts Hs. specialize (Hcov _ _ Hs). apply in_map_iff in Hcov as ([t' x] & E & Hin). simpl in E. subst t'.
    exists x. split.
    - apply (In_dget String.eqb String.eqb_refl); auto. now apply (keys_distinct_NoDup String.eqb String.eqb_eq).
    - apply H in Hin. now rewrite (ts_of_In _ _ _ Hwf Hs) in Hin. }
  split; intros t ts Hs; destruct (Hx _ _ Hs) as (x & E & Hok); unfold snap; rewrite E; destruct x as [s | s];
    destruct Hok as [Hpk Hok]; cbn [snapshot].
  - unfold table_ok. destruct (tpk ts) eqn:Ep; [congruence |]. intros k r Hin.
    apply in_map_iff in Hin as ([k' r'] & E' & Hin). cbn [fst snd] in E'. injection E' as <- <-.
    destruct Hok as [_ Hok]. destruct (Hok _ _ Hin) as [A B]. split; auto. now apply row_cells_length.
  - unfold table_ok. rewrite Hpk. intros r Hin. apply in_map_iff in Hin as (r' & <- & Hin).
    apply row_cells_length. auto.
  - destruct Hok as [Hok _]. rewrite map_map. cbn [fst]. exact Hok.
  - exact I.
Qed.

(** The live form of a constructed object. *)
Definition live_of (sch : schema) (d : obj) : live_obj :=
  mkO (map (fun tts => (fst tts,
         match d (fst tts) with
         | OKeyed l => LK (live (snd tts) l)
         | OListed l => LL (mkL false (map (fun r => match tdf (snd tts) with [] => RoFree false [] | _ => RoRow false r end) l))
         end)) sch) false [("_all_data_dicts", [])] [].

Lemma live_of_ok : forall sch d, wf_schema sch -> obj_ok sch d -> obj_keys sch d -> live_ok sch (live_of sch d).
Proof.
  intros sch d Hwf Hok Hk. unfold live_of, live_ok. cbn [o_tables]. split; [| split].
  - rewrite map_map. apply Hwf.
  - intros t ts Hs. rewrite map_map. cbn [fst]. now apply (in_map fst) in Hs.
  - intros t x Hin. apply in_map_iff in Hin as ([t' ts] & E & Hs). cbn [fst snd] in E. injection E as <- <-.
    rewrite (ts_of_In _ _ _ Hwf Hs).
    specialize (Hok _ _ Hs). specialize (Hk _ _ Hs). unfold table_ok in Hok. destruct (d t') as [l | l].
    + destruct (tpk ts) eqn:Ep; [contradiction |]. split; [congruence |]. split; cbn [live k_rows].
      * rewrite map_map. cbn [fst]. exact Hk.
      * intros k r Hin. apply in_map_iff in Hin as ([k' r'] & E & Hin). cbn [fst snd] in E. injection E as <- <-.
        destruct (Hok _ _ Hin) as [A B]. split; auto. unfold row_ok. destruct (tdf ts) eqn:Ed; auto.
        split; [discriminate | exact B].
    + destruct (tpk ts) eqn:Ep; [| contradiction]. split; auto. intros r Hin. cbn [l_rows] in Hin.
      apply in_map_iff in Hin as (r' & <- & Hin). specialize (Hok _ Hin). unfold row_ok.
      destruct (tdf ts) eqn:Ed; auto. split; [discriminate | exact Hok].
Qed.

Lemma ts_of_nodup : forall sch, wf_schema sch -> forall t, NoDup (tdf (ts_of sch t)).
Proof.
  intros sch Hwf t. unfold ts_of, dget_or. destruct (dget String.eqb sch t) as [ts |] eqn:E.
  - apply schema_get in E; [| apply Hwf]. eapply wf_data_nodup; eauto.
  - simpl. constructor.
Qed.

(** The constructor gives unique keys, except that a dict argument may have any keys. *)
Definition dict_keys_ok (inputs : list (string * tablein)) : Prop :=
  forall t l, In (t, TDict l) inputs -> no_equal_keys (map fst l).

Theorem construct_keys : forall sch dv mode inputs d, wf_schema sch -> NoDup (map fst inputs) ->
  dict_keys_ok inputs -> construct sch dv mode inputs = Some d -> obj_keys sch d.
Proof.
  intros sch dv mode inputs d Hwf Hn Hd H t ts Hs. apply construct_holds in H as [Hh He]; auto.
  destruct (in_dec string_dec t (map fst inputs)) as [Hin | Hin].
  - apply in_map_iff in Hin as ([t' inp] & E & Hin). simpl in E. subst t'. specialize (Hh _ _ _ Hs Hin).
    unfold holds in Hh. destruct (tpk ts).
    + destruct inp; destruct Hh as (l0 & -> & _); exact I.
    + destruct inp as [kx | rows].
      * destruct Hh as (l0 & -> & Hf). specialize (Hd _ _ Hin). replace (map fst l0) with (map fst kx); auto.
        clear - Hf. induction Hf as [| a b la lb [A _] _ IH]; simpl; congruence.
      * destruct Hh as (l0 & pairs & -> & _ & Hk & _). exact Hk.
  - rewrite (He _ _ Hs Hin). destruct (tpk ts); [exact I | constructor].
Qed.

(** Copies of an object after any checked history are the object. *)
Theorem copy_after_history : forall sch dv mode inputs d ops, wf_schema sch -> NoDup (map fst inputs) ->
  dict_keys_ok inputs -> construct sch dv mode inputs = Some d -> Forall (checked sch) ops ->
  let now := snap (orun sch dv (live_of sch d) ops) in
  exists e, construct sch dv mode (as_dict sch now) = Some e /\ forall t ts, In (t, ts) sch -> e t = now t.
Proof.
  intros sch dv mode inputs d ops Hwf Hn Hd H Hops. cbv zeta. apply as_dict_round_trip; auto.
  apply snap_ok; auto. apply orun_ok; auto; [now apply ts_of_nodup |]. apply live_of_ok; auto.
  - eapply construct_ok; eauto.
  - eapply construct_keys; eauto.
Qed.
