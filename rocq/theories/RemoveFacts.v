(** * Specification and correctness of remove_foreign_key_failures. *)
From Coq Require Import ZArith Bool List String Arith Lia Sorted Permutation.
From Verif Require Import PyVal PyValFacts PyDict PyDictFacts ListFacts Data FindTypes FindTypesFacts
  ReplaceFacts Report FK FKFacts.
Import ListNotations.

(** ** Specification *)

(** [sublist l l']: [l] is [l'] with some elements deleted, order kept. *)
Inductive sublist {A} : list A -> list A -> Prop :=
| sub_nil  : sublist [] []
| sub_skip : forall x l l', sublist l l' -> sublist l (x :: l')
| sub_keep : forall x l l', sublist l l' -> sublist (x :: l) (x :: l').

Definition sub_table (a b : table) : Prop :=
  match a, b with
  | Keyed l, Keyed l' => sublist l l'
  | Listed l, Listed l' => sublist l l'
  | _, _ => False
  end.

(** [e] is [d] with rows deleted. *)
Definition sub_dat (sch : schema) (e d : dat) : Prop :=
  forall t ts, In (t, ts) sch -> sub_table (e t) (d t).

(** Every row of every native table finds a parent. *)
Definition consistent (sch : schema) (fks : list fk) (d : dat) : Prop :=
  forall f rid, In f fks -> ~ orphan sch d f rid.

(** Deleting the rows selected by [p]. *)
Definition drop_rows (p : rowid -> bool) (tb : table) : table :=
  match tb with
  | Keyed l => Keyed (filter (fun kr => negb (p (RPk (fst kr)))) l)
  | Listed l => Listed (map snd (filter (fun ir => negb (p (RIdx (fst ir)))) (enum_from 0 l)))
  end.

(** ** Lists *)

Lemma sublist_refl {A} : forall l : list A, sublist l l.
Proof. induction l; [constructor | now apply sub_keep]. Qed.

Lemma sublist_nil {A} : forall l : list A, sublist [] l.
Proof. induction l; constructor; auto. Qed.

Lemma sublist_trans {A} : forall a b c : list A, sublist a b -> sublist b c -> sublist a c.
Proof.
  intros a b c H1 H2. revert a H1. induction H2; intros a H1; auto.
  - apply sub_skip. auto.
  - inversion H1; subst; [apply sub_skip | apply sub_keep]; auto.
Qed.

Lemma sublist_In {A} : forall (a b : list A) x, sublist a b -> In x a -> In x b.
Proof.
  intros a b x H. induction H; simpl; auto. intros [-> | Hx]; auto.
Qed.

Lemma sublist_filter {A} (p : A -> bool) : forall l, sublist (filter p l) l.
Proof.
  induction l as [| x l IH]; simpl; [constructor |].
  destruct (p x); [apply sub_keep | apply sub_skip]; auto.
Qed.

Lemma sublist_filter_greatest {A} (p : A -> bool) : forall a b,
  sublist a b -> (forall x, In x a -> p x = true) -> sublist a (filter p b).
Proof.
  intros a b H. induction H; intros Hp; simpl.
  - constructor.
  - destruct (p x); [apply sub_skip |]; auto.
  - rewrite (Hp x) by (now left). apply sub_keep. apply IHsublist. intros y Hy. apply Hp. now right.
Qed.

Lemma sublist_map {A B} (g : A -> B) : forall a b, sublist a b -> sublist (map g a) (map g b).
Proof. intros a b H. induction H; simpl; [constructor | apply sub_skip | apply sub_keep]; auto. Qed.

Lemma sublist_length {A} : forall a b : list A, sublist a b -> List.length a <= List.length b.
Proof. intros a b H. induction H; simpl; lia. Qed.

Lemma sublist_NoDup {A} : forall a b : list A, sublist a b -> NoDup b -> NoDup a.
Proof.
  intros a b H. induction H; intros Hn; auto; inversion Hn; subst; auto.
  constructor; auto. intros Hx. eapply sublist_In in Hx; eauto.
Qed.

Lemma sublist_length_eq {A} : forall a b : list A, sublist a b -> List.length a = List.length b -> a = b.
Proof.
  intros a b H. induction H; simpl; intros E; auto.
  - apply sublist_length in H. lia.
  - f_equal. auto.
Qed.

Lemma filter_id {A} (p : A -> bool) : forall l, (forall x, In x l -> p x = true) -> filter p l = l.
Proof.
  induction l as [| x l IH]; simpl; intros H; auto. rewrite H by (now left). f_equal. apply IH.
  intros y Hy. apply H. now right.
Qed.

Lemma filter_filter {A} (p q : A -> bool) : forall l,
  filter p (filter q l) = filter (fun x => q x && p x) l.
Proof.
  induction l as [| x l IH]; simpl; auto. destruct (q x); simpl; [destruct (p x) |]; now rewrite IH.
Qed.

(** ** Popping positions in descending order *)

Lemma pop_filter {A} (p : nat -> bool) : forall (l : list A) i i0,
  (forall j, i0 + i <= j -> p j = true) ->
  map snd (filter (fun ir => p (fst ir)) (enum_from i0 (pop_at i l))) =
  map snd (filter (fun ir => p (fst ir) && negb (fst ir =? i0 + i)) (enum_from i0 l)).
Proof.
  induction l as [| x l IH]; intros i i0 Hp; [now destruct i |].
  destruct i as [| i]; simpl.
  - assert (i0 + 0 = i0) as E0 by lia. rewrite E0 in *. rewrite Nat.eqb_refl. simpl. rewrite andb_false_r.
    rewrite filter_id.
    + rewrite filter_id.
      * now rewrite !map_snd_enum.
      * intros [j y] Hin. simpl. apply In_enum_from in Hin as [Hj _]. rewrite Hp by lia. simpl.
        apply negb_true_iff, Nat.eqb_neq. lia.
    + intros [j y] Hin. simpl. apply In_enum_from in Hin as [Hj _]. apply Hp. lia.
  - destruct (i0 =? i0 + S i) eqn:E; [apply Nat.eqb_eq in E; lia |]. simpl. rewrite andb_true_r.
    specialize (IH i (S i0)). replace (S i0 + i) with (i0 + S i) in IH by lia.
    destruct (p i0); simpl; rewrite IH; auto; intros j Hj; apply Hp; lia.
Qed.

Lemma pops_desc {A} : forall idxs (l : list A),
  StronglySorted gt idxs ->
  fold_left (fun l i => pop_at i l) idxs l =
  map snd (filter (fun ir => negb (existsb (Nat.eqb (fst ir)) idxs)) (enum_from 0 l)).
Proof.
  induction idxs as [| i idxs IH]; intros l Hs; simpl.
  - rewrite filter_id by auto. now rewrite map_snd_enum.
  - inversion Hs as [| ? ? Hs' Hall]; subst. rewrite IH by auto.
    rewrite (pop_filter (fun j => negb (existsb (Nat.eqb j) idxs)) l i 0).
    + f_equal. apply filter_ext. intros [j y]. simpl. rewrite negb_orb. apply andb_comm.
    + intros j Hj. apply negb_true_iff. destruct (existsb (Nat.eqb j) idxs) eqn:E; auto.
      apply existsb_exists in E as (j' & Hin & E). apply Nat.eqb_eq in E. subst j'.
      rewrite Forall_forall in Hall. apply Hall in Hin. lia.
Qed.

(** ** Sorting *)

Definition ti_ge (a b : string * nat) : Prop := ti_leb b a = true.

Lemma string_compare_refl : forall s, String.compare s s = Eq.
Proof.
  induction s as [| a s IH]; simpl; auto. unfold Ascii.compare. now rewrite N.compare_refl.
Qed.

Lemma ti_leb_total : forall a b, ti_leb a b = false -> ti_leb b a = true.
Proof.
  intros [t i] [t' i']. unfold ti_leb. simpl. rewrite (String.compare_antisym t t').
  destruct (String.compare t' t) eqn:E; simpl; auto; try discriminate.
  intros H. apply Nat.leb_gt in H. apply Nat.leb_le. lia.
Qed.

Lemma insert_desc_perm : forall x l, Permutation (insert_desc x l) (x :: l).
Proof.
  induction l as [| y l IH]; simpl; auto. destruct (ti_leb y x); auto.
  rewrite IH. apply perm_swap.
Qed.

Lemma sort_desc_perm : forall l, Permutation (sort_desc l) l.
Proof.
  induction l as [| x l IH]; simpl; auto. rewrite insert_desc_perm. now constructor.
Qed.

Lemma insert_desc_sorted : forall x l, Sorted ti_ge l -> Sorted ti_ge (insert_desc x l).
Proof.
  induction l as [| y l IH]; simpl; intros H; [repeat constructor |].
  destruct (ti_leb y x) eqn:E.
  - constructor; auto.
  - inversion H; subst. constructor; auto.
    destruct l as [| z l]; simpl.
    + constructor. now apply ti_leb_total.
    + destruct (ti_leb z x); constructor.
      * now apply ti_leb_total.
      * now inversion H3.
Qed.

Lemma sort_desc_sorted : forall l, Sorted ti_ge (sort_desc l).
Proof. induction l; simpl; [constructor | now apply insert_desc_sorted]. Qed.

(** Entries of one table appear with descending positions.  Only adjacent
    comparisons are known, so transitivity of the string order is needed. *)
Lemma ascii_compare_trans : forall a b c o,
  Ascii.compare a b = o -> Ascii.compare b c = o -> Ascii.compare a c = o.
Proof.
  intros a b c o. unfold Ascii.compare. destruct o; intros H1 H2.
  - apply N.compare_eq_iff in H1, H2. apply N.compare_eq_iff. congruence.
  - apply N.compare_lt_iff in H1, H2. apply N.compare_lt_iff. eapply N.lt_trans; eauto.
  - apply N.compare_gt_iff in H1, H2. apply N.compare_gt_iff. eapply N.lt_trans; eauto.
Qed.

Lemma ascii_compare_eq : forall a b, Ascii.compare a b = Eq -> a = b.
Proof.
  intros a b H. unfold Ascii.compare in H. apply N.compare_eq_iff in H.
  rewrite <- (Ascii.ascii_N_embedding a), <- (Ascii.ascii_N_embedding b). now rewrite H.
Qed.

Lemma string_lt_trans : forall a b c,
  String.compare a b = Lt -> String.compare b c = Lt -> String.compare a c = Lt.
Proof.
  induction a as [| x a IH]; intros [| y b] [| z c] H1 H2; simpl in *; try discriminate; auto.
  destruct (Ascii.compare x y) eqn:E1; try discriminate;
    destruct (Ascii.compare y z) eqn:E2; try discriminate.
  - rewrite (ascii_compare_trans _ _ _ _ E1 E2). eauto.
  - apply ascii_compare_eq in E1. subst. now rewrite E2.
  - apply ascii_compare_eq in E2. subst. now rewrite E1.
  - now rewrite (ascii_compare_trans _ _ _ _ E1 E2).
Qed.

Lemma ti_leb_trans : forall a b c, ti_leb a b = true -> ti_leb b c = true -> ti_leb a c = true.
Proof.
  intros [t1 i1] [t2 i2] [t3 i3]. unfold ti_leb. simpl.
  destruct (String.compare t1 t2) eqn:E1; try discriminate;
    destruct (String.compare t2 t3) eqn:E2; try discriminate; intros H1 H2.
  - apply String.compare_eq_iff in E1, E2. subst. rewrite string_compare_refl.
    apply Nat.leb_le in H1, H2. apply Nat.leb_le. lia.
  - apply String.compare_eq_iff in E1. subst. now rewrite E2.
  - apply String.compare_eq_iff in E2. subst. now rewrite E1.
  - now rewrite (string_lt_trans _ _ _ E1 E2).
Qed.

Lemma sort_desc_strong : forall l, StronglySorted ti_ge (sort_desc l).
Proof.
  intros l. apply Sorted_StronglySorted; [| apply sort_desc_sorted].
  intros a b c H1 H2. unfold ti_ge in *. eapply ti_leb_trans; eauto.
Qed.

Definition idxs_of (t : string) (tis : list (string * nat)) : list nat :=
  map snd (filter (fun ti => String.eqb (fst ti) t) tis).

Lemma idxs_sorted : forall t tis, StronglySorted ti_ge tis -> NoDup tis ->
  StronglySorted gt (idxs_of t tis).
Proof.
  intros t tis H. unfold idxs_of. induction H as [| [t0 i0] tis Hs IH Hall]; intros Hnd; simpl; [constructor |].
  inversion Hnd; subst. destruct (String.eqb t0 t) eqn:E; simpl; auto.
  apply String.eqb_eq in E. subst t0. constructor; auto.
  apply Forall_forall. intros j Hj. apply in_map_iff in Hj as ([t1 j'] & Ej & Hj). simpl in Ej. subst j'.
  apply filter_In in Hj as [Hj E]. simpl in E. apply String.eqb_eq in E. subst t1.
  rewrite Forall_forall in Hall. specialize (Hall _ Hj). unfold ti_ge, ti_leb in Hall. simpl in Hall.
  rewrite string_compare_refl in Hall. apply Nat.leb_le in Hall.
  assert (j <> i0) by (intros ->; contradiction). lia.
Qed.

Lemma idxs_mem : forall t tis i,
  existsb (Nat.eqb i) (idxs_of t tis) = existsb (fun ti => ti_eqb ti (t, i)) tis.
Proof.
  intros t tis i. unfold idxs_of. induction tis as [| [t0 i0] tis IH]; simpl; auto.
  unfold ti_eqb. simpl. destruct (String.eqb t0 t); simpl; auto.
  rewrite IH. f_equal. apply Nat.eqb_sym.
Qed.

Lemma fold_pop_one : forall tis d t,
  fold_left pop_one tis d t =
  match d t with
  | Listed l => Listed (fold_left (fun l i => pop_at i l) (idxs_of t tis) l)
  | Keyed l => Keyed l
  end.
Proof.
  induction tis as [| [t0 i0] tis IH]; intros d t; simpl.
  - unfold idxs_of. simpl. now destruct (d t).
  - rewrite IH. unfold pop_one, idxs_of. simpl.
    destruct (String.eqb t0 t) eqn:E; simpl.
    + apply String.eqb_eq in E. subst t0. destruct (d t) eqn:Ed; [now rewrite Ed |].
      unfold upd_tbl. now rewrite String.eqb_refl.
    + destruct (d t0) eqn:Ed; auto. unfold upd_tbl. now rewrite E.
Qed.

(** ** Deleting keyed rows *)

Definition trs_of (rep : freport) : list (string * rowid) :=
  flat_map (fun e => map (fun rid => (fk_native (fst e), rid)) (snd (snd e))) rep.

Lemma remove_pass_flat : forall sch rep d,
  remove_pass sch rep d =
  (let (d1, need) := fold_left (fun s tr => del_one sch (fst tr) s (snd tr)) (trs_of rep) (d, []) in
   fold_left pop_one (sort_desc need) d1).
Proof.
  intros sch rep d. unfold remove_pass, trs_of. rewrite <- fold_left_flat_map.
  erewrite (fold_left_ext_in (fun s e => fold_left (del_one sch (fk_native (fst e))) (snd (snd e)) s)).
  - reflexivity.
  - intros s e _. simpl. now rewrite fold_left_map.
Qed.

Definition hits (trs : list (string * rowid)) (t : string) (rid : rowid) : bool :=
  existsb (fun tr => String.eqb (fst tr) t && rowid_pyeq rid (snd tr)) trs.

Lemma ti_eqb_eq : forall a b, ti_eqb a b = true <-> a = b.
Proof.
  intros [t i] [t' i']. unfold ti_eqb. simpl. rewrite andb_true_iff, String.eqb_eq, Nat.eqb_eq.
  split; [intros [-> ->]; auto | intros E; injection E; auto].
Qed.

Lemma sadd_ti_In : forall need x y, In y (sadd ti_eqb need x) <-> In y need \/ y = x.
Proof.
  intros need x y. split; [apply sadd_In |]. intros [H | ->]; [now apply sadd_keeps |].
  destruct (sadd_has ti_eqb (fun a => proj2 (ti_eqb_eq a a) eq_refl) need x) as (y & Hy & E).
  apply ti_eqb_eq in E. now subst.
Qed.

Lemma sadd_ti_NoDup : forall need x, NoDup need -> NoDup (sadd ti_eqb need x).
Proof.
  intros need x H. unfold sadd. destruct (smem ti_eqb need x) eqn:E; auto.
  apply NoDup_app_intro; auto; [repeat constructor; simpl; tauto |].
  intros y Hy [<- | []]. assert (smem ti_eqb need x = true) as E'; [| congruence].
  apply smem_iff. exists x. split; auto. now apply ti_eqb_eq.
Qed.

Lemma drop_rows_ext : forall p q tb, (forall rid, p rid = q rid) -> drop_rows p tb = drop_rows q tb.
Proof.
  intros p q [l | l] H; simpl; f_equal; [| f_equal]; apply filter_ext; intros; now rewrite H.
Qed.

Lemma drop_rows_none : forall p tb, (forall rid, p rid = false) -> drop_rows p tb = tb.
Proof.
  intros p [l | l] H; simpl; f_equal.
  - apply filter_id. intros. now rewrite H.
  - rewrite filter_id by (intros; now rewrite H). apply map_snd_enum.
Qed.

Lemma distinct_keys_kd : forall (l : list (key * row)),
  distinct_keys (map fst l) -> keys_distinct key_pyeq (map fst l).
Proof.
  intros l. unfold distinct_keys. generalize (map fst l). clear l.
  induction l as [| k l IH]; simpl; intros H; auto. inversion H; subst. split; auto.
  intros k' Hk'. apply key_pyeq_neq. intros E. apply H2. rewrite E. now apply in_map.
Qed.

Lemma del_all_keyed : forall sch trs d need t ts l,
  wf_schema sch -> In (t, ts) sch -> tpk ts <> [] -> d t = Keyed l -> distinct_keys (map fst l) ->
  fst (fold_left (fun s tr => del_one sch (fst tr) s (snd tr)) trs (d, need)) t =
  drop_rows (hits trs t) (Keyed l).
Proof.
  intros sch trs. induction trs as [| [t0 rid] trs IH]; intros d need t ts l Hs Hin Hpk Hl Hdist.
  - simpl. rewrite Hl. f_equal. symmetry. apply filter_id. auto.
  - simpl fold_left.
    destruct (String.eqb t0 t) eqn:Et.
    + apply String.eqb_eq in Et. subst t0. rewrite (ts_of_In _ _ _ Hs Hin).
      destruct (tpk ts) eqn:Ep; [congruence |]. rewrite <- Ep in *. rewrite Hl.
      destruct rid as [k | i].
      * pose proof (distinct_keys_kd l Hdist) as Hkd.
        assert (ddel key_pyeq l k = filter (fun kv => negb (key_pyeq (fst kv) k)) l) as Edel.
        { apply ddel_filter; auto; [apply key_pyeq_sym | apply key_pyeq_trans]. }
        destruct (dmem key_pyeq l k) eqn:Em.
        -- rewrite (IH _ need t ts (ddel key_pyeq l k)); auto.
           ++ simpl. f_equal. rewrite Edel, filter_filter. apply filter_ext. intros [k' r']. simpl.
              unfold hits. simpl. rewrite String.eqb_refl. simpl. now rewrite negb_orb.
           ++ unfold upd_tbl. now rewrite String.eqb_refl.
           ++ rewrite Edel. unfold distinct_keys in *. rewrite map_map in *.
              now apply filter_NoDup_map.
        -- rewrite (IH _ need t ts l); auto. simpl. f_equal. apply filter_ext_in. intros [k' r'] Hkr. simpl.
           unfold hits. simpl. rewrite String.eqb_refl. simpl.
           assert (key_pyeq k' k = false) as ->; auto.
           unfold dmem in Em. destruct (dget key_pyeq l k) eqn:Eg; [discriminate |].
           eapply (proj1 (dget_None key_pyeq l k)) in Eg; eauto.
      * rewrite (IH _ need t ts l); auto. simpl. f_equal. apply filter_ext. intros [k' r']. simpl.
        unfold hits. simpl. now rewrite andb_false_r.
    + assert (forall s', fst s' t = Keyed l ->
        fst (fold_left (fun s tr => del_one sch (fst tr) s (snd tr)) trs s') t =
        drop_rows (hits trs t) (Keyed l)) as Hrec.
      { intros [d' need'] Hd'. eapply IH; eauto. }
      rewrite Hrec.
      * simpl. f_equal. apply filter_ext. intros [k' r']. unfold hits. simpl. now rewrite Et.
      * destruct (tpk (ts_of sch t0)) eqn:Ep.
        -- destruct rid; auto.
        -- destruct (d t0); auto. destruct rid; auto. destruct (dmem key_pyeq l1 k); auto.
           simpl. unfold upd_tbl. now rewrite Et.
Qed.

Lemma del_all_unkeyed : forall sch trs s t,
  tpk (ts_of sch t) = [] ->
  fst (fold_left (fun s tr => del_one sch (fst tr) s (snd tr)) trs s) t = fst s t.
Proof.
  intros sch trs. induction trs as [| [t0 rid] trs IH]; intros [d need] t Hpk; simpl; auto.
  rewrite IH by auto. destruct (tpk (ts_of sch t0)) eqn:Ep.
  - destruct rid; auto.
  - destruct (d t0); auto. destruct rid; auto. destruct (dmem key_pyeq l0 k); auto.
    simpl. unfold upd_tbl. destruct (String.eqb t0 t) eqn:E; auto.
    apply String.eqb_eq in E. subst. congruence.
Qed.

Lemma del_all_other : forall sch trs s t,
  (forall rid, ~ In (t, rid) trs) ->
  fst (fold_left (fun s tr => del_one sch (fst tr) s (snd tr)) trs s) t = fst s t.
Proof.
  intros sch trs. induction trs as [| [t0 rid] trs IH]; intros [d need] t Hn; simpl; auto.
  rewrite IH by (intros r H; apply (Hn r); now right).
  assert (String.eqb t0 t = false) as E.
  { apply String.eqb_neq. intros ->. apply (Hn rid). now left. }
  destruct (tpk (ts_of sch t0)) eqn:Ep.
  - destruct rid; auto.
  - destruct (d t0); auto. destruct rid; auto. destruct (dmem key_pyeq l0 k); auto.
    simpl. unfold upd_tbl. now rewrite E.
Qed.

Lemma del_all_need : forall sch trs s,
  (forall t i, In (t, i) (snd (fold_left (fun s tr => del_one sch (fst tr) s (snd tr)) trs s)) <->
     In (t, i) (snd s) \/ (tpk (ts_of sch t) = [] /\ In (t, RIdx i) trs)) /\
  (NoDup (snd s) -> NoDup (snd (fold_left (fun s tr => del_one sch (fst tr) s (snd tr)) trs s))).
Proof.
  intros sch trs. induction trs as [| [t0 rid] trs IH]; intros [d need]; simpl.
  - split; auto. intros t i. tauto.
  - match goal with |- context [fold_left ?F trs ?S] => destruct (IH S) as [IH1 IH2] end.
    split.
    + intros t i. rewrite IH1. clear IH1 IH2.
      destruct (tpk (ts_of sch t0)) eqn:Ep.
      * destruct rid as [k | j]; simpl.
        -- split; [tauto |]. intros [H | [H1 [H2 | H2]]]; auto; try discriminate.
        -- rewrite sadd_ti_In. split.
           ++ intros [[H | H] | H]; auto.
              ** injection H as -> ->. auto.
              ** tauto.
           ++ intros [H | [H1 [H2 | H2]]]; auto. injection H2 as -> ->. auto.
      * assert (snd (match d t0, rid with
                | Keyed l, RPk k => if dmem key_pyeq l k
                    then (upd_tbl d t0 (Keyed (ddel key_pyeq l k)), need) else (d, need)
                | _, _ => (d, need) end) = need) as ->.
        { destruct (d t0); auto. destruct rid; auto. destruct (dmem key_pyeq l0 k); auto. }
        split; [tauto |]. intros [H | [H1 [H2 | H2]]]; auto. injection H2 as -> ->. congruence.
    + intros Hn. apply IH2. clear IH1 IH2.
      destruct (tpk (ts_of sch t0)) eqn:Ep.
      * destruct rid; simpl; auto. now apply sadd_ti_NoDup.
      * destruct (d t0); auto. destruct rid; auto. destruct (dmem key_pyeq l0 k); auto.
Qed.

Lemma existsb_perm {A} (p : A -> bool) : forall l l', Permutation l l' -> existsb p l = existsb p l'.
Proof.
  intros l l' H. apply eq_true_iff_eq. rewrite !existsb_exists.
  split; intros (x & Hx & E); exists x; split; auto.
  - eapply Permutation_in; eauto.
  - eapply Permutation_in; [apply Permutation_sym |]; eauto.
Qed.

(** One pass deletes exactly the reported rows. *)
Lemma remove_pass_spec : forall sch rep d t ts,
  wf_schema sch -> wf_dat sch d -> In (t, ts) sch ->
  remove_pass sch rep d t = drop_rows (hits (trs_of rep) t) (d t).
Proof.
  intros sch rep d t ts Hs Hd Hin. rewrite remove_pass_flat.
  destruct (del_all_need sch (trs_of rep) (d, [])) as [Hneed Hnd].
  pose proof (del_all_unkeyed sch (trs_of rep) (d, []) t) as Hun.
  pose proof (fun l => del_all_keyed sch (trs_of rep) d [] t ts l Hs Hin) as Hk.
  destruct (fold_left _ (trs_of rep) (d, [])) as [d1 need] eqn:Est. simpl in *.
  specialize (Hnd (NoDup_nil _)). rewrite fold_pop_one.
  pose proof (Hd _ _ Hin) as Hwf. pose proof (ts_of_In _ _ _ Hs Hin) as Ets.
  destruct (d t) as [l | l] eqn:Edt; simpl in Hwf.
  - destruct Hwf as (Hpk & Hdist & _).
    specialize (Hk l Hpk eq_refl Hdist). 
    assert (d1 t = drop_rows (hits (trs_of rep) t) (Keyed l)) as -> by
      (change (d1 t) with (fst (d1, need) t); rewrite <- Est; exact Hk).
    reflexivity.
  - destruct Hwf as [Hpk _]. rewrite Hun by congruence. simpl. f_equal.
    rewrite pops_desc.
    + f_equal. apply filter_ext. intros [i r]. simpl. f_equal.
      rewrite idxs_mem, (existsb_perm _ _ _ (sort_desc_perm need)).
      apply eq_true_iff_eq. rewrite existsb_exists. unfold hits. rewrite existsb_exists. split.
      * intros (ti & Hti & E). apply ti_eqb_eq in E. subst ti.
        apply Hneed in Hti as [[] | [_ Htr]]. exists (t, RIdx i). split; auto. simpl.
        now rewrite String.eqb_refl, Nat.eqb_refl.
      * intros ([t0 rid] & Htr & E). simpl in E. apply andb_prop in E as [E1 E2].
        apply String.eqb_eq in E1. subst t0. destruct rid as [k | j]; [discriminate |].
        apply Nat.eqb_eq in E2. subst j. exists (t, i). split; [| now apply ti_eqb_eq].
        apply Hneed. right. split; auto. congruence.
    + apply idxs_sorted; [apply sort_desc_strong |].
      eapply Permutation_NoDup; [apply Permutation_sym, sort_desc_perm | auto].
Qed.

Lemma remove_pass_other : forall sch rep d t,
  (forall rid, ~ In (t, rid) (trs_of rep)) -> remove_pass sch rep d t = d t.
Proof.
  intros sch rep d t Hn. rewrite remove_pass_flat.
  destruct (del_all_need sch (trs_of rep) (d, [])) as [Hneed _].
  pose proof (del_all_other sch (trs_of rep) (d, []) t Hn) as Ho.
  destruct (fold_left _ (trs_of rep) (d, [])) as [d1 need]. simpl in *.
  rewrite fold_pop_one, Ho. destruct (d t); auto. f_equal.
  assert (idxs_of t (sort_desc need) = []) as ->; auto.
  unfold idxs_of.
  assert (filter (fun ti => String.eqb (fst ti) t) (sort_desc need) = []) as ->; auto.
  destruct (filter (fun ti => String.eqb (fst ti) t) (sort_desc need)) as [| [t0 i] tis] eqn:E; auto.
  exfalso. assert (In (t0, i) (filter (fun ti => String.eqb (fst ti) t) (sort_desc need))) as H
    by (rewrite E; now left).
  apply filter_In in H as [H1 H2]. simpl in H2. apply String.eqb_eq in H2. subst t0.
  eapply Permutation_in in H1; [| apply sort_desc_perm]. apply Hneed in H1 as [[] | [_ H1]].
  now apply Hn in H1.
Qed.

(** ** Rows depend only on their contents *)

Definition filter_rows (p : key -> row -> bool) (tb : table) : table :=
  match tb with
  | Keyed l => Keyed (filter (fun kr => p (fst kr) (snd kr)) l)
  | Listed l => Listed (filter (p []) l)
  end.

Lemma enum_filter {A} (q : A -> bool) : forall (l : list A) i,
  map snd (filter (fun ir => q (snd ir)) (enum_from i l)) = filter q l.
Proof.
  induction l as [| x l IH]; intros i; simpl; auto. destruct (q x); simpl; now rewrite IH.
Qed.

Lemma drop_filter_rows : forall p q tb,
  (forall rid k r, row_in tb rid k r -> p rid = negb (q k r)) -> drop_rows p tb = filter_rows q tb.
Proof.
  intros p q [l | l] H; simpl; f_equal.
  - apply filter_ext_in. intros [k r] Hin. simpl. rewrite (H (RPk k) k r) by (simpl; auto).
    apply negb_involutive.
  - rewrite <- (enum_filter (q []) l 0). f_equal. apply filter_ext_in. intros [i r] Hin. simpl.
    apply In_enum_from in Hin as [_ Hin]. rewrite Nat.sub_0_r in Hin.
    rewrite (H (RIdx i) [] r) by (simpl; eauto). apply negb_involutive.
Qed.

Lemma filter_rows_sub : forall p tb, sub_table (filter_rows p tb) tb.
Proof. intros p [l | l]; simpl; apply sublist_filter. Qed.

Lemma sub_table_refl : forall tb, sub_table tb tb.
Proof. intros [l | l]; simpl; apply sublist_refl. Qed.

Lemma sub_table_trans : forall a b c, sub_table a b -> sub_table b c -> sub_table a c.
Proof. intros [l | l] [l1 | l1] [l2 | l2]; simpl; try tauto; apply sublist_trans. Qed.

Lemma sub_table_row : forall a b rid k r, sub_table a b -> row_in a rid k r ->
  exists rid', row_in b rid' k r.
Proof.
  intros [l | l] [l' | l'] rid k r Hsub Hrow; simpl in *; try tauto.
  - destruct Hrow as [Hin ->]. exists (RPk k). split; auto. eapply sublist_In; eauto.
  - destruct Hrow as (-> & i & Hi & ->). apply nth_error_In in Hi.
    eapply sublist_In in Hi; eauto. apply In_nth_error in Hi as (j & Hj). exists (RIdx j). eauto.
Qed.

Lemma sub_table_greatest : forall p a b, sub_table a b ->
  (forall rid k r, row_in a rid k r -> p k r = true) -> sub_table a (filter_rows p b).
Proof.
  intros p [l | l] [l' | l'] Hsub Hp; simpl in *; try tauto; apply sublist_filter_greatest; auto.
  - intros [k r] Hin. simpl. eapply Hp; eauto.
  - intros r Hin. apply In_nth_error in Hin as (i & Hi). eapply Hp. eauto.
Qed.

Lemma sub_table_wf : forall ts a b, sub_table a b -> wf_table ts b -> wf_table ts a.
Proof.
  intros ts [l | l] [l' | l'] Hsub Hwf; simpl in *; try tauto.
  - destruct Hwf as (H1 & H2 & H3). repeat split; auto.
    + unfold distinct_keys in *. eapply sublist_NoDup; [| exact H2].
      now apply sublist_map, sublist_map.
    + eapply sublist_In in H; eauto. now apply H3 in H.
    + eapply sublist_In in H; eauto. now apply H3 in H.
  - destruct Hwf as [H1 H2]. split; auto. intros r Hr. eapply sublist_In in Hr; eauto.
Qed.

Lemma sub_table_size : forall a b, sub_table a b -> table_size a <= table_size b.
Proof. intros [l | l] [l' | l'] H; simpl in *; try tauto; now apply sublist_length. Qed.

Lemma sub_table_size_eq : forall a b, sub_table a b -> table_size a = table_size b -> a = b.
Proof.
  intros [l | l] [l' | l'] H E; simpl in *; try tauto; f_equal; now apply sublist_length_eq.
Qed.

(** ** One round of removal *)

Definition okb (sch : schema) (fks : list fk) (d : dat) (t : string) (k : key) (r : row) : bool :=
  negb (existsb (fun f => String.eqb (fk_native f) t && fk_fails sch d f k r) fks).

Definition good_fks (sch : schema) (fks : list fk) : Prop :=
  NoDup fks /\ forall f, In f fks -> wf_fk sch f /\ distinct_foreign f.

Lemma trs_hits : forall sch fks d t ts rid k r,
  wf_schema sch -> wf_dat sch d -> good_fks sch fks -> In (t, ts) sch -> row_in (d t) rid k r ->
  hits (trs_of (freport_of (fk_events sch fks d))) t rid = negb (okb sch fks d t k r).
Proof.
  intros sch fks d t ts rid k r Hs Hd [Hnd Hfks] Hin Hrow. unfold okb. rewrite negb_involutive.
  assert (forall f, In f fks -> wf_fk sch f) as Hwf by (intros f Hf; now apply Hfks).
  pose proof (fk_events_NoDup sch fks d Hd Hwf Hnd) as Hev.
  apply eq_true_iff_eq. unfold hits. rewrite !existsb_exists. split.
  - intros ([t0 rid0] & Htr & E). simpl in E. apply andb_prop in E as [E1 E2].
    apply String.eqb_eq in E1. subst t0. unfold trs_of in Htr.
    apply in_flat_map in Htr as ([f [vals rids]] & Hrep & Htr). simpl in Htr.
    apply in_map_iff in Htr as (rid1 & E & Hr). injection E as <- <-.
    assert (fk_reports_row (freport_of (fk_events sch fks d)) f rid1) as Hrr by (exists vals, rids; auto).
    apply (greport_of_rows fk_eqb fk_eqb_eq) in Hrr as (e & He & <- & <-); auto.
    apply fk_events_In in He as (k0 & r0 & Hf & Hrow0 & Hb & _).
    destruct (row_in_canon ts _ _ _ _ _ _ _ (Hd _ _ Hin) Hrow Hrow0 E2) as (_ & -> & ->).
    exists (fe_fk e). split; auto. now rewrite String.eqb_refl.
  - intros (f & Hf & E). apply andb_prop in E as [E1 E2]. apply String.eqb_eq in E1. subst t.
    exists (fk_native f, rid). simpl. rewrite String.eqb_refl, rowid_pyeq_refl. split; auto.
    assert (fk_reports_row (freport_of (fk_events sch fks d)) f rid) as (vals & rids & H1 & H2).
    { apply (greport_of_rows fk_eqb fk_eqb_eq); auto.
      exists (mkFe f rid (native_values sch f k r)). split; auto. apply fk_events_In. simpl. exists k, r. auto. }
    unfold trs_of. apply in_flat_map. exists (f, (vals, rids)). split; auto. simpl.
    apply in_map_iff. eauto.
Qed.

Lemma round_filter : forall sch fks d t ts,
  wf_schema sch -> wf_dat sch d -> good_fks sch fks -> In (t, ts) sch ->
  remove_pass sch (freport_of (fk_events sch fks d)) d t = filter_rows (okb sch fks d t) (d t).
Proof.
  intros sch fks d t ts Hs Hd Hfks Hin. rewrite (remove_pass_spec _ _ _ _ ts) by auto.
  apply drop_filter_rows. intros rid k r Hrow. eapply trs_hits; eauto.
Qed.

Lemma round_other : forall sch fks d t,
  wf_schema sch -> wf_dat sch d -> good_fks sch fks -> ~ In t (map fst sch) ->
  remove_pass sch (freport_of (fk_events sch fks d)) d t = d t.
Proof.
  intros sch fks d t Hs Hd [Hnd Hfks] Hnin. apply remove_pass_other. intros rid Htr.
  assert (forall f, In f fks -> wf_fk sch f) as Hwf by (intros f Hf; now apply Hfks).
  pose proof (fk_events_NoDup sch fks d Hd Hwf Hnd) as Hev.
  unfold trs_of in Htr. apply in_flat_map in Htr as ([f [vals rids]] & Hrep & Htr). simpl in Htr.
  apply in_map_iff in Htr as (rid1 & E & Hr). injection E as E1 E2. subst rid1.
  assert (fk_reports_row (freport_of (fk_events sch fks d)) f rid) as Hrr by (exists vals, rids; auto).
  apply (greport_of_rows fk_eqb fk_eqb_eq) in Hrr as (e & He & <- & _); auto.
  apply fk_events_In in He as (k0 & r0 & Hf & _).
  destruct (Hwf _ Hf) as (nts & _ & Hn & _). apply Hnin. apply in_map_iff. exists (fk_native (fe_fk e), nts).
  auto.
Qed.

Lemma matched_mono : forall sch e d f k r, wf_fk sch f -> sub_dat sch e d ->
  matched sch e f k r -> matched sch d f k r.
Proof.
  intros sch e d f k r (_ & fts0 & _ & Hf0 & _) Hsub (nts & fts & rid' & k' & r' & Hn & Hf & Hrow & Hag).
  destruct (sub_table_row _ _ _ _ _ (Hsub _ _ Hf) Hrow) as (rid2 & Hrow2).
  exists nts, fts, rid2, k', r'. auto.
Qed.

Lemma sub_dat_wf : forall sch e d, sub_dat sch e d -> wf_dat sch d -> wf_dat sch e.
Proof. intros sch e d Hsub Hd t ts Hin. eapply sub_table_wf; eauto. Qed.

Lemma matched_dec : forall sch d f rid k r,
  wf_schema sch -> wf_dat sch d -> wf_fk sch f -> distinct_foreign f ->
  row_in (d (fk_native f)) rid k r -> matched sch d f k r \/ ~ matched sch d f k r.
Proof.
  intros sch d f rid k r Hs Hd Hw Hdf Hrow.
  pose proof (fk_fails_iff sch d f rid k r Hs Hd Hw Hdf Hrow) as H.
  destruct (fk_fails sch d f k r); [right; intros Hm; apply H in Hm; discriminate | left; now apply H].
Qed.

Lemma consistent_ok : forall sch fks e d t ts rid k r,
  wf_schema sch -> wf_dat sch d -> good_fks sch fks -> In (t, ts) sch ->
  sub_dat sch e d -> consistent sch fks e -> row_in (e t) rid k r -> okb sch fks d t k r = true.
Proof.
  intros sch fks e d t ts rid k r Hs Hd [Hnd Hfks] Hin Hsub Hcon Hrow. unfold okb.
  apply negb_true_iff. destruct (existsb _ fks) eqn:E; auto. exfalso.
  apply existsb_exists in E as (f & Hf & E). apply andb_prop in E as [E1 E2].
  apply String.eqb_eq in E1. subst t. destruct (Hfks f Hf) as [Hw Hdf].
  destruct (sub_table_row _ _ _ _ _ (Hsub _ _ Hin) Hrow) as (rid' & Hrow').
  pose proof (sub_dat_wf _ _ _ Hsub Hd) as He.
  destruct (matched_dec sch e f rid k r Hs He Hw Hdf Hrow) as [Hm | Hm].
  - apply (matched_mono sch e d) in Hm; auto.
    apply (fk_fails_iff sch d f rid' k r) in Hm; auto. congruence.
  - apply (Hcon f rid Hf). exists k, r. auto.
Qed.

Lemma no_events_consistent : forall sch fks d,
  wf_schema sch -> wf_dat sch d -> good_fks sch fks ->
  (freport_of (fk_events sch fks d) = [] <-> consistent sch fks d).
Proof.
  intros sch fks d Hs Hd [Hnd Hfks].
  destruct (find_fks_exact sch fks d _ Hs Hd Hnd Hfks (find_fks_all sch fks d)) as (Hrows & _ & _ & Hne & _).
  split.
  - intros E f rid Hf Ho. assert (fk_reports_row (freport_of (fk_events sch fks d)) f rid) as H
      by (apply Hrows; auto).
    rewrite E in H. destruct H as (vals & rids & [] & _).
  - intros Hc. destruct (freport_of (fk_events sch fks d)) as [| [f [vals rids]] rep] eqn:E; auto.
    exfalso. destruct (Hne f vals rids (or_introl eq_refl)) as [Hr _].
    destruct rids as [| rid rids]; [congruence |].
    assert (fk_reports_row ((f, (vals, rid :: rids)) :: rep) f rid) as H.
    { exists vals, (rid :: rids). split; now left. }
    apply Hrows in H as [H1 H2]. eapply Hc; eauto.
Qed.

Lemma total_rows_le : forall sch a b, (forall t ts, In (t, ts) sch -> table_size (a t) <= table_size (b t)) ->
  total_rows sch a <= total_rows sch b.
Proof.
  unfold total_rows. induction sch as [| [t ts] sch IH]; intros a b H; simpl; auto.
  pose proof (H t ts (or_introl eq_refl)). specialize (IH a b). simpl in *.
  assert (list_sum (map (fun tts => table_size (a (fst tts))) sch) <=
          list_sum (map (fun tts => table_size (b (fst tts))) sch)); [| lia].
  apply IH. intros t' ts' H'. eapply H. right. eauto.
Qed.

Lemma total_rows_lt : forall sch a b t ts,
  (forall t ts, In (t, ts) sch -> table_size (a t) <= table_size (b t)) ->
  In (t, ts) sch -> table_size (a t) < table_size (b t) -> total_rows sch a < total_rows sch b.
Proof.
  induction sch as [| [t0 ts0] sch IH]; intros a b t ts H Hin Hlt; [destruct Hin |].
  unfold total_rows in *. simpl. pose proof (H t0 ts0 (or_introl eq_refl)).
  destruct Hin as [E | Hin].
  - injection E as -> ->.
    pose proof (total_rows_le sch a b) as Hle. unfold total_rows in Hle.
    assert (list_sum (map (fun tts => table_size (a (fst tts))) sch) <=
          list_sum (map (fun tts => table_size (b (fst tts))) sch)); [| lia].
    apply Hle. intros t' ts' H'. eapply H. right. eauto.
  - assert (list_sum (map (fun tts => table_size (a (fst tts))) sch) <
          list_sum (map (fun tts => table_size (b (fst tts))) sch)); [| lia].
    eapply (IH a b t ts); eauto. intros t' ts' H'. eapply H. right. eauto.
Qed.

Lemma round_decreases : forall sch fks d,
  wf_schema sch -> wf_dat sch d -> good_fks sch fks ->
  freport_of (fk_events sch fks d) <> [] ->
  total_rows sch (remove_pass sch (freport_of (fk_events sch fks d)) d) < total_rows sch d.
Proof.
  intros sch fks d Hs Hd Hg Hne.
  assert (exists f k r rid nts, In f fks /\ In (fk_native f, nts) sch /\ row_in (d (fk_native f)) rid k r /\
            fk_fails sch d f k r = true) as (f & k & r & rid & nts & Hf & Hn & Hrow & Hb).
  { destruct (fk_events sch fks d) as [| e evs] eqn:E.
    - exfalso. apply Hne. reflexivity.
    - assert (In e (fk_events sch fks d)) as He by (rewrite E; now left).
      apply fk_events_In in He as (k & r & Hf & Hrow & Hb & _).
      destruct Hg as [_ Hfks]. destruct (Hfks _ Hf) as [(nts & _ & Hn & _) _].
      exists (fe_fk e), k, r, (fe_row e), nts. auto. }
  apply (total_rows_lt sch _ _ (fk_native f) nts); auto.
  - intros t ts Hin. rewrite (round_filter _ _ _ _ ts) by auto. apply sub_table_size, filter_rows_sub.
  - rewrite (round_filter _ _ _ _ nts) by auto.
    pose proof (filter_rows_sub (okb sch fks d (fk_native f)) (d (fk_native f))) as Hsub.
    pose proof (sub_table_size _ _ Hsub) as Hle.
    destruct (Nat.eq_dec (table_size (filter_rows (okb sch fks d (fk_native f)) (d (fk_native f))))
                (table_size (d (fk_native f)))) as [E | E]; [| lia].
    exfalso. apply sub_table_size_eq in E; auto.
    assert (okb sch fks d (fk_native f) k r = true) as Hok.
    { rewrite <- E in Hrow. destruct (d (fk_native f)) as [l | l]; simpl in Hrow.
      - destruct Hrow as [Hin _]. apply filter_In in Hin as [_ Hin]. auto.
      - destruct Hrow as (-> & i & Hi & _). apply nth_error_In in Hi.
        apply filter_In in Hi as [_ Hi]. auto. }
    unfold okb in Hok. apply negb_true_iff in Hok.
    assert (existsb (fun f0 => String.eqb (fk_native f0) (fk_native f) && fk_fails sch d f0 k r) fks = true)
      as Ht; [| congruence].
    apply existsb_exists. exists f. split; auto. now rewrite String.eqb_refl, Hb.
Qed.

(** ** Main theorems *)

(** What remove_foreign_key_failures must return: the largest consistent
    sub-dataset; tables outside the schema are untouched. *)
Definition largest_consistent (sch : schema) (fks : list fk) (d d' : dat) : Prop :=
  sub_dat sch d' d /\ consistent sch fks d' /\
  (forall e, sub_dat sch e d -> consistent sch fks e -> sub_dat sch e d') /\
  (forall t, ~ In t (map fst sch) -> d' t = d t).

Theorem remove_correct : forall sch fks d n,
  wf_schema sch -> wf_dat sch d -> good_fks sch fks -> total_rows sch d < n ->
  exists d', remove_fk_failures n sch fks true d = Some d' /\ largest_consistent sch fks d d'.
Proof.
  intros sch fks d n Hs Hd Hg. revert d Hd. induction n as [| n IH]; intros d Hd Hlt; [lia |].
  cbn [remove_fk_failures]. rewrite find_fks_all.
  destruct (freport_of (fk_events sch fks d)) as [| e rep] eqn:E.
  - exists d. split; auto. apply no_events_consistent in E; auto.
    split; [| split; [| split]]; auto. intros t ts Hin. apply sub_table_refl.
  - rewrite <- E. set (d1 := remove_pass sch (freport_of (fk_events sch fks d)) d).
    assert (sub_dat sch d1 d) as Hsub.
    { intros t ts Hin. unfold d1. rewrite (round_filter _ _ _ _ ts) by auto. apply filter_rows_sub. }
    destruct (IH d1) as (d' & Hrem & H1 & H2 & H3 & H4).
    + eapply sub_dat_wf; eauto.
    + assert (total_rows sch d1 < total_rows sch d); [| lia].
      apply round_decreases; auto. congruence.
    + exists d'. split; auto. split; [| split; [| split]]; auto.
      * intros t ts Hin. eapply sub_table_trans; [apply (H1 t ts Hin) | apply (Hsub t ts Hin)].
      * intros e' He' Hc. apply H3; auto. intros t ts Hin. unfold d1.
        rewrite (round_filter _ _ _ _ ts) by auto. apply sub_table_greatest.
        -- apply (He' t ts Hin).
        -- intros rid k r Hrow. eapply (consistent_ok sch fks e' d); eauto.
      * intros t Hnin. rewrite H4 by auto. apply round_other; auto.
Qed.

(** Without propagation exactly the reported rows go. *)
Theorem remove_once : forall sch fks d n,
  wf_schema sch -> wf_dat sch d -> good_fks sch fks -> 0 < n ->
  exists d', remove_fk_failures n sch fks false d = Some d' /\
    (forall t ts, In (t, ts) sch ->
       exists gone, d' t = drop_rows gone (d t) /\
         forall rid k r, row_in (d t) rid k r ->
           (gone rid = true <-> exists f, In f fks /\ fk_native f = t /\ orphan sch d f rid)) /\
    (forall t, ~ In t (map fst sch) -> d' t = d t).
Proof.
  intros sch fks d n Hs Hd Hg Hn. destruct n as [| n]; [lia |].
  cbn [remove_fk_failures]. rewrite find_fks_all.
  exists (remove_pass sch (freport_of (fk_events sch fks d)) d).
  split; [now destruct (freport_of (fk_events sch fks d)) |]. split.
  - intros t ts Hin. rewrite (remove_pass_spec _ _ _ _ ts) by auto.
    exists (hits (trs_of (freport_of (fk_events sch fks d))) t). split; auto.
    intros rid k r Hrow. rewrite (trs_hits sch fks d t ts rid k r) by auto. unfold okb.
    rewrite negb_involutive, existsb_exists. split.
    + intros (f & Hf & E). apply andb_prop in E as [E1 E2]. apply String.eqb_eq in E1. subst t.
      exists f. split; auto. split; auto. exists k, r. split; auto. intros Hm.
      destruct Hg as [_ Hg]. destruct (Hg _ Hf) as [Hw Hdf].
      apply (fk_fails_iff sch d f rid k r) in Hm; auto. congruence.
    + intros (f & Hf & <- & k' & r' & Hrow' & Hm). exists f. split; auto. rewrite String.eqb_refl. simpl.
      destruct (row_in_canon ts _ _ _ _ _ _ _ (Hd _ _ Hin) Hrow Hrow' (rowid_pyeq_refl rid)) as (_ & -> & ->).
      destruct Hg as [_ Hg]. destruct (Hg _ Hf) as [Hw Hdf].
      destruct (fk_fails sch d f k' r') eqn:E; auto. apply (fk_fails_iff sch d f rid k' r') in E; auto.
  - intros t Hnin. apply round_other; auto.
Qed.

(** Consistent data is returned unchanged. *)
Theorem remove_consistent : forall sch fks propagate d n,
  wf_schema sch -> wf_dat sch d -> good_fks sch fks -> consistent sch fks d -> 0 < n ->
  remove_fk_failures n sch fks propagate d = Some d.
Proof.
  intros sch fks propagate d n Hs Hd Hg Hc Hn. destruct n as [| n]; [lia |].
  cbn [remove_fk_failures]. rewrite find_fks_all.
  apply no_events_consistent in Hc; auto. now rewrite Hc.
Qed.

Theorem remove_twice : forall sch fks propagate d d' n m,
  wf_schema sch -> wf_dat sch d -> good_fks sch fks -> total_rows sch d < n -> 0 < m ->
  remove_fk_failures n sch fks true d = Some d' ->
  remove_fk_failures m sch fks propagate d' = Some d' /\
  find_foreign_key_failures sch fks d' PInf = Some [].
Proof.
  intros sch fks propagate d d' n m Hs Hd Hg Hn Hm Hrem.
  destruct (remove_correct sch fks d n Hs Hd Hg Hn) as (d2 & Hrem2 & H1 & H2 & _).
  rewrite Hrem in Hrem2. injection Hrem2 as <-.
  pose proof (sub_dat_wf _ _ _ H1 Hd) as Hd'. split.
  - now apply remove_consistent.
  - rewrite find_fks_all. f_equal. now apply no_events_consistent.
Qed.
