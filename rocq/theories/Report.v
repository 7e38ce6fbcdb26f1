(** * Generic lemmas about reports that group failures by a key. *)
From Coq Require Import ZArith Bool List String Arith Lia.
From Verif Require Import PyVal PyValFacts PyDict PyDictFacts ListFacts Data FindTypes FindTypesFacts.
Import ListNotations.

Section GenReport.
  Context {Ev K A : Type}.
  Variable keqb : K -> K -> bool.
  Hypothesis keqb_eq : forall a b, keqb a b = true <-> a = b.
  Variable aeqb : A -> A -> bool.
  Hypothesis aeqb_refl : forall a, aeqb a a = true.
  Hypothesis aeqb_trans : forall a b c, aeqb a b = true -> aeqb b c = true -> aeqb a c = true.
  Variable ekey : Ev -> K.
  Variable eval : Ev -> A.
  Variable erow : Ev -> rowid.

  Definition gacc : Type := (list (K * list A) * list (K * list rowid))%type.

  Definition grecord (a : gacc) (e : Ev) : gacc :=
    (dadd keqb aeqb (fst a) (ekey e) (eval e), dadd keqb rowid_pyeq (snd a) (ekey e) (erow e)).

  Definition greport := list (K * (list A * list rowid)).

  Definition greport_of_acc (a : gacc) : greport :=
    map (fun kv => (fst kv, (snd kv, dget_or keqb (snd a) (fst kv) []))) (fst a).

  Definition greport_of (evs : list Ev) : greport := greport_of_acc (fold_left grecord evs ([], [])).

  Definition greports_row (rep : greport) (k : K) (rid : rowid) : Prop :=
    exists vals rids, In (k, (vals, rids)) rep /\ In rid rids.
  Definition greports_value (rep : greport) (k : K) (v : A) : Prop :=
    exists vals rids, In (k, (vals, rids)) rep /\ In v vals.
  Definition glisted (rep : greport) : nat :=
    list_sum (map (fun e => List.length (snd (snd e))) rep).

  Definition gid (e : Ev) : K * rowid := (ekey e, rid_canon (erow e)).

  Definition at_k (k : K) (evs : list Ev) : list Ev := filter (fun e => keqb (ekey e) k) evs.

  Lemma at_k_In : forall k evs e, In e (at_k k evs) <-> In e evs /\ ekey e = k.
  Proof. intros k evs e. unfold at_k. now rewrite filter_In, keqb_eq. Qed.

  Lemma grecord_split : forall evs a,
    fold_left grecord evs a =
    (group_acc keqb aeqb ekey eval evs (fst a), group_acc keqb rowid_pyeq ekey erow evs (snd a)).
  Proof.
    unfold group_acc. induction evs as [| e evs IH]; intros [a1 a2]; simpl; auto.
    now rewrite IH.
  Qed.

  Lemma at_k_rows_NoDup : forall k evs, NoDup (map gid evs) ->
    NoDup (map rid_canon (map erow (at_k k evs))).
  Proof.
    intros k evs H. rewrite map_map.
    pose proof (filter_NoDup_map gid (fun e => keqb (ekey e) k) evs H) as H1.
    fold (at_k k evs) in H1.
    assert (map gid (at_k k evs) =
            map (fun r => (k, r)) (map (fun e => rid_canon (erow e)) (at_k k evs))) as E.
    { rewrite map_map. apply map_ext_in. intros e He. apply at_k_In in He as (_ & <-). reflexivity. }
    rewrite E in H1. now apply NoDup_map_inv' in H1.
  Qed.

  Lemma greport_of_In : forall evs k vals rids,
    NoDup (map gid evs) ->
    (In (k, (vals, rids)) (greport_of evs) <->
     at_k k evs <> [] /\ vals = set_of aeqb (map eval (at_k k evs)) /\
     rids = map erow (at_k k evs)).
  Proof.
    intros evs k vals rids Hnd. unfold greport_of, greport_of_acc. rewrite grecord_split. simpl.
    rewrite in_map_iff.
    assert (at_k k evs <> [] ->
      dget_or keqb (group_acc keqb rowid_pyeq ekey erow evs []) k [] = map erow (at_k k evs)) as Hr.
    { intros Hne. unfold dget_or. rewrite (group_get keqb keqb_eq). fold (at_k k evs).
      destruct (map erow (at_k k evs)) as [| x xs] eqn:E.
      - destruct (at_k k evs); [congruence | discriminate].
      - transitivity (set_of rowid_pyeq (map erow (at_k k evs))); [now rewrite E |].
        rewrite <- E. apply (set_of_distinct rowid_pyeq rid_canon rowid_pyeq_iff).
        now apply at_k_rows_NoDup. }
    split.
    - intros ([k' vs] & E & Hin). simpl in E. injection E as E1 E2 E3. subst k' vs.
      apply (group_In keqb keqb_eq) in Hin as [Hne ->].
      fold (at_k k evs) in *. assert (at_k k evs <> []) as Hne'.
      { intros E. apply Hne. now rewrite E. }
      split; auto. split; auto. rewrite <- E3. auto.
    - intros (Hne & -> & ->). exists (k, set_of aeqb (map eval (at_k k evs))).
      simpl. rewrite Hr by auto. split; auto.
      apply (group_In keqb keqb_eq). fold (at_k k evs). split; auto.
      intros E. apply map_eq_nil in E. auto.
  Qed.

  Lemma greport_of_rows : forall evs k rid, NoDup (map gid evs) ->
    (greports_row (greport_of evs) k rid <-> exists e, In e evs /\ ekey e = k /\ erow e = rid).
  Proof.
    intros evs k rid Hnd. unfold greports_row. split.
    - intros (vals & rids & Hin & Hr). apply greport_of_In in Hin as (_ & _ & ->); auto.
      apply in_map_iff in Hr as (e & <- & He). apply at_k_In in He as (H1 & H2). eauto.
    - intros (e & H1 & H2 & H3).
      exists (set_of aeqb (map eval (at_k k evs))), (map erow (at_k k evs)).
      assert (In e (at_k k evs)) as He by (apply at_k_In; auto). split.
      + apply greport_of_In; auto. split; auto. intros E. rewrite E in He. destruct He.
      + rewrite <- H3. now apply in_map.
  Qed.

  Lemma greport_of_values : forall evs k v, NoDup (map gid evs) ->
    (greports_value (greport_of evs) k v -> exists e, In e evs /\ ekey e = k /\ eval e = v) /\
    ((exists e, In e evs /\ ekey e = k /\ eval e = v) ->
     exists v', greports_value (greport_of evs) k v' /\ aeqb v' v = true).
  Proof.
    intros evs k v Hnd. unfold greports_value. split.
    - intros (vals & rids & Hin & Hr). apply greport_of_In in Hin as (_ & -> & _); auto.
      apply set_of_In in Hr. apply in_map_iff in Hr as (e & <- & He).
      apply at_k_In in He as (H1 & H2). eauto.
    - intros (e & H1 & H2 & H3).
      assert (In e (at_k k evs)) as He by (apply at_k_In; auto).
      assert (smem aeqb (set_of aeqb (map eval (at_k k evs))) v = true) as Hm.
      { rewrite (smem_set_of aeqb aeqb_trans).
        apply existsb_exists. exists v. split; [| apply aeqb_refl]. rewrite <- H3. now apply in_map. }
      apply smem_iff in Hm as (v' & Hv' & E). exists v'. split; auto.
      exists (set_of aeqb (map eval (at_k k evs))), (map erow (at_k k evs)).
      split; auto. apply greport_of_In; auto. split; auto. intros E'. rewrite E' in He. destruct He.
  Qed.

  Lemma greport_of_keys_NoDup : forall evs, NoDup (map fst (greport_of evs)).
  Proof.
    intros evs. unfold greport_of, greport_of_acc. rewrite map_map. simpl. rewrite grecord_split. simpl.
    apply (group_keys_NoDup keqb keqb_eq). constructor.
  Qed.

  Lemma greport_of_count : forall evs, NoDup (map gid evs) ->
    glisted (greport_of evs) = List.length evs.
  Proof.
    intros evs Hnd. unfold glisted.
    rewrite <- (list_sum_partition ekey keqb keqb_eq (map fst (greport_of evs)) evs).
    - f_equal. rewrite map_map. apply map_ext_in. intros [k [vals rids]] Hin. simpl.
      apply greport_of_In in Hin as (_ & _ & ->); auto. now rewrite map_length.
    - apply greport_of_keys_NoDup.
    - intros e He. apply in_map_iff.
      exists (ekey e, (set_of aeqb (map eval (at_k (ekey e) evs)), map erow (at_k (ekey e) evs))). split; auto.
      apply greport_of_In; auto. split; auto. intros E.
      assert (In e (at_k (ekey e) evs)) as H by (apply at_k_In; auto).
      rewrite E in H. destruct H.
  Qed.

  Lemma greport_of_nonempty : forall evs k vals rids, NoDup (map gid evs) ->
    In (k, (vals, rids)) (greport_of evs) -> rids <> [] /\ vals <> [].
  Proof.
    intros evs k vals rids Hnd H. apply greport_of_In in H as (Hne & -> & ->); auto.
    destruct (at_k k evs) as [| e l]; [congruence |]. split; [discriminate |].
    intros E. assert (smem aeqb (set_of aeqb (map eval (e :: l))) (eval e) = true) as Hm.
    { rewrite (smem_set_of aeqb aeqb_trans). simpl. now rewrite aeqb_refl. }
    rewrite E in Hm. discriminate.
  Qed.

  (** The early exit counter. *)
  Definition gpopulate (mx : num) (evs : list Ev) : gacc :=
    fst (fst (for_each (fun e (s : gacc * nat) =>
      let r' := grecord (fst s) e in let c' := S (snd s) in ((r', c'), trips mx c')) evs (([], []), 0))).

  Lemma gpopulate_all : forall evs, gpopulate PInf evs = fold_left grecord evs ([], []).
  Proof.
    intros evs. unfold gpopulate. generalize (([], []) : gacc). generalize 0.
    induction evs as [| e l IH]; intros c a; simpl; auto.
  Qed.

  Lemma gpopulate_bounded : forall mx n evs,
    num_ltb (of_int 0) mx = true -> rounds_up mx n ->
    gpopulate mx evs = fold_left grecord (firstn n evs) ([], []).
  Proof.
    intros mx n evs Hpos [Hr1 Hr2]. unfold gpopulate.
    assert (0 < n) as Hn.
    { destruct n; [| lia]. exfalso. unfold num_leb in Hr1. simpl in *. now rewrite Hpos in Hr1. }
    rewrite (for_each_count grecord (trips mx) n).
    - now rewrite Nat.sub_0_r.
    - intros c. unfold trips.
      assert (num_ltb mx PInf = true) as -> by (destruct mx; auto).
      destruct (n <=? c) eqn:E.
      + apply Nat.leb_le in E. eapply num_leb_of_int_mono; eauto.
      + apply Nat.leb_gt in E. destruct (num_leb mx (of_int (Z.of_nat c))) eqn:E2; auto.
        apply Hr2 in E2. lia.
    - lia.
  Qed.
End GenReport.
