(** * Facts about duplicate counting, logging and pruning *)
From Coq Require Import ZArith Bool List String Ascii Arith Lia.
From Verif Require Import PyVal PyValFacts PyDict PyDictFacts PyStr ListFacts Data InfIO RowPred RowPredPan Utils.
Import ListNotations.
Local Open Scope list_scope.

(** ** Counting *)

(** How many elements of [l] equal [k]. *)
Definition occurrences (k : key) (l : list key) : nat := List.length (filter (fun k' => key_pyeq k' k) l).

Lemma tally_gen : forall l d k,
  dget_or key_pyeq (fold_left (fun d k => dset key_pyeq d k (S (dget_or key_pyeq d k 0))) l d) k 0 =
  dget_or key_pyeq d k 0 + occurrences k l.
Proof.
  induction l as [|a l IH]; intros d k; simpl; [unfold occurrences; simpl; lia|].
  rewrite IH. unfold dget_or at 1. rewrite (dget_dset key_pyeq key_pyeq_refl key_pyeq_sym key_pyeq_trans).
  unfold occurrences. simpl. destruct (key_pyeq a k) eqn:E.
  - simpl. unfold dget_or. rewrite (dget_cong key_pyeq key_pyeq_sym key_pyeq_trans d _ _ E). lia.
  - reflexivity.
Qed.

Lemma tally_distinct : forall l, keys_distinct key_pyeq (map fst (tally l)).
Proof.
  intros l. unfold tally.
  assert (Q : forall l (d : list (key * nat)), keys_distinct key_pyeq (map fst d) ->
    keys_distinct key_pyeq (map fst (fold_left (fun d k => dset key_pyeq d k (S (dget_or key_pyeq d k 0))) l d))).
  2:{ apply Q. constructor. }
  clear l. induction l as [|a l IH]; intros d H; simpl; auto. apply IH.
  apply keys_distinct_dset; auto using key_pyeq_refl, key_pyeq_sym.
Qed.

Lemma tally_positive : forall l k n, In (k, n) (tally l) -> In k l /\ n = occurrences k l.
Proof.
  intros l k n H.
  assert (D := tally_distinct l).
  assert (G : dget key_pyeq (tally l) k = Some n).
  { apply In_dget; auto using key_pyeq_refl, key_pyeq_sym. }
  split.
  - clear D G. revert H. unfold tally.
    assert (Q : forall l d, (forall k n, In (k, n) d -> In k l -> True) ->
      In (k, n) (fold_left (fun d k => dset key_pyeq d k (S (dget_or key_pyeq d k 0))) l d) -> In k l \/ In k (map fst d)).
    { clear. induction l as [|a l IH]; intros d _ H; simpl in *; [right; apply in_map_iff; exists (k, n); auto|].
      apply IH in H; auto. destruct H as [H|H]; auto.
      assert (In k (map fst d) \/ k = a).
      { clear IH. generalize dependent (S (dget_or key_pyeq d a 0)). intros v.
        induction d as [|[k0 v0] d IHd]; simpl; [intros [H|[]]; auto|].
        destruct (key_pyeq k0 a); simpl; intros [H|H]; auto. apply IHd in H. tauto. }
      destruct H0; auto. }
    intros H. apply Q in H; auto. destruct H as [H|[]]. exact H.
  - pose proof (tally_gen l [] k) as T. unfold tally in G. unfold dget_or in T at 1. rewrite G in T. exact T.
Qed.

Lemma tally_complete : forall l k, In k l -> exists k', In (k', occurrences k l) (tally l) /\ key_pyeq k' k = true.
Proof.
  intros l k H. pose proof (tally_gen l [] k) as T. unfold dget_or in T.
  destruct (dget key_pyeq (fold_left (fun d k => dset key_pyeq d k (S (match dget key_pyeq d k with Some v => v | None => 0 end))) l []) k) as [n|] eqn:E.
  - simpl in T. subst n. apply dget_In in E as (k' & H1 & H2). exists k'. split; auto.
  - simpl in T. exfalso. unfold occurrences in T.
    assert (Q : In k (filter (fun k' => key_pyeq k' k) l)) by (apply filter_In; split; auto using key_pyeq_refl).
    destruct (filter (fun k' => key_pyeq k' k) l); [contradiction|discriminate].
Qed.

Lemma occurrences_cong : forall l k k', key_pyeq k k' = true -> occurrences k l = occurrences k' l.
Proof.
  intros l k k' H. unfold occurrences. f_equal. apply filter_ext. intros a.
  apply eq_true_iff_eq. split; intros Q; eapply key_pyeq_trans; eauto. now rewrite key_pyeq_sym.
Qed.

Definition dups_of (ks : list key) : list (key * nat) := filter (fun kn => Nat.ltb 1 (snd kn)) (tally ks).

Lemma dups_of_iff : forall ks k n, (exists k', In (k', n) (dups_of ks) /\ key_pyeq k' k = true) <->
  n = occurrences k ks /\ 1 < n.
Proof.
  intros ks k n. unfold dups_of. split.
  - intros (k' & H & E). apply filter_In in H as [H1 H2]. simpl in H2. apply Nat.ltb_lt in H2.
    apply tally_positive in H1 as [_ H1]. split; auto. rewrite H1. now apply occurrences_cong.
  - intros [-> H].
    assert (Q : exists k0, In k0 ks /\ key_pyeq k0 k = true).
    { unfold occurrences in H. destruct (filter (fun k' => key_pyeq k' k) ks) as [|k0 r] eqn:E; [simpl in H; lia|].
      exists k0. assert (In k0 (k0 :: r)) by (simpl; auto). rewrite <- E in H0. now apply filter_In in H0. }
    destruct Q as (k0 & Q1 & Q2). destruct (tally_complete ks k0 Q1) as (k' & H1 & H2).
    rewrite (occurrences_cong _ _ _ Q2) in H1.
    exists k'. split; [|eapply key_pyeq_trans; eauto]. apply filter_In. split; auto. now apply Nat.ltb_lt.
Qed.

Lemma dups_distinct : forall ks, keys_distinct key_pyeq (map fst (dups_of ks)).
Proof.
  intros ks. unfold dups_of. generalize (tally_distinct ks). generalize (tally ks).
  induction l as [|[k n] l IH]; simpl; auto. intros [H1 H2].
  destruct (Nat.ltb 1 n); auto. simpl. split; auto. intros k' Hk.
  apply in_map_iff in Hk as ([k1 n1] & <- & Hk). apply filter_In in Hk as [Hk _].
  apply H1. apply in_map_iff. exists (k1, n1). auto.
Qed.

Lemma dups_In : forall ks k n, In (k, n) (dups_of ks) -> In k ks.
Proof. intros ks k n H. apply filter_In in H as [H _]. apply tally_positive in H. tauto. Qed.

(** The keys of a table, as a relation. *)
Definition key_in_row (flds : list string) (row : list (string * value)) (k : key) : Prop :=
  Forall2 (fun f v => dget String.eqb row f = Some v) flds k.

Lemma cells_of_iff : forall flds row k, cells_of row flds = Ret k <-> key_in_row flds row k.
Proof.
  unfold key_in_row. induction flds as [|f flds IH]; intros row k; simpl.
  - split; [intros H; injection H as <-; constructor|intros H; inversion H; reflexivity].
  - split.
    + destruct (dget String.eqb row f) as [v|] eqn:E; [|discriminate].
      destruct (cells_of row flds) as [k'|] eqn:E'; [|discriminate]. intros H. injection H as <-.
      constructor; auto. now apply IH.
    + intros H. inversion H as [|? v ? k' H1 H2]; subst. rewrite H1. apply IH in H2. now rewrite H2.
Qed.

Lemma keys_of_iff : forall flds rows ks, keys_of flds rows = Ret ks <-> Forall2 (key_in_row flds) rows ks.
Proof.
  induction rows as [|r rows IH]; intros ks; simpl.
  - split; [intros H; injection H as <-; constructor|intros H; inversion H; reflexivity].
  - split.
    + destruct (cells_of r flds) as [k|] eqn:E; [|discriminate].
      destruct (keys_of flds rows) as [l|] eqn:E'; [|discriminate]. intros H. injection H as <-.
      constructor; [now apply cells_of_iff|now apply IH].
    + intros H. inversion H as [|? k ? l H1 H2]; subst. apply cells_of_iff in H1. rewrite H1. apply IH in H2. now rewrite H2.
Qed.

Lemma find_duplicates_spec : forall pks rows rtn, find_duplicates pks rows = Ret rtn ->
  (forall t flds, In (t, flds) pks -> exists ks, Forall2 (key_in_row flds) (rows t) ks) /\
  (forall t d, In (t, d) rtn <-> exists flds ks, In (t, flds) pks /\ Forall2 (key_in_row flds) (rows t) ks /\
     d = dups_of ks /\ d <> []).
Proof.
  induction pks as [|[t0 f0] pks IH]; intros rows rtn H; simpl in H.
  - injection H as <-. split; [intros ? ? []|]. intros t d. split; [intros []|intros (? & ? & [] & _)].
  - destruct (keys_of f0 (rows t0)) as [ks0|] eqn:E; [|discriminate].
    destruct (find_duplicates pks rows) as [rest|] eqn:E'; [|discriminate].
    destruct (IH _ _ E') as [A B]. apply keys_of_iff in E.
    assert (U : forall ks, Forall2 (key_in_row f0) (rows t0) ks -> ks = ks0).
    { intros ks Hk. apply keys_of_iff in Hk, E. congruence. }
    split.
    + intros t flds [Hin|Hin]; eauto. injection Hin as <- <-. eauto.
    + intros t d.
      assert (Q : In (t, d) rtn <-> (t = t0 /\ d = dups_of ks0 /\ d <> []) \/ In (t, d) rest).
      { fold (dups_of ks0) in H. destruct (dups_of ks0) as [|x l] eqn:D.
        - injection H as <-. split; auto. intros [(-> & -> & C)|C]; [congruence|auto].
        - injection H as <-. simpl. split.
          + intros [Hin|Hin]; auto. injection Hin as <- <-. left. split; auto. split; auto. discriminate.
          + intros [(-> & -> & _)|Hin]; auto. }
      rewrite Q, B. split.
      * intros [(-> & -> & Hd)|(flds & ks & H1 & H2 & H3 & H4)].
        -- exists f0, ks0. simpl. auto.
        -- exists flds, ks. simpl. auto.
      * intros (flds & ks & [H1|H1] & H2 & H3 & H4).
        -- injection H1 as <- <-. left. rewrite <- (U _ H2). auto.
        -- right. exists flds, ks. auto.
Qed.

Lemma find_duplicates_total : forall pks rows,
  (forall t flds, In (t, flds) pks -> exists ks, Forall2 (key_in_row flds) (rows t) ks) ->
  exists rtn, find_duplicates pks rows = Ret rtn.
Proof.
  induction pks as [|[t0 f0] pks IH]; intros rows H; simpl; eauto.
  destruct (H t0 f0) as (ks & Hk); [simpl; auto|]. apply keys_of_iff in Hk. rewrite Hk.
  destruct (IH rows) as (rest & Hr); [intros; apply (H t); simpl; auto|]. rewrite Hr.
  destruct (filter _ _); eauto.
Qed.

(** ** pandas duplicated *)

Section Dup.
  Context {K : Type}.
  Variable eqb : K -> K -> bool.
  Hypothesis eqb_refl : forall x, eqb x x = true.
  Hypothesis eqb_sym : forall x y, eqb x y = eqb y x.
  Hypothesis eqb_trans : forall x y z, eqb x y = true -> eqb y z = true -> eqb x z = true.

  Lemma seen_length : forall l seen, List.length (seen_before eqb seen l) = List.length l.
  Proof. induction l; simpl; auto. Qed.

  Lemma seen_before_nth : forall l seen i k, nth_error l i = Some k ->
    exists b, nth_error (seen_before eqb seen l) i = Some b /\
    (b = true <-> (exists k', In k' seen /\ eqb k k' = true) \/
                  exists j k', j < i /\ nth_error l j = Some k' /\ eqb k k' = true).
  Proof.
    induction l as [|a l IH]; intros seen [|i] k H; simpl in H; try discriminate.
    - injection H as ->. simpl. eexists. split; [reflexivity|]. rewrite existsb_exists. split; auto.
      intros [H|(j & k' & Hj & _)]; auto. lia.
    - simpl. destruct (IH (a :: seen) i k H) as (b & H1 & H2). exists b. split; auto. rewrite H2. split.
      + intros [(k' & [<-|Hk] & E)|(j & k' & Hj & Hk & E)].
        * right. exists 0, a. simpl. split; [lia|auto].
        * left. eauto.
        * right. exists (S j), k'. simpl. split; [lia|auto].
      + intros [(k' & Hk & E)|([|j] & k' & Hj & Hk & E)].
        * left. exists k'. simpl. auto.
        * simpl in Hk. injection Hk as ->. left. exists k'. simpl. auto.
        * simpl in Hk. right. exists j, k'. split; [lia|auto].
  Qed.

  Lemma rev_nth : forall {X} (l : list X) i x, nth_error l i = Some x ->
    nth_error (rev l) (List.length l - 1 - i) = Some x.
  Proof.
    intros X l i x H. assert (i < List.length l) by (apply nth_error_Some; congruence).
    rewrite (nth_error_nth' (rev l) x) by (rewrite rev_length; lia). f_equal.
    rewrite rev_nth by lia. replace (List.length l - S (List.length l - 1 - i)) with i by lia.
    now apply nth_error_nth.
  Qed.

  Lemma duplicated_nth : forall kp l i k, nth_error l i = Some k ->
    exists b, nth_error (duplicated eqb kp l) i = Some b /\
    (b = true <-> exists j k', nth_error l j = Some k' /\ eqb k k' = true /\
       match kp with KFirst => j < i | KLast => i < j | KNone => j <> i end).
  Proof.
    intros kp l i k H.
    assert (F : exists b, nth_error (seen_before eqb [] l) i = Some b /\
      (b = true <-> exists j k', j < i /\ nth_error l j = Some k' /\ eqb k k' = true)).
    { destruct (seen_before_nth l [] i k H) as (b & H1 & H2). exists b. split; auto. rewrite H2. split; auto.
      intros [(k' & [] & _)|Q]; auto. }
    assert (Hi : i < List.length l) by (apply nth_error_Some; congruence).
    assert (La : exists b, nth_error (rev (seen_before eqb [] (rev l))) i = Some b /\
      (b = true <-> exists j k', i < j /\ nth_error l j = Some k' /\ eqb k k' = true)).
    { pose proof (rev_nth l i k H) as Hr.
      destruct (seen_before_nth (rev l) [] _ k Hr) as (b & H1 & H2).
      apply rev_nth in H1. rewrite seen_length, rev_length in H1.
      replace (List.length l - 1 - (List.length l - 1 - i)) with i in H1 by lia.
      exists b. split; auto. rewrite H2. split.
      - intros [(k' & [] & _)|(j & k' & Hj & Hk & E)].
        assert (j < List.length l) by (rewrite <- rev_length; apply nth_error_Some; congruence).
        apply rev_nth in Hk. rewrite rev_involutive, rev_length in Hk.
        exists (List.length l - 1 - j), k'. split; [lia|auto].
      - intros (j & k' & Hj & Hk & E). right.
        assert (j < List.length l) by (apply nth_error_Some; congruence).
        exists (List.length l - 1 - j), k'. split; [lia|]. split; auto. now apply rev_nth. }
    destruct F as (b1 & F1 & F2). destruct La as (b2 & L1 & L2).
    destruct kp; simpl.
    - exists b1. split; auto. rewrite F2. split; intros (j & k' & Q1 & Q2 & Q3); exists j, k'; auto.
    - exists b2. split; auto. rewrite L2. split; intros (j & k' & Q1 & Q2 & Q3); exists j, k'; auto.
    - exists (b1 || b2). split.
      + clear -F1 L1. revert i F1 L1. generalize (seen_before eqb [] l), (rev (seen_before eqb [] (rev l))).
        induction l0 as [|x a IH]; intros [|y b] [|i] H1 H2; simpl in *; try discriminate; auto.
        injection H1 as ->. injection H2 as ->. reflexivity.
      + rewrite orb_true_iff, F2, L2. split.
        * intros [(j & k' & Q1 & Q2 & Q3)|(j & k' & Q1 & Q2 & Q3)]; exists j, k'; split; auto; split; auto; lia.
        * intros (j & k' & Q1 & Q2 & Q3). destruct (Nat.lt_ge_cases j i); [left|right]; exists j, k'; split; auto. lia.
  Qed.

  Lemma duplicated_length : forall kp l, List.length (duplicated eqb kp l) = List.length l.
  Proof.
    assert (O : forall a b : list bool, List.length a = List.length b -> List.length (or_list a b) = List.length a).
    { induction a as [|x a IH]; intros [|y b] H; simpl in *; auto; discriminate. }
    intros [] l; simpl.
    - apply seen_length.
    - now rewrite rev_length, seen_length, rev_length.
    - rewrite O; [apply seen_length|]. now rewrite rev_length, !seen_length, rev_length.
  Qed.

  (** Dropping the flagged elements. *)
  Lemma masked_In {X} : forall mask (l : list X) x, List.length mask = List.length l ->
    (In x (masked mask l) <-> exists i, nth_error mask i = Some true /\ nth_error l i = Some x).
  Proof.
    induction mask as [|b mask IH]; intros [|y l] x H; simpl in *; try discriminate.
    - split; [intros []|intros ([|i] & Q & _); discriminate].
    - injection H as H. destruct b; simpl.
      + rewrite IH by auto. split.
        * intros [<-|(i & Q)]; [exists 0; auto|exists (S i); auto].
        * intros ([|i] & Q1 & Q2); simpl in *; [left; congruence|right; eauto].
      + rewrite IH by auto. split.
        * intros (i & Q). exists (S i). auto.
        * intros ([|i] & Q1 & Q2); simpl in *; [discriminate|eauto].
  Qed.

  Lemma kept_NoDup : forall kp l, kp <> KNone ->
    keys_distinct eqb (masked (map negb (duplicated eqb kp l)) l).
  Proof.
    intros kp l Hk.
    assert (D : forall i k, nth_error (duplicated eqb kp l) i = Some false -> nth_error l i = Some k ->
      forall j k', nth_error (duplicated eqb kp l) j = Some false -> nth_error l j = Some k' -> i < j -> eqb k k' = false).
    { intros i k Hi Hl j k' Hj Hl' Hij. destruct (eqb k k') eqn:E; auto. exfalso. destruct kp; [| |congruence].
      - destruct (duplicated_nth KFirst l j k' Hl') as (b & H1 & H2). rewrite H1 in Hj. injection Hj as ->.
        assert (false = true); [|discriminate]. apply H2. exists i, k. split; auto. split; auto. now rewrite eqb_sym.
      - destruct (duplicated_nth KLast l i k Hl) as (b & H1 & H2). rewrite H1 in Hi. injection Hi as ->.
        assert (false = true); [|discriminate]. apply H2. exists j, k'. auto. }
    revert D. generalize (duplicated_length kp l). generalize (duplicated eqb kp l).
    clear. intros mask. revert l. induction mask as [|b mask IH]; intros [|y l] H D; simpl in *; try discriminate; auto.
    injection H as H. assert (Q : keys_distinct eqb (masked (map negb mask) l)).
    { apply IH; auto. intros i k Hi Hl j k' Hj Hl' Hij. apply (D (S i) k Hi Hl (S j) k'); auto. lia. }
    destruct b; simpl; auto. split; auto. intros k' Hk.
    apply masked_In in Hk as (i & H1 & H2); [|now rewrite map_length].
    rewrite nth_error_map in H1. destruct (nth_error mask i) as [[|]|] eqn:E; try discriminate.
    apply (D 0 y eq_refl eq_refl (S i) k'); auto. lia.
  Qed.

  Lemma kept_all : forall kp l k, kp <> KNone -> In k l ->
    exists k', In k' (masked (map negb (duplicated eqb kp l)) l) /\ eqb k k' = true.
  Proof.
    intros kp l k Hkp Hin. apply In_nth_error in Hin as (i & Hi).
    assert (P : exists i0 k0, nth_error l i0 = Some k0 /\ eqb k k0 = true /\ nth_error (duplicated eqb kp l) i0 = Some false).
    { destruct kp; [| |congruence].
      - revert k Hi. induction i as [i IH] using lt_wf_ind. intros k Hi.
        destruct (duplicated_nth KFirst l i k Hi) as ([|] & H1 & H2).
        + destruct (proj1 H2 eq_refl) as (j & k' & Q1 & Q2 & Q3).
          destruct (IH j Q3 k' Q1) as (i0 & k0 & P1 & P2 & P3). exists i0, k0. split; auto. split; auto. eauto.
        + exists i, k. auto.
      - assert (Hl : i < List.length l) by (apply nth_error_Some; congruence).
        revert k Hi. remember (List.length l - i) as n eqn:En. revert i Hl En.
        induction n as [n IH] using lt_wf_ind. intros i Hl En k Hi.
        destruct (duplicated_nth KLast l i k Hi) as ([|] & H1 & H2).
        + destruct (proj1 H2 eq_refl) as (j & k' & Q1 & Q2 & Q3).
          assert (j < List.length l) by (apply nth_error_Some; congruence).
          destruct (IH (List.length l - j) ltac:(lia) j ltac:(lia) eq_refl k' Q1) as (i0 & k0 & P1 & P2 & P3).
          exists i0, k0. split; auto. split; auto. eauto.
        + exists i, k. auto. }
    destruct P as (i0 & k0 & P1 & P2 & P3). exists k0. split; auto.
    apply masked_In; [now rewrite map_length, duplicated_length|].
    exists i0. split; auto. rewrite nth_error_map, P3. reflexivity.
  Qed.
End Dup.

Lemma Forall2_length {X Y} (R : X -> Y -> Prop) : forall l m, Forall2 R l m -> List.length l = List.length m.
Proof. induction 1; simpl; congruence. Qed.

Lemma pan_duplicates_spec : forall eqb kp pks rows rtn, pan_duplicates eqb kp pks rows = Ret rtn ->
  forall t tbl, In (t, tbl) rtn <->
    exists flds ks, In (t, flds) pks /\ flds <> [] /\ Forall2 (key_in_row flds) (rows t) ks /\
      tbl = masked (duplicated eqb kp ks) (rows t) /\ tbl <> [].
Proof.
  intros eqb kp. induction pks as [|[t0 f0] pks IH]; intros rows rtn H t tbl; simpl in H.
  - injection H as <-. split; [intros []|intros (? & ? & [] & _)].
  - change (fold_right _ _ pks) with (pan_duplicates eqb kp pks rows) in H.
    destruct (pan_duplicates eqb kp pks rows) as [rest|] eqn:E; [|discriminate].
    specialize (IH _ _ E t tbl).
    destruct f0 as [|f fl].
    + injection H as <-. rewrite IH. split.
      * intros (flds & ks & H1 & H2). exists flds, ks. simpl. tauto.
      * intros (flds & ks & [H1|H1] & H2 & H3); [injection H1 as <- <-; congruence|]. exists flds, ks. tauto.
    + destruct (keys_of (f :: fl) (rows t0)) as [ks|] eqn:Ek; [|discriminate].
      assert (U : forall ks', Forall2 (key_in_row (f :: fl)) (rows t0) ks' -> ks' = ks).
      { intros ks' Hk. apply keys_of_iff in Hk. congruence. }
      apply keys_of_iff in Ek. pose proof (Forall2_length _ _ _ Ek) as Hlen.
      assert (M : existsb (fun b => b) (duplicated eqb kp ks) = true <-> masked (duplicated eqb kp ks) (rows t0) <> []).
      { rewrite existsb_exists. split.
        - intros (b & Hb & ->). apply In_nth_error in Hb as (i & Hi).
          assert (i < List.length (rows t0)).
          { rewrite Hlen, <- (duplicated_length eqb kp ks). apply nth_error_Some. congruence. }
          destruct (nth_error (rows t0) i) as [r|] eqn:Er; [|apply nth_error_None in Er; lia].
          assert (In r (masked (duplicated eqb kp ks) (rows t0))).
          { apply masked_In; [rewrite duplicated_length; auto|]. eauto. }
          intros Q. rewrite Q in H1. contradiction.
        - intros Q. destruct (masked (duplicated eqb kp ks) (rows t0)) as [|r m] eqn:Em; [congruence|].
          assert (In r (masked (duplicated eqb kp ks) (rows t0))) by (rewrite Em; simpl; auto).
          apply masked_In in H0 as (i & H0 & _); [|rewrite duplicated_length; auto].
          exists true. split; auto. eapply nth_error_In; eauto. }
      destruct (existsb (fun b => b) (duplicated eqb kp ks)).
      * injection H as <-. simpl. rewrite IH. split.
        -- intros [Hin|(flds & ks' & H1 & H2)].
           ++ injection Hin as <- <-. exists (f :: fl), ks. split; auto. split; [discriminate|]. split; auto. split; auto.
              now apply M.
           ++ exists flds, ks'. tauto.
        -- intros (flds & ks' & [H1|H1] & H2 & H3 & H4 & H5).
           ++ injection H1 as <- <-. left. rewrite H4, (U _ H3). reflexivity.
           ++ right. exists flds, ks'. tauto.
      * injection H as <-. rewrite IH. split.
        -- intros (flds & ks' & H1 & H2). exists flds, ks'. simpl. tauto.
        -- intros (flds & ks' & [H1|H1] & H2 & H3 & H4 & H5).
           ++ injection H1 as <- <-. exfalso. rewrite H4, (U _ H3) in H5. apply M in H5. discriminate.
           ++ exists flds, ks'. tauto.
Qed.

(** ** log_table *)

Lemma slice_to_nonneg {A} : forall n (l : list A), (0 <= n)%Z -> slice_to n l = firstn (Z.to_nat n) l.
Proof. intros n l H. unfold slice_to. destruct (Z.ltb_spec n 0); [lia|reflexivity]. Qed.

Lemma ljust_length : forall n s, String.length (ljust n s) = max n (String.length s).
Proof.
  intros n s. unfold ljust.
  assert (A : forall a b, String.length (a ++ b)%string = String.length a + String.length b).
  { induction a; simpl; intros; auto. }
  assert (B : forall m, String.length (blanks m) = m) by (induction m; simpl; auto).
  rewrite A, B. lia.
Qed.

(** The text from position [n] on. *)
Fixpoint from (n : nat) (s : string) : string :=
  match n, s with O, _ => s | S m, String _ s' => from m s' | S _, EmptyString => EmptyString end.

Lemma from_app : forall a b, from (String.length a) (a ++ b)%string = b.
Proof. induction a; simpl; auto. Qed.

Lemma from_plus : forall n m s, from (n + m) s = from m (from n s).
Proof.
  induction n as [|n IH]; intros m s; simpl; auto. destruct s; auto. destruct m; reflexivity.
Qed.

Lemma append_assoc_str : forall a b c : string, ((a ++ b) ++ c = a ++ (b ++ c))%string.
Proof. induction a; simpl; intros; congruence. Qed.

(** When every cell before column [i] fits, column [i] starts at [i * w]. *)
Lemma log_row_column {A} (fmt : A -> string) w : forall row i x,
  (forall j y, j < i -> nth_error row j = Some y -> String.length (fmt y) <= w) ->
  nth_error row i = Some x ->
  exists rest, from (i * w) (log_row fmt w row) = (fmt x ++ rest)%string.
Proof.
  unfold log_row. induction row as [|a row IH]; intros [|i] x H Hx; simpl in Hx; try discriminate.
  - injection Hx as ->. simpl. unfold ljust. rewrite !append_assoc_str. eauto.
  - simpl. rewrite append_assoc_str.
    destruct (IH i x) as (rest & E); auto.
    { intros j y Hj Hy. apply (H (S j)); auto. lia. }
    assert (L : String.length (ljust w (fmt a)) = w).
    { rewrite ljust_length. assert (String.length (fmt a) <= w) by (apply (H 0); auto; lia). lia. }
    exists rest. rewrite from_plus. rewrite <- E. f_equal.
    pose proof (from_app (ljust w (fmt a)) (concat_str (map (fun x => ljust w (fmt x)) row) ++ newline)) as Q.
    rewrite L in Q. exact Q.
Qed.

(** ** Pruning *)

Lemma skipn_incl {X} : forall n (l : list X) x, In x (skipn n l) -> In x l.
Proof. induction n; intros [|a l] x H; simpl in *; auto. Qed.
Lemma skipn_skipn {X} : forall n m (l : list X), skipn n (skipn m l) = skipn (n + m) l.
Proof.
  induction m as [|m IH]; intros l; simpl; [now rewrite Nat.add_0_r|].
  rewrite Nat.add_succ_r. destruct l; simpl; [now destruct n|auto].
Qed.
Lemma nth_error_skipn {X} : forall n (l : list X) i, nth_error (skipn n l) i = nth_error l (n + i).
Proof. induction n; intros [|a l] i; simpl; auto. now destruct i. Qed.


Section PruneFacts.
  Context {R : Type}.
  Variable null_row : R -> bool.

  Definition last_null (n : nat) (df : list R) : Prop := forall r, In r (tail n df) -> null_row r = true.

  Lemma apply_all_plain : forall rows, apply_all null_row rows None = forallb null_row rows.
  Proof.
    unfold apply_all. induction rows as [|r rows IH]; simpl; auto.
    destruct (df_apply (fun r => Returned (null_row r)) None rows tt) as [[l|m] st] eqn:E; simpl in *; [now rewrite IH|].
    exfalso. destruct (df_apply_plain (fun r => Returned (null_row r)) rows tt) as (_ & _ & Q).
    rewrite E in Q. destruct (proj1 Q) as (r' & m' & _ & H); [simpl; eauto|]. discriminate.
  Qed.

  Lemma is_last_iff : forall df n, 0 < n -> n <= List.length df ->
    (is_last_rows_all_nan null_row df n = true <-> last_null n df).
  Proof.
    intros df n Hn Hl. unfold is_last_rows_all_nan. rewrite apply_all_plain.
    assert (W : forall rows, apply_all null_row rows
      (Some (fun x st => (st, Some (if x : bool then (fun r => Returned (null_row r)) else (fun _ => Returned false))))) =
      forallb null_row rows).
    { intros [|r rows]; [reflexivity|]. unfold apply_all. cbn [df_apply].
      destruct (null_row r) eqn:E; simpl.
      - pose proof (apply_all_plain rows) as P. unfold apply_all in P.
        destruct (df_apply (fun r0 => Returned (null_row r0)) None rows tt) as [[l|m] st]; simpl in *; rewrite E; auto.
      - rewrite df_apply_const. simpl. now rewrite E. }
    rewrite W, andb_true_iff, !forallb_forall. unfold last_null. split; [tauto|]. intros H. split; auto.
    intros r Hr. apply H. unfold tail in *.
    replace (List.length df - 1) with ((n - 1) + (List.length df - n)) in Hr by lia.
    rewrite <- skipn_skipn in Hr. eapply skipn_incl; eauto.
  Qed.

  Lemma last_null_le : forall df n m, m <= n -> n <= List.length df -> last_null n df -> last_null m df.
  Proof.
    intros df n m H Hn Hl r Hr. apply Hl. unfold tail in *.
    replace (List.length df - m) with ((n - m) + (List.length df - n)) in Hr by lia.
    rewrite <- skipn_skipn in Hr. eapply skipn_incl; eauto.
  Qed.

  Lemma find_number_spec : forall fuel df mn mx, mx - mn < fuel -> mn <= mx -> mx <= List.length df ->
    last_null mn df -> (forall n, n <= List.length df -> last_null n df -> n <= mx) ->
    exists k, find_number null_row fuel df mn mx = Ret k /\ k <= List.length df /\ last_null k df /\
      (forall n, n <= List.length df -> last_null n df -> n <= k).
  Proof.
    induction fuel as [|fuel IH]; intros df mn mx Hf Hm Hx Hl Hu; [lia|]. cbn [find_number].
    destruct (Nat.ltb_spec mx mn); [lia|].
    destruct (Nat.eqb_spec mn mx) as [->|Hne].
    - exists mx. assert (Q : (Nat.eqb mx 0 || is_last_rows_all_nan null_row df mx) = true).
      { destruct (Nat.eqb_spec mx 0) as [->|Hz]; [reflexivity|]. simpl. apply is_last_iff; auto. lia. }
      rewrite Q. auto.
    - set (med := (mn + mx + 1) / 2).
      assert (M1 : mn < med) by (unfold med; apply (Nat.div_le_lower_bound _ 2 (S mn)); lia).
      assert (M2 : med <= mx).
      { unfold med. apply Nat.div_le_upper_bound; lia. }
      destruct (is_last_rows_all_nan null_row df med) eqn:E.
      + apply is_last_iff in E; try lia. apply IH; auto; lia.
      + apply IH; auto; try lia.
        intros n Hn Hnl. destruct (Nat.le_gt_cases n (med - 1)); auto. exfalso.
        assert (last_null med df) by (apply (last_null_le df n); auto; lia).
        apply is_last_iff in H1; try lia. congruence.
  Qed.

  Theorem prune_exact : forall df, exists kept dropped,
    remove_trailing_all_nan null_row df = Ret kept /\ df = kept ++ dropped /\
    (forall r, In r dropped -> null_row r = true) /\
    (kept = [] \/ exists front r, kept = front ++ [r] /\ null_row r = false).
  Proof.
    intros df. unfold remove_trailing_all_nan.
    destruct (find_number_spec (S (List.length df)) df 0 (List.length df)) as (k & E & K1 & K2 & K3); auto; try lia.
    { intros r Hr. unfold tail in Hr. rewrite Nat.sub_0_r, skipn_all in Hr. contradiction. }
    exists (firstn (List.length df - k) df), (tail k df).
    split; [|split; [symmetry; apply firstn_skipn|split; [exact K2|]]].
    - rewrite E. destruct k; [|reflexivity]. now rewrite Nat.sub_0_r, firstn_all.
    - destruct (Nat.eq_dec k (List.length df)) as [->|Hk]; [left; now rewrite Nat.sub_diag|]. right.
      assert (L : List.length df - k = S (List.length df - S k)) by lia.
      destruct (nth_error df (List.length df - S k)) as [r|] eqn:Er; [|apply nth_error_None in Er; lia].
      exists (firstn (List.length df - S k) df), r. split.
      + rewrite L. clear -Er. revert Er. generalize (List.length df - S k). intros n. revert df.
        induction n as [|n IH]; intros [|a df] H; simpl in *; try discriminate; [congruence|]. f_equal. auto.
      + destruct (null_row r) eqn:En; auto. exfalso.
        assert (last_null (S k) df); [|apply K3 in H; lia].
        intros r' Hr'. unfold tail in Hr'.
        assert (Q : skipn (List.length df - S k) df = r :: skipn (List.length df - k) df).
        { rewrite L. clear -Er. revert Er. generalize (List.length df - S k). intros n. revert df.
          induction n as [|n IH]; intros [|a df] H; simpl in *; try discriminate; [congruence|]. apply IH. auto. }
        rewrite Q in Hr'. destruct Hr' as [<-|Hr']; auto.
  Qed.
End PruneFacts.

Lemma scan_down_spec : forall s n, n <= List.length (sh_rows s) ->
  scan_down s n <= n /\
  (forall i r, scan_down s n <= i -> i < n -> nth_error (sh_rows s) i = Some r -> empty_row r = true) /\
  (scan_down s n = 0 \/ exists r, nth_error (sh_rows s) (scan_down s n - 1) = Some r /\ empty_row r = false).
Proof.
  induction n as [|n IH]; intros Hn; simpl.
  - split; [lia|]. split; [intros; lia|auto].
  - destruct (IH ltac:(lia)) as (A & B & C).
    destruct (nth_error (sh_rows s) n) as [r|] eqn:E; [|apply nth_error_None in E; lia].
    rewrite (nth_error_nth _ _ [] E).
    destruct (empty_row r) eqn:Er.
    + split; [lia|]. split; auto. intros i r' Hi Hn' Hr. destruct (Nat.eq_dec i n) as [->|]; [congruence|].
      apply (B i); auto. lia.
    + split; [lia|]. split; [intros; lia|]. right. exists r. simpl. rewrite Nat.sub_0_r. auto.
Qed.

Lemma empty_row_iff : forall r, empty_row r = true <-> forall v, In v r -> v = VNone.
Proof.
  intros r. unfold empty_row. rewrite forallb_forall. split; intros H v Hv; specialize (H v Hv).
  - now destruct v.
  - now subst v.
Qed.

Lemma nonempty_row_iff : forall r, empty_row r = false <-> exists v, In v r /\ v <> VNone.
Proof.
  intros r. split.
  - induction r as [|v r IH]; [discriminate|]. intros H. destruct v; try (eexists; split; [now left|discriminate]).
    simpl in H. destruct (IH H) as (v & Hv & Hn). exists v. split; [now right|auto].
  - intros (v & Hv & Hn). destruct (empty_row r) eqn:E; auto. exfalso. apply Hn. exact (proj1 (empty_row_iff r) E v Hv).
Qed.

Theorem sheet_prune_exact : forall s, sh_min s = 1 -> exists kept dropped,
  sh_rows s = kept ++ dropped /\ (forall first, rows_read true s first = skipn first kept) /\
  (forall r, In r dropped -> empty_row r = true) /\
  (kept = [] \/ exists front r, kept = front ++ [r] /\ empty_row r = false).
Proof.
  intros s Hs. set (n := List.length (sh_rows s)).
  assert (N : wrapped_max_row true s = scan_down s n).
  { unfold wrapped_max_row, nrows. rewrite Hs. fold n. destruct n as [|m] eqn:En; [|f_equal; lia].
    unfold n in En. destruct (sh_rows s) eqn:Er; [|discriminate]. simpl. rewrite Er. reflexivity. }
  destruct (scan_down_spec s n (le_n _)) as (A & B & C).
  exists (firstn (scan_down s n) (sh_rows s)), (skipn (scan_down s n) (sh_rows s)).
  split; [symmetry; apply firstn_skipn|]. split; [intros; unfold rows_read; now rewrite N|]. split.
  - intros r Hr. apply In_nth_error in Hr as (i & Hi). rewrite nth_error_skipn in Hi.
    apply (B (scan_down s n + i)); auto; [lia|].
    assert (Q : nth_error (sh_rows s) (scan_down s n + i) <> None) by congruence.
    now apply nth_error_Some in Q.
  - destruct C as [->|(r & C1 & C2)]; [auto|]. right.
    destruct (scan_down s n) as [|m] eqn:Em.
    + exfalso. change (0 - 1) with 0 in C1. assert (empty_row r = true); [|congruence].
      assert (Q : nth_error (sh_rows s) 0 <> None) by congruence.
      apply nth_error_Some in Q. apply (B 0); auto.
    + simpl in C1. rewrite Nat.sub_0_r in C1. exists (firstn m (sh_rows s)), r. split; auto.
      clear -C1. revert C1. generalize (sh_rows s). induction m as [|m IH]; intros [|a l] H; simpl in *; try discriminate; [congruence|].
      f_equal. apply IH. auto.
Qed.

(** ** Statements used by the properties *)

Lemma nodup_fst_eq {A B} : forall (l : list (A * B)) a b b', NoDup (map fst l) -> In (a, b) l -> In (a, b') l -> b = b'.
Proof.
  induction l as [|[a0 b0] l IH]; simpl; intros a b b' H H1 H2; [contradiction|]. inversion H as [|? ? H3 H4]; subst.
  destruct H1 as [H1|H1], H2 as [H2|H2].
  - congruence.
  - injection H1 as <- <-. exfalso. apply H3. apply in_map_iff. exists (a0, b'). auto.
  - injection H2 as <- <-. exfalso. apply H3. apply in_map_iff. exists (a0, b). auto.
  - eauto.
Qed.

Theorem find_duplicates_counts : forall pks rows rtn t flds ks, NoDup (map fst pks) ->
  find_duplicates pks rows = Ret rtn -> In (t, flds) pks -> Forall2 (key_in_row flds) (rows t) ks ->
  forall k n, (exists d k', In (t, d) rtn /\ In (k', n) d /\ key_pyeq k' k = true) <->
              n = occurrences k ks /\ 1 < n.
Proof.
  intros pks rows rtn t flds ks Hn H Hin Hk k n. destruct (find_duplicates_spec _ _ _ H) as [_ S].
  rewrite <- dups_of_iff. split.
  - intros (d & k' & H1 & H2 & H3). apply S in H1 as (flds' & ks' & Q1 & Q2 & -> & Q4).
    assert (flds' = flds) as -> by (eapply nodup_fst_eq; eauto).
    assert (ks' = ks) as -> by (apply keys_of_iff in Q2, Hk; congruence). eauto.
  - intros (k' & H1 & H2). exists (dups_of ks), k'. split; auto. apply S. exists flds, ks.
    split; auto. split; auto. split; auto. intros Q. rewrite Q in H1. contradiction.
Qed.

Lemma keys_distinct_nth {K} (eqb : K -> K -> bool) : (forall x y, eqb x y = eqb y x) -> forall l, keys_distinct eqb l ->
  forall i j k k', nth_error l i = Some k -> nth_error l j = Some k' -> eqb k k' = true -> i = j.
Proof.
  intros sym. induction l as [|a l IH]; intros H [|i] [|j] k k' Hi Hj E; simpl in *; try discriminate; auto.
  - injection Hi as ->. apply nth_error_In in Hj. destruct H as [H _]. rewrite (H _ Hj) in E. discriminate.
  - injection Hj as ->. apply nth_error_In in Hi. destruct H as [H _]. rewrite sym, (H _ Hi) in E. discriminate.
  - f_equal. destruct H as [_ H]. eapply IH; eauto.
Qed.

Theorem find_duplicates_reports : forall pks rows rtn t d,
  find_duplicates pks rows = Ret rtn -> In (t, d) rtn ->
  In t (map fst pks) /\ d <> [] /\
  forall i j k m k' m', nth_error d i = Some (k, m) -> nth_error d j = Some (k', m') -> key_pyeq k k' = true -> i = j.
Proof.
  intros pks rows rtn t d H Hin. destruct (find_duplicates_spec _ _ _ H) as [_ S].
  apply S in Hin as (flds & ks & H1 & H2 & -> & H4). split; [apply in_map_iff; exists (t, flds); auto|]. split; auto.
  intros i j k m k' m' Hi Hj E.
  apply (keys_distinct_nth key_pyeq key_pyeq_sym _ (dups_distinct ks) i j k k'); auto.
  - now rewrite nth_error_map, Hi.
  - now rewrite nth_error_map, Hj.
Qed.

Theorem pan_flagged : forall eqb kp pks rows rtn t flds ks, NoDup (map fst pks) ->
  pan_duplicates eqb kp pks rows = Ret rtn -> In (t, flds) pks -> flds <> [] ->
  Forall2 (key_in_row flds) (rows t) ks ->
  exists flags, List.length flags = List.length (rows t) /\
    (forall i k, nth_error ks i = Some k -> exists b, nth_error flags i = Some b /\
      (b = true <-> exists j k', nth_error ks j = Some k' /\ eqb k k' = true /\
         match kp with KFirst => j < i | KLast => i < j | KNone => j <> i end)) /\
    forall tbl, In (t, tbl) rtn <-> tbl = masked flags (rows t) /\ tbl <> [].
Proof.
  intros eqb kp pks rows rtn t flds ks Hn H Hin Hf Hk. exists (duplicated eqb kp ks). split; [|split].
  - rewrite duplicated_length. symmetry. eapply Forall2_length; eauto.
  - intros i k Hi. now apply duplicated_nth.
  - intros tbl. rewrite (pan_duplicates_spec _ _ _ _ _ H). split.
    + intros (flds' & ks' & Q1 & Q2 & Q3 & Q4 & Q5).
      assert (flds' = flds) as -> by (eapply nodup_fst_eq; eauto).
      assert (ks' = ks) as -> by (apply keys_of_iff in Q3, Hk; congruence). auto.
    + intros [Q1 Q2]. exists flds, ks. auto 6.
Qed.

Theorem one_row_per_key : forall K (eqb : K -> K -> bool) kp ks,
  ((forall x, eqb x x = true) /\ (forall x y, eqb x y = eqb y x) /\
   (forall x y z, eqb x y = true -> eqb y z = true -> eqb x z = true)) -> kp <> KNone ->
  let left := masked (map negb (duplicated eqb kp ks)) ks in
  (forall k, In k ks -> exists k', In k' left /\ eqb k k' = true) /\
  (forall i j k k', nth_error left i = Some k -> nth_error left j = Some k' -> eqb k k' = true -> i = j).
Proof.
  intros K eqb kp ks (E1 & E2 & E3) Hk left. split.
  - intros k Hin. apply kept_all; auto.
  - apply keys_distinct_nth; auto. apply kept_NoDup; auto.
Qed.

Theorem log_lines : forall A (fmt : A -> string) name header rows (bound : nat) out,
  log_table fmt name (header :: rows) (Z.of_nat bound) = Ret out ->
  exists w title row_line announcement,
    out = (title :: announcement ++ row_line header :: map row_line (firstn (min bound (List.length rows)) rows) ++ [newline]) /\
    (announcement = [] <-> List.length rows <= bound) /\ List.length announcement <= 1 /\
    18 <= w <= 30 /\
    forall row i x, (forall j y, j < i -> nth_error row j = Some y -> String.length (fmt y) <= w) ->
      nth_error row i = Some x -> exists rest, from (i * w) (row_line row) = (fmt x ++ rest)%string.
Proof.
  intros A fmt name header rows bound out H. unfold log_table in H.
  destruct (forallb _ rows); [|discriminate]. injection H as <-.
  rewrite slice_to_nonneg by lia. replace (Z.to_nat (Z.of_nat bound + 1)) with (S bound) by lia.
  set (ann := if (Z.of_nat bound <? Z.of_nat (List.length rows))%Z then _ else _).
  exists (width (List.length header)). eexists. exists (log_row fmt (width (List.length header))), ann.
  split; [|split; [|split; [|split]]].
  - cbn [firstn map app]. do 5 f_equal.
    destruct (Nat.le_ge_cases bound (List.length rows)).
    + now rewrite Nat.min_l.
    + rewrite Nat.min_r by auto. now rewrite !firstn_all2 by lia.
  - unfold ann. destruct (Z.ltb_spec (Z.of_nat bound) (Z.of_nat (List.length rows))); split; intros; auto; try discriminate; lia.
  - unfold ann. destruct (Z.ltb (Z.of_nat bound) (Z.of_nat (List.length rows))); simpl; lia.
  - unfold width. destruct (Nat.leb _ 2); [lia|]. destruct (Nat.eqb _ 3); [lia|]. destruct (Nat.eqb _ 4); lia.
  - intros row i x. apply log_row_column.
Qed.

(** Padding is blanks only: taking them away leaves the cells' texts. *)
Fixpoint squeeze (s : string) : string :=
  match s with
  | EmptyString => EmptyString
  | String c s' => if Ascii.eqb c " " then squeeze s' else String c (squeeze s')
  end.

Lemma squeeze_app : forall a b, squeeze (a ++ b)%string = (squeeze a ++ squeeze b)%string.
Proof. induction a as [|c a IH]; intros b; simpl; auto. rewrite IH. destruct (Ascii.eqb c " "); reflexivity. Qed.

Lemma squeeze_blanks : forall n, squeeze (blanks n) = EmptyString.
Proof. induction n; simpl; auto. Qed.

Lemma append_nil_r : forall s : string, (s ++ "")%string = s.
Proof. induction s; simpl; congruence. Qed.

Theorem log_texts : forall A (fmt : A -> string) name header rows (bound : nat) out row,
  log_table fmt name (header :: rows) (Z.of_nat bound) = Ret out ->
  In row (header :: firstn bound rows) ->
  exists line, In line out /\ squeeze line = (concat_str (map (fun x => squeeze (fmt x)) row) ++ newline)%string.
Proof.
  intros A fmt name header rows bound out row H Hr. unfold log_table in H.
  destruct (forallb _ rows); [|discriminate]. injection H as <-.
  exists (log_row fmt (width (List.length header)) row). split.
  - right. apply in_or_app. right. apply in_or_app. left. apply in_map.
    rewrite slice_to_nonneg by lia. replace (Z.to_nat (Z.of_nat bound + 1)) with (S bound) by lia. exact Hr.
  - unfold log_row. rewrite squeeze_app. f_equal. generalize (width (List.length header)). intros w.
    clear Hr. induction row as [|x row IH]; simpl; auto. rewrite squeeze_app, IH. f_equal.
    unfold ljust. rewrite squeeze_app, squeeze_blanks. apply append_nil_r.
Qed.

Theorem log_negative : forall A (fmt : A -> string) name seq (k : nat) out,
  log_table fmt name seq (- Z.of_nat (S k)) = Ret out ->
  exists title announcement row_line shown,
    out = (title :: announcement :: map row_line shown ++ [newline]) /\
    (k = 0 -> shown = []) /\
    (0 < k -> shown = firstn (List.length seq - k) seq) /\
    forall row, In row seq -> squeeze (row_line row) = (concat_str (map (fun x => squeeze (fmt x)) row) ++ newline)%string.
Proof.
  intros A fmt name seq k out H. unfold log_table in H. destruct seq as [|header rows]; [discriminate|].
  destruct (forallb _ rows); [|discriminate]. 
  assert (Z.ltb (- Z.of_nat (S k)) (Z.of_nat (List.length rows)) = true) as E by (apply Z.ltb_lt; lia). rewrite E in H.
  assert (out = _) as -> by (symmetry; exact (f_equal (fun o => match o with Ret x => x | Raise => out end) H)). clear H E.
  eexists. eexists. exists (log_row fmt (width (List.length header))). eexists. split; [reflexivity|]. split; [|split].
  - intros ->. reflexivity.
  - intros Hk. unfold slice_to. assert (Z.ltb (- Z.of_nat (S k) + 1) 0 = true) as -> by (apply Z.ltb_lt; lia). f_equal. lia.
  - intros row _. unfold log_row. rewrite squeeze_app. f_equal. generalize (width (List.length header)). intros w.
    induction row as [|x row IH]; simpl; auto. rewrite squeeze_app, IH. f_equal.
    unfold ljust. rewrite squeeze_app, squeeze_blanks. apply append_nil_r.
Qed.

Theorem log_accepted : forall A (fmt : A -> string) name seq bound,
  (exists out, log_table fmt name seq bound = Ret out) <->
  exists header rows, seq = header :: rows /\ forall r, In r rows -> List.length r = List.length header.
Proof.
  intros A fmt name seq bound. unfold log_table. split.
  - intros (out & H). destruct seq as [|header rows]; [discriminate|]. exists header, rows. split; auto.
    destruct (forallb _ rows) eqn:E; [|discriminate]. rewrite forallb_forall in E. intros r Hr. apply Nat.eqb_eq. auto.
  - intros (header & rows & -> & H).
    assert (E : forallb (fun r => Nat.eqb (List.length r) (List.length header)) rows = true).
    { apply forallb_forall. intros r Hr. apply Nat.eqb_eq. auto. }
    rewrite E. eauto.
Qed.

(** ** When [pan_duplicates] returns *)

Lemma key_in_row_exists : forall flds r, (exists k, key_in_row flds r k) <-> forall x, In x flds -> dget String.eqb r x <> None.
Proof.
  unfold key_in_row. induction flds as [|f flds IH]; intros r; split.
  - intros _ x [].
  - intros _. exists []. constructor.
  - intros (k & H) x [<-|Hx].
    + inversion H; congruence.
    + inversion H as [|? v ? k' H1 H2]; subst. apply (proj1 (IH r)); eauto.
  - intros H. destruct (dget String.eqb r f) as [v|] eqn:E; [|exfalso; apply (H f); simpl; auto].
    destruct (proj2 (IH r)) as (k & Hk); [intros; apply H; simpl; auto|]. exists (v :: k). now constructor.
Qed.

Lemma keys_of_exists : forall flds rows, (exists ks, keys_of flds rows = Ret ks) <-> forall r x, In r rows -> In x flds -> dget String.eqb r x <> None.
Proof.
  intros flds rows. transitivity (exists ks, Forall2 (key_in_row flds) rows ks).
  { split; intros (ks & H); exists ks; now apply keys_of_iff. }
  induction rows as [|r rows IH]; split.
  - intros _ r x [].
  - intros _. exists []. constructor.
  - intros (ks & H) r' x Hr Hx. inversion H as [|? k ? l H1 H2]; subst. destruct Hr as [<-|Hr].
    + apply (proj1 (key_in_row_exists flds r)); eauto.
    + apply (proj1 IH) with (x := x) (r := r'); eauto.
  - intros H. destruct (proj2 (key_in_row_exists flds r)) as (k & Hk); [intros x; apply H; simpl; auto|].
    destruct (proj2 IH) as (l & Hl); [intros; apply H; simpl; auto|]. exists (k :: l). now constructor.
Qed.

Lemma pan_duplicates_returns : forall eqb kp pks rows,
  (exists rtn, pan_duplicates eqb kp pks rows = Ret rtn) <->
  forall t flds r x, In (t, flds) pks -> In r (rows t) -> In x flds -> dget String.eqb r x <> None.
Proof.
  intros eqb kp pks rows. induction pks as [|[t0 f0] pks IH].
  - split; [intros _ t flds r x []|intros _; now exists []].
  - cbn [pan_duplicates fold_right fst snd]. change (fold_right _ _ pks) with (pan_duplicates eqb kp pks rows). split.
    + intros (rtn & H). destruct (pan_duplicates eqb kp pks rows) as [rest|]; [|discriminate].
      pose proof (proj1 IH (ex_intro _ rest eq_refl)) as A. intros t flds r x [Hin|Hin] Hr Hx; [|eapply A; eauto].
      injection Hin as -> ->. destruct flds as [|f flds]; [destruct Hx|].
      destruct (keys_of (f :: flds) (rows t)) as [ks|] eqn:E; [|discriminate].
      eapply (proj1 (keys_of_exists (f :: flds) (rows t))); eauto.
    + intros H. destruct (proj2 IH) as (rest & Hr). { intros t flds r x Hin. apply (H t flds); simpl; auto. }
      rewrite Hr. destruct f0 as [|f fl]; [eauto|].
      destruct (proj2 (keys_of_exists (f :: fl) (rows t0))) as (ks & Hk). { intros r x. apply (H t0); simpl; auto. }
      rewrite Hk. destruct (existsb _ _); eauto.
Qed.
