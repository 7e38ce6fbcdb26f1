(** * obfusimplify: the names are distinct. *)
From Coq Require Import ZArith Bool List String Ascii Arith Lia Permutation DecimalString DecimalNat.
From Verif Require Import PyVal PyValFacts PyDict PyDictFacts ListFacts PyStr Data FindTypes FindTypesFacts
  FK FKFacts InfIO Ampl Obfus.
Import ListNotations.

Lemma text_eqb_eq : forall a b, text_eqb a b = true <-> a = b.
Proof. intros a b. unfold text_eqb. apply FKFacts.list_eqb_eq. intros x y. split; [apply Ascii.eqb_eq | intros ->; apply Ascii.eqb_refl]. Qed.

Lemma text_eqb_refl : forall a, text_eqb a a = true.
Proof. intros a. now apply text_eqb_eq. Qed.
Lemma text_eqb_sym : forall a b, text_eqb a b = text_eqb b a.
Proof.
  intros a b. destruct (text_eqb a b) eqn:E; symmetry.
  - apply text_eqb_eq in E as ->. apply text_eqb_refl.
  - apply not_true_is_false. intros H. apply text_eqb_eq in H as ->. rewrite text_eqb_refl in E. discriminate.
Qed.
Lemma text_eqb_trans : forall a b c, text_eqb a b = true -> text_eqb b c = true -> text_eqb a c = true.
Proof. intros a b c H1 H2. apply text_eqb_eq in H1 as ->. auto. Qed.

Definition letters (s : text) : Prop := forall c, In c s -> In c uppercase.
Definition digits (s : text) : Prop := forall c, In c s -> In c (txt "0123456789").

Lemma letter_digit : forall c, In c uppercase -> In c (txt "0123456789") -> False.
Proof.
  intros c H1 H2. simpl in H2. repeat (destruct H2 as [<- | H2]; [simpl in H1; repeat (destruct H1 as [H1 | H1]; [discriminate |]); destruct H1 |]).
  destruct H2.
Qed.

Lemma split_name : forall p p' q q', letters p -> letters p' -> digits q -> digits q' ->
  p ++ q = p' ++ q' -> p = p' /\ q = q'.
Proof.
  induction p as [| c p IH]; intros [| c' p'] q q' H1 H2 H3 H4 E; simpl in E; auto.
  - exfalso. apply (letter_digit c'); [apply H2; now left |]. apply H3. rewrite E. now left.
  - exfalso. apply (letter_digit c); [apply H1; now left |]. apply H4. rewrite <- E. now left.
  - injection E as -> E. apply IH in E as [-> ->]; auto; intros x Hx; [apply H1 | apply H2]; now right.
Qed.

Lemma txt_inj : forall a b, txt a = txt b -> a = b.
Proof.
  intros a b H. unfold txt in H. rewrite <- (string_of_list_ascii_of_string a), <- (string_of_list_ascii_of_string b).
  now rewrite H.
Qed.

Lemma uint_digits : forall u, digits (txt (NilEmpty.string_of_uint u)).
Proof.
  induction u; intros c Hc; simpl in Hc; try (destruct Hc as [<- | Hc]; [simpl; tauto | now apply IHu]). destruct Hc.
Qed.

Lemma new_name_inj : forall p p' n n', letters p -> letters p' -> new_name p n = new_name p' n' -> p = p' /\ n = n'.
Proof.
  intros p p' n n' H1 H2 E. unfold new_name in E. apply split_name in E as [-> E]; auto using uint_digits.
  split; auto. apply txt_inj in E. apply (f_equal NilEmpty.uint_of_string) in E. rewrite !NilEmpty.usu in E.
  injection E as E. now apply Unsigned.to_uint_inj.
Qed.

(** ** Candidates *)

Lemma char_in_In : forall l c, char_in l c = true <-> In c l.
Proof.
  intros l c. unfold char_in. rewrite existsb_exists. split.
  - intros (x & H1 & H2). apply Ascii.eqb_eq in H2 as ->. auto.
  - intros H. exists c. split; auto. apply Ascii.eqb_refl.
Qed.

Lemma chars_upper : forall c, In c chars -> In c uppercase.
Proof. intros c H. simpl in *. tauto. Qed.

Lemma chars_nodup : NoDup chars.
Proof.
  repeat (constructor; [simpl; intros H; repeat (destruct H as [H | H]; [discriminate H |]); exact H |]). constructor.
Qed.

Lemma from_table_chars : forall t c, In c (from_table t) -> In c chars.
Proof. intros t c H. unfold from_table in H. apply filter_In in H as [_ H]. now apply char_in_In. Qed.

Lemma candidate_early : forall ft n, n <= List.length ft -> candidate ft n = Ret (firstn n ft).
Proof. intros ft n H. unfold candidate. now rewrite (proj2 (Nat.leb_le _ _) H). Qed.

Lemma candidate_late : forall ft j, candidate ft (List.length ft + S j) =
  if Nat.ltb j 25 then Ret (ft ++ [nth j chars "A"%char]) else Raise.
Proof.
  intros ft j. unfold candidate. destruct (Nat.leb_spec (List.length ft + S j) (List.length ft)); [lia |].
  replace (List.length ft + S j - List.length ft - 1) with j by lia.
  unfold base_converter. change (List.length chars) with 25. now destruct (Nat.ltb j 25).
Qed.

(** The search never gets past the last number it is given. *)
Lemma candidate_last : forall ft, candidate ft (List.length ft + List.length chars + 1) = Raise.
Proof.
  intros ft. replace (List.length ft + List.length chars + 1) with (List.length ft + S 25) by (change (List.length chars) with 25; lia).
  now rewrite candidate_late.
Qed.

Lemma candidate_letters : forall t n s, candidate (from_table t) n = Ret s -> letters s.
Proof.
  intros t n s H c Hc. apply chars_upper. destruct (le_lt_dec n (List.length (from_table t))) as [Hn | Hn].
  - rewrite candidate_early in H by auto. injection H as <-. apply firstn_incl in Hc. now apply from_table_chars in Hc.
  - replace n with (List.length (from_table t) + S (n - List.length (from_table t) - 1)) in H by lia.
    rewrite candidate_late in H. destruct (Nat.ltb_spec (n - List.length (from_table t) - 1) 25) as [Hj |]; [| discriminate].
    pose proof (nth_In chars "A"%char Hj) as Hin. revert Hin H. generalize (nth (n - List.length (from_table t) - 1) chars "A"%char).
    intros a Hin H. injection H as <-. apply in_app_or in Hc as [Hc | [<- | []]]; [now apply from_table_chars in Hc | exact Hin].
Qed.

Lemma candidate_inj : forall ft n m s, 1 <= n -> 1 <= m -> candidate ft n = Ret s -> candidate ft m = Ret s -> n = m.
Proof.
  intros ft n m s Hn Hm H1 H2. set (k := List.length ft).
  assert (forall n, k < n -> n = k + S (n - k - 1)) as Hs by (intros; lia).
  destruct (le_lt_dec n k) as [An | An], (le_lt_dec m k) as [Am | Am].
  - rewrite candidate_early in H1, H2 by auto. injection H1 as H1. injection H2 as H2.
    apply (f_equal (@List.length ascii)) in H1, H2. rewrite firstn_length in H1, H2. fold k in H1, H2. lia.
  - rewrite candidate_early in H1 by auto. rewrite (Hs m Am) in H2. rewrite candidate_late in H2.
    destruct (Nat.ltb _ 25); [| discriminate]. injection H1 as H1. injection H2 as H2.
    apply (f_equal (@List.length ascii)) in H1, H2. rewrite firstn_length in H1. rewrite app_length in H2. simpl in H2. fold k in H1, H2. lia.
  - rewrite candidate_early in H2 by auto. rewrite (Hs n An) in H1. rewrite candidate_late in H1.
    destruct (Nat.ltb _ 25); [| discriminate]. injection H1 as H1. injection H2 as H2.
    apply (f_equal (@List.length ascii)) in H1, H2. rewrite firstn_length in H2. rewrite app_length in H1. simpl in H1. fold k in H1, H2. lia.
  - rewrite (Hs n An) in H1. rewrite (Hs m Am) in H2. rewrite candidate_late in H1, H2.
    destruct (Nat.ltb_spec (n - k - 1) 25); [| discriminate]. destruct (Nat.ltb_spec (m - k - 1) 25); [| discriminate].
    injection H1 as H1. injection H2 as H2. rewrite <- H2 in H1. apply app_inv_head in H1. injection H1 as H1.
    apply (proj1 (NoDup_nth chars "A"%char)) in H1; auto using chars_nodup. lia.
Qed.

Lemma used_In : forall used s, existsb (fun u => text_eqb u s) used = true <-> In s used.
Proof.
  intros used s. rewrite existsb_exists. split.
  - intros (u & H1 & H2). apply text_eqb_eq in H2 as ->. auto.
  - intros H. exists s. split; auto. apply text_eqb_refl.
Qed.

Lemma pick_spec : forall used ft ns s, pick used ft ns = Ret s ->
  ~ In s used /\ exists n, In n ns /\ candidate ft n = Ret s.
Proof.
  intros used ft. induction ns as [| n ns IH]; intros s H; simpl in H; [discriminate |].
  destruct (candidate ft n) as [s0 |] eqn:E; [| discriminate].
  destruct (existsb _ used) eqn:E2.
  - apply IH in H as (H1 & m & H2 & H3). split; auto. exists m. split; auto. now right.
  - injection H as <-. split; [| exists n; split; auto; now left].
    intros H. apply used_In in H. congruence.
Qed.

Lemma pick_fails : forall used ft ns, pick used ft ns = Raise ->
  forall pre, (exists post, ns = pre ++ post) -> (forall n, In n pre -> candidate ft n <> Raise) ->
  forall n s, In n pre -> candidate ft n = Ret s -> In s used.
Proof.
  intros used ft. induction ns as [| m ns IH]; intros H pre (post & E) Hc n s Hn Hs.
  - destruct pre; [destruct Hn | discriminate].
  - destruct pre as [| m' pre]; [destruct Hn |]. simpl in E. injection E as <- E.
    simpl in H. destruct (candidate ft m) as [s0 |] eqn:E0.
    2:{ exfalso. apply (Hc m); [now left | auto]. }
    destruct (existsb _ used) eqn:E2; [| discriminate]. apply used_In in E2.
    destruct Hn as [<- | Hn]; [congruence |].
    apply (IH H pre) with (n := n); eauto. intros x Hx. apply Hc. now right.
Qed.

Lemma name_for_ret : forall used t s, name_for used t = Ret s -> ~ In s used /\ letters s.
Proof.
  intros used t s H. unfold name_for in H. apply pick_spec in H as (H & n & _ & H2). split; auto.
  now apply candidate_letters in H2.
Qed.

(** A name is found while fewer are in use than there are candidates. *)
Lemma name_for_total : forall used t, List.length used < List.length (from_table t) + 25 ->
  exists s, name_for used t = Ret s.
Proof.
  intros used t H. destruct (name_for used t) as [s |] eqn:E; eauto. exfalso. unfold name_for in E.
  set (ft := from_table t) in *. set (N := List.length ft + 25) in *.
  set (cand := fun n => match candidate ft n with Ret s => s | Raise => [] end).
  assert (forall n, In n (seq 1 N) -> candidate ft n = Ret (cand n)) as Hc.
  { intros n Hn. apply in_seq in Hn. unfold cand. destruct (le_lt_dec n (List.length ft)) as [Hl | Hl].
    - now rewrite candidate_early.
    - replace n with (List.length ft + S (n - List.length ft - 1)) by lia. rewrite candidate_late.
      destruct (Nat.ltb_spec (n - List.length ft - 1) 25); auto. unfold N in Hn. lia. }
  assert (forall n s, In n (seq 1 N) -> candidate ft n = Ret s -> In s used) as Hu.
  { refine (pick_fails used ft _ E (seq 1 N) _ _).
    - exists [1 + N]. replace (List.length ft + List.length chars + 1) with (N + 1) by (unfold N; change (List.length chars) with 25; lia).
      rewrite seq_app. reflexivity.
    - intros n Hn. rewrite Hc by auto. discriminate. }
  assert (NoDup (map cand (seq 1 N))) as Hnd.
  { apply (proj2 (NoDup_nth _ [])). rewrite map_length, seq_length. intros i j Hi Hj Hij.
    assert (forall i, i < N -> nth i (map cand (seq 1 N)) [] = cand (1 + i)) as Hnth.
    { intros x Hx. rewrite <- (seq_nth 1 0 Hx), <- (map_nth cand). apply nth_indep. now rewrite map_length, seq_length. }
    rewrite !Hnth in Hij by auto.
    assert (1 + i = 1 + j); [| lia].
    apply (candidate_inj ft _ _ (cand (1 + i))); try lia.
    - apply Hc. apply in_seq. lia.
    - rewrite Hij. apply Hc. apply in_seq. lia. }
  apply NoDup_incl_length with (l' := used) in Hnd.
  - rewrite map_length, seq_length in Hnd. lia.
  - intros s Hs. apply in_map_iff in Hs as (n & <- & Hn). apply (Hu n); auto.
Qed.

(** ** Assigning names *)

Lemma dset_fresh : forall (pre : list (string * text)) t n, ~ In t (map fst pre) -> dset String.eqb pre t n = pre ++ [(t, n)].
Proof.
  induction pre as [| [t' n'] pre IH]; intros t n H; simpl; auto.
  destruct (String.eqb_spec t' t) as [-> | _]; [exfalso; apply H; now left |]. rewrite IH; auto. intros Hin. apply H. now right.
Qed.

Lemma assign_spec : forall ts pre pre', NoDup (map fst pre ++ ts) -> NoDup (map snd pre) ->
  (forall t p, In (t, p) pre -> letters p) -> assign ts pre = Ret pre' ->
  map fst pre' = map fst pre ++ ts /\ NoDup (map snd pre') /\ (forall t p, In (t, p) pre' -> letters p) /\
  incl pre pre'.
Proof.
  induction ts as [| t ts IH]; intros pre pre' H1 H2 H3 H; simpl in H.
  - injection H as <-. rewrite app_nil_r. repeat split; auto. apply incl_refl.
  - destruct (name_for (map snd pre) t) as [n |] eqn:E; [| discriminate]. apply name_for_ret in E as [E1 E2].
    assert (~ In t (map fst pre)) as Hf.
    { intros Hin. apply (NoDup_app_disj _ _ _ H1 Hin). now left. }
    rewrite dset_fresh in H by auto. apply IH in H.
    + rewrite map_app in H. simpl in H. rewrite <- app_assoc in H. destruct H as (A & B & C & D).
      repeat split; auto. intros x Hx. apply D, in_or_app. now left.
    + rewrite map_app. simpl. now rewrite <- app_assoc.
    + rewrite map_app. simpl. apply NoDup_app_intro; auto.
      * constructor; auto. constructor.
      * intros x Hx [<- | []]. auto.
    + intros t' p Hin. apply in_app_or in Hin as [Hin | [Hin | []]]; eauto. now injection Hin as <- <-.
Qed.

Lemma assign_total : forall ts pre, NoDup (map fst pre ++ ts) ->
  (forall t, In t ts -> List.length pre + List.length ts <= List.length (from_table t) + 25) ->
  exists pre', assign ts pre = Ret pre'.
Proof.
  induction ts as [| t ts IH]; intros pre Hnd H; simpl; eauto.
  assert (~ In t (map fst pre)) as Hf.
  { intros Hin. apply (NoDup_app_disj _ _ _ Hnd Hin). now left. }
  destruct (name_for_total (map snd pre) t) as (s & ->).
  - rewrite map_length. specialize (H t (or_introl eq_refl)). simpl in H. lia.
  - rewrite dset_fresh by auto. apply IH.
    + rewrite map_app. simpl. now rewrite <- app_assoc.
    + intros t' Ht'. specialize (H t' (or_intror Ht')). rewrite app_length. simpl in *. lia.
Qed.
