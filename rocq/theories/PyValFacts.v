(** * Basic facts about the value model. *)
From Coq Require Import ZArith Bool List String Ascii Lia.
From Verif Require Import PyVal.
Import ListNotations.
Local Open Scope Z_scope.

Lemma one_units_pos : 0 < one_units.
Proof. unfold one_units. apply Z.pow_pos_nonneg; lia. Qed.

Global Opaque one_units.

Lemma num_eqb_eq : forall a b, num_eqb a b = true <-> a = b.
Proof.
  intros [| x |] [| y |]; simpl; split; intros H; try congruence; try reflexivity.
  - apply Z.eqb_eq in H. now subst.
  - injection H as ->. apply Z.eqb_refl.
Qed.

Lemma num_eqb_refl : forall a, num_eqb a a = true.
Proof. intros a. now apply num_eqb_eq. Qed.

Lemma num_eqb_neq : forall a b, num_eqb a b = false <-> a <> b.
Proof.
  intros a b. rewrite <- not_true_iff_false, num_eqb_eq. tauto.
Qed.

Lemma num_ltb_irrefl : forall a, num_ltb a a = false.
Proof. intros [| x |]; simpl; auto. apply Z.ltb_irrefl. Qed.

Lemma num_ltb_trans : forall a b c,
  num_ltb a b = true -> num_ltb b c = true -> num_ltb a c = true.
Proof.
  intros [| x |] [| y |] [| z |]; simpl; intros H1 H2; try congruence; auto.
  apply Z.ltb_lt in H1, H2. apply Z.ltb_lt. lia.
Qed.

Lemma num_ltb_total : forall a b,
  num_ltb a b = true \/ a = b \/ num_ltb b a = true.
Proof.
  intros [| x |] [| y |]; simpl; auto.
  destruct (Z.lt_trichotomy x y) as [H | [H | H]].
  - left. now apply Z.ltb_lt.
  - right. left. now subst.
  - right. right. now apply Z.ltb_lt.
Qed.

Lemma num_leb_refl : forall a, num_leb a a = true.
Proof. intros a. unfold num_leb. now rewrite num_ltb_irrefl. Qed.

Lemma value_eqb_eq : forall a b, value_eqb a b = true <-> a = b.
Proof.
  intros a b; destruct a, b; simpl; split; intros H; try congruence; try reflexivity.
  - apply eqb_prop in H. now subst.
  - injection H as ->. apply eqb_reflx.
  - apply num_eqb_eq in H. now subst.
  - injection H as ->. apply num_eqb_refl.
  - apply String.eqb_eq in H. now subst.
  - injection H as ->. apply String.eqb_refl.
  - apply Z.eqb_eq in H. now subst.
  - injection H as ->. apply Z.eqb_refl.
Qed.

Lemma value_eqb_refl : forall a, value_eqb a a = true.
Proof. intros a. now apply value_eqb_eq. Qed.

Lemma value_eqb_neq : forall a b, value_eqb a b = false <-> a <> b.
Proof.
  intros a b. rewrite <- not_true_iff_false, value_eqb_eq. tauto.
Qed.

Lemma value_eq_dec : forall a b : value, {a = b} + {a <> b}.
Proof.
  intros a b. destruct (value_eqb a b) eqn:E.
  - left. now apply value_eqb_eq.
  - right. now apply value_eqb_neq.
Defined.

Lemma canon_idem : forall v, canon (canon v) = canon v.
Proof. now intros [| | [|] | | |]. Qed.

Lemma pyeq_iff : forall a b, pyeq a b = true <-> canon a = canon b.
Proof. intros a b. apply value_eqb_eq. Qed.

Lemma pyeq_refl : forall a, pyeq a a = true.
Proof. intros a. now apply pyeq_iff. Qed.

Lemma pyeq_sym : forall a b, pyeq a b = pyeq b a.
Proof.
  intros a b. apply eq_true_iff_eq. rewrite !pyeq_iff. split; auto.
Qed.

Lemma pyeq_trans : forall a b c,
  pyeq a b = true -> pyeq b c = true -> pyeq a c = true.
Proof. intros a b c. rewrite !pyeq_iff. congruence. Qed.

Lemma list_eqb_eq {A} (eqb : A -> A -> bool) :
  (forall a b, eqb a b = true <-> a = b) ->
  forall a b, list_eqb eqb a b = true <-> a = b.
Proof.
  intros Heqb a. induction a as [| x a IH]; intros [| y b]; simpl; split; intros H;
    try congruence; try reflexivity.
  - apply andb_prop in H as [H1 H2]. apply Heqb in H1. apply IH in H2. now subst.
  - injection H as -> ->. apply andb_true_intro. split; [now apply Heqb | now apply IH].
Qed.

Lemma key_pyeq_iff : forall a b, key_pyeq a b = true <-> map canon a = map canon b.
Proof.
  unfold key_pyeq. intros a. induction a as [| x a IH]; intros [| y b]; simpl; split; intros H;
    try congruence; try reflexivity.
  - apply andb_prop in H as [H1 H2]. apply pyeq_iff in H1. apply IH in H2. now rewrite H1, H2.
  - injection H as H1 H2. apply andb_true_intro. split; [now apply pyeq_iff | now apply IH].
Qed.

Lemma key_pyeq_refl : forall a, key_pyeq a a = true.
Proof. intros a. now apply key_pyeq_iff. Qed.

Lemma key_pyeq_sym : forall a b, key_pyeq a b = key_pyeq b a.
Proof.
  intros a b. apply eq_true_iff_eq. rewrite !key_pyeq_iff. split; auto.
Qed.

Lemma key_pyeq_trans : forall a b c,
  key_pyeq a b = true -> key_pyeq b c = true -> key_pyeq a c = true.
Proof. intros a b c. rewrite !key_pyeq_iff. congruence. Qed.

Lemma key_pyeq_neq : forall a b, key_pyeq a b = false <-> map canon a <> map canon b.
Proof. intros a b. rewrite <- not_true_iff_false, key_pyeq_iff. tauto. Qed.
