(** * General list lemmas used across the development. *)
From Coq Require Import Bool List Arith Lia.
Import ListNotations.

Lemma nth_error_combine {A B} : forall (l : list A) (l' : list B) i a b,
  nth_error l i = Some a -> nth_error l' i = Some b ->
  nth_error (combine l l') i = Some (a, b).
Proof.
  induction l as [| x l IH]; intros [| y l'] [| i] a b H1 H2; simpl in *; try discriminate.
  - congruence.
  - auto.
Qed.

Lemma nth_error_combine_inv {A B} : forall (l : list A) (l' : list B) i a b,
  nth_error (combine l l') i = Some (a, b) ->
  nth_error l i = Some a /\ nth_error l' i = Some b.
Proof.
  induction l as [| x l IH]; intros [| y l'] [| i] a b H; simpl in *; try discriminate.
  - injection H as -> ->. auto.
  - auto.
Qed.

Lemma nth_error_app_lt {A} : forall (l l' : list A) i x,
  i < length l -> nth_error (l ++ l') i = Some x -> nth_error l i = Some x.
Proof. intros l l' i x Hi H. now rewrite nth_error_app1 in H. Qed.

Lemma nth_error_Some_lt {A} : forall (l : list A) i x, nth_error l i = Some x -> i < length l.
Proof. intros l i x H. apply nth_error_Some. congruence. Qed.

Lemma nth_error_ex {A} : forall (l : list A) i, i < length l -> exists x, nth_error l i = Some x.
Proof.
  intros l i H. destruct (nth_error l i) eqn:E; eauto.
  apply nth_error_None in E. lia.
Qed.

Lemma combine_app_eq {A B} : forall (a1 a2 : list A) (b1 b2 : list B),
  length a1 = length b1 -> combine (a1 ++ a2) (b1 ++ b2) = combine a1 b1 ++ combine a2 b2.
Proof.
  induction a1 as [| x a1 IH]; intros a2 [| y b1] b2 H; simpl in *; try discriminate; auto.
  f_equal. apply IH. congruence.
Qed.

Lemma map_fst_combine {A B} : forall (a : list A) (b : list B),
  length a = length b -> map fst (combine a b) = a.
Proof.
  induction a as [| x a IH]; intros [| y b] H; simpl in *; try discriminate; auto.
  f_equal. apply IH. congruence.
Qed.

Lemma map_snd_combine {A B} : forall (a : list A) (b : list B),
  length a = length b -> map snd (combine a b) = b.
Proof.
  induction a as [| x a IH]; intros [| y b] H; simpl in *; try discriminate; auto.
  f_equal. apply IH. congruence.
Qed.

Lemma NoDup_map_inv' {A B} (f : A -> B) : forall l, NoDup (map f l) -> NoDup l.
Proof.
  induction l as [| x l IH]; simpl; intros H; constructor; inversion H; subst; auto.
  intros Hin. apply H2. now apply in_map.
Qed.

Lemma NoDup_map_inj_in {A B} (f : A -> B) : forall l a b,
  NoDup (map f l) -> In a l -> In b l -> f a = f b -> a = b.
Proof.
  induction l as [| x l IH]; simpl; intros a b H Ha Hb E; [destruct Ha |].
  inversion H; subst.
  destruct Ha as [-> | Ha], Hb as [-> | Hb]; auto.
  - exfalso. apply H2. rewrite E. now apply in_map.
  - exfalso. apply H2. rewrite <- E. now apply in_map.
Qed.

Lemma NoDup_app_intro {A} : forall (l l' : list A),
  NoDup l -> NoDup l' -> (forall x, In x l -> In x l' -> False) -> NoDup (l ++ l').
Proof.
  induction l as [| x l IH]; simpl; intros l' H1 H2 H; auto.
  inversion H1; subst. constructor.
  - intros Hin. apply in_app_iff in Hin as [Hin | Hin]; eauto.
  - apply IH; eauto.
Qed.

Lemma NoDup_app_l {A} : forall (l l' : list A), NoDup (l ++ l') -> NoDup l.
Proof.
  induction l as [| x l IH]; simpl; intros l' H; constructor; inversion H; subst.
  - intros Hin. apply H2. apply in_app_iff. auto.
  - eauto.
Qed.

Lemma NoDup_app_r {A} : forall (l l' : list A), NoDup (l ++ l') -> NoDup l'.
Proof. induction l as [| x l IH]; simpl; intros l' H; auto. inversion H; subst. eauto. Qed.

Lemma NoDup_app_disj {A} : forall (l l' : list A) x, NoDup (l ++ l') -> In x l -> In x l' -> False.
Proof.
  induction l as [| y l IH]; simpl; intros l' x H H1 H2; auto.
  inversion H; subst. destruct H1 as [-> | H1].
  - apply H4. apply in_app_iff. auto.
  - eauto.
Qed.

Lemma map_flat_map {A B C} (f : B -> C) (h : A -> list B) : forall l,
  map f (flat_map h l) = flat_map (fun x => map f (h x)) l.
Proof. induction l as [| x l IH]; simpl; auto. now rewrite map_app, IH. Qed.

Lemma flat_map_ext_in {A B} (f g : A -> list B) : forall l,
  (forall x, In x l -> f x = g x) -> flat_map f l = flat_map g l.
Proof.
  induction l as [| x l IH]; simpl; intros H; auto.
  rewrite H by now left. f_equal. apply IH. auto.
Qed.

Lemma filter_flat_map {A B} (p : B -> bool) (h : A -> list B) : forall l,
  filter p (flat_map h l) = flat_map (fun x => filter p (h x)) l.
Proof. induction l as [| x l IH]; simpl; auto. now rewrite filter_app, IH. Qed.

(** Concatenation of duplicate-free lists with disjoint tags. *)
Lemma NoDup_flat_map {A B T} (h : A -> list B) (tag : A -> T) (tagb : B -> T) : forall l,
  NoDup (map tag l) ->
  (forall x, In x l -> NoDup (h x)) ->
  (forall x y, In x l -> In y (h x) -> tagb y = tag x) ->
  NoDup (flat_map h l).
Proof.
  induction l as [| x l IH]; simpl; intros H1 H2 H3; [constructor |].
  inversion H1; subst. apply NoDup_app_intro; [now auto | apply IH; eauto |].
  intros y Hy Hy'. apply in_flat_map in Hy' as (x' & Hx' & Hy').
  assert (tag x' = tag x) as E.
  { rewrite <- (H3 x' y), <- (H3 x y); auto. }
  match goal with H : ~ In (tag x) _ |- _ => apply H end. rewrite <- E. now apply in_map.
Qed.

Lemma filter_NoDup_map {A B} (f : A -> B) (p : A -> bool) : forall l,
  NoDup (map f l) -> NoDup (map f (filter p l)).
Proof.
  induction l as [| x l IH]; simpl; intros H; auto. inversion H; subst.
  destruct (p x); simpl; auto. constructor; auto.
  intros Hin. apply in_map_iff in Hin as (y & E & Hin). apply filter_In in Hin as [Hin _].
  apply H2. rewrite <- E. now apply in_map.
Qed.

Lemma firstn_incl {A} : forall n (l : list A) x, In x (firstn n l) -> In x l.
Proof.
  induction n as [| n IH]; intros [| y l] x H; simpl in *; auto.
  - destruct H.
  - destruct H; auto.
Qed.

Lemma firstn_NoDup_map {A B} (f : A -> B) : forall n l, NoDup (map f l) -> NoDup (map f (firstn n l)).
Proof.
  induction n as [| n IH]; intros [| x l] H; simpl in *; try (now constructor).
  inversion H; subst. constructor; auto.
  intros Hin. apply H2. apply in_map_iff in Hin as (y & E & Hin). apply firstn_incl in Hin.
  rewrite <- E. now apply in_map.
Qed.

Lemma list_sum_partition {A K} (kf : A -> K) (keqb : K -> K -> bool) :
  (forall a b, keqb a b = true <-> a = b) ->
  forall (ks : list K) (l : list A),
  NoDup ks -> (forall x, In x l -> In (kf x) ks) ->
  list_sum (map (fun k => length (filter (fun x => keqb (kf x) k) l)) ks) = length l.
Proof.
  intros Heq. induction ks as [| k ks IH]; intros l Hnd Hin; simpl.
  - destruct l as [| x l]; auto. destruct (Hin x (or_introl eq_refl)).
  - inversion Hnd; subst.
    assert (length l = length (filter (fun x => keqb (kf x) k) l)
                       + length (filter (fun x => negb (keqb (kf x) k)) l)) as E.
    { clear. induction l as [| x l IHl]; simpl; auto.
      destruct (keqb (kf x) k); simpl; rewrite IHl; lia. }
    rewrite E. f_equal.
    rewrite <- (IH (filter (fun x => negb (keqb (kf x) k)) l)); auto.
    + f_equal. apply map_ext_in. intros k' Hk'. f_equal.
      clear - Heq H1 Hk'. induction l as [| x l IHl]; simpl; auto.
      destruct (keqb (kf x) k') eqn:E1; destruct (keqb (kf x) k) eqn:E2; simpl;
        try rewrite E1; try (now f_equal); auto.
      apply Heq in E1, E2. subst. exfalso. auto.
    + intros x Hx. apply filter_In in Hx as [Hx E2]. destruct (Hin x Hx) as [H | H]; auto.
      apply negb_true_iff in E2. symmetry in H. apply Heq in H. congruence.
Qed.

Lemma fold_left_flat_map {A B S} (f : S -> B -> S) (h : A -> list B) : forall l s,
  fold_left (fun s x => fold_left f (h x) s) l s = fold_left f (flat_map h l) s.
Proof. induction l as [| x l IH]; intros s; simpl; auto. now rewrite fold_left_app, IH. Qed.

Lemma fold_left_filter {A S} (f : S -> A -> S) (p : A -> bool) : forall l s,
  fold_left (fun s x => if p x then f s x else s) l s = fold_left f (filter p l) s.
Proof. induction l as [| x l IH]; intros s; simpl; auto. destruct (p x); simpl; auto. Qed.

Lemma fold_left_map {A B S} (f : S -> B -> S) (h : A -> B) : forall l s,
  fold_left f (map h l) s = fold_left (fun s x => f s (h x)) l s.
Proof. induction l as [| x l IH]; intros s; simpl; auto. Qed.

Lemma fold_left_ext_in {A S} (f g : S -> A -> S) : forall l s,
  (forall s x, In x l -> f s x = g s x) -> fold_left f l s = fold_left g l s.
Proof.
  induction l as [| x l IH]; intros s H; simpl; auto.
  rewrite H by now left. apply IH. intros; apply H. now right.
Qed.

Lemma nth_error_ext {A} : forall (l l' : list A), (forall i, nth_error l i = nth_error l' i) -> l = l'.
Proof.
  induction l as [| x l IH]; intros [| y l'] H; auto.
  - specialize (H 0). discriminate.
  - specialize (H 0). discriminate.
  - pose proof (H 0) as H0. simpl in H0. injection H0 as ->. f_equal. apply IH. intros i. apply (H (S i)).
Qed.
