(** * Facts about the dict, set and loop models. *)
From Coq Require Import Bool List Arith Lia.
From Verif Require Import PyDict.
Import ListNotations.

Section DictFacts.
  Context {K V : Type}.
  Variable eqb : K -> K -> bool.
  Hypothesis eqb_refl : forall a, eqb a a = true.
  Hypothesis eqb_sym : forall a b, eqb a b = eqb b a.
  Hypothesis eqb_trans : forall a b c, eqb a b = true -> eqb b c = true -> eqb a c = true.

  Implicit Types d : list (K * V).

  Lemma eqb_cong_l : forall a b c, eqb a b = true -> eqb a c = eqb b c.
  Proof.
    intros a b c H. destruct (eqb b c) eqn:E.
    - eauto.
    - destruct (eqb a c) eqn:E2; auto.
      rewrite <- E. symmetry. apply (eqb_trans b a c); auto. now rewrite eqb_sym.
  Qed.

  Lemma eqb_cong_r : forall a b c, eqb a b = true -> eqb c a = eqb c b.
  Proof. intros a b c H. rewrite (eqb_sym c a), (eqb_sym c b). now apply eqb_cong_l. Qed.

  Lemma dget_cong : forall d a b, eqb a b = true -> dget eqb d a = dget eqb d b.
  Proof.
    induction d as [| [k v] d IH]; intros a b H; simpl; auto.
    rewrite (eqb_cong_r a b k H). destruct (eqb k b); auto.
  Qed.

  Lemma dget_dset_same : forall d k v, dget eqb (dset eqb d k v) k = Some v.
  Proof.
    induction d as [| [k' v'] d IH]; intros k v; simpl.
    - now rewrite eqb_refl.
    - destruct (eqb k' k) eqn:E; simpl; rewrite E; auto.
  Qed.

  Lemma dget_dset_eq : forall d k k' v, eqb k k' = true -> dget eqb (dset eqb d k v) k' = Some v.
  Proof.
    intros d k k' v H. rewrite <- (dget_cong _ k k' H). apply dget_dset_same.
  Qed.

  Lemma dget_dset_other : forall d k k' v, eqb k k' = false ->
    dget eqb (dset eqb d k v) k' = dget eqb d k'.
  Proof.
    induction d as [| [k0 v0] d IH]; intros k k' v H; simpl.
    - now rewrite H.
    - destruct (eqb k0 k) eqn:E; simpl.
      + rewrite (eqb_cong_l k0 k k' E), H. reflexivity.
      + destruct (eqb k0 k'); auto.
  Qed.

  Lemma dget_dset : forall d k k' v,
    dget eqb (dset eqb d k v) k' = if eqb k k' then Some v else dget eqb d k'.
  Proof.
    intros d k k' v. destruct (eqb k k') eqn:E.
    - now apply dget_dset_eq.
    - now apply dget_dset_other.
  Qed.

  Lemma dget_In : forall d k v, dget eqb d k = Some v ->
    exists k', eqb k' k = true /\ In (k', v) d.
  Proof.
    induction d as [| [k0 v0] d IH]; simpl; intros k v H; try discriminate.
    destruct (eqb k0 k) eqn:E.
    - injection H as ->. exists k0. auto.
    - destruct (IH _ _ H) as (k' & H1 & H2). exists k'. auto.
  Qed.

  Lemma dget_None : forall d k, dget eqb d k = None <->
    (forall k' v, In (k', v) d -> eqb k' k = false).
  Proof.
    induction d as [| [k0 v0] d IH]; simpl; intros k; split; intros H; auto.
    - intros k' v [].
    - destruct (eqb k0 k) eqn:E; try discriminate.
      intros k' v [H1 | H1].
      + congruence.
      + eapply IH; eauto.
    - rewrite (H k0 v0 (or_introl eq_refl)). apply IH. intros; eapply H; eauto.
  Qed.

  (** No two keys equal under [eqb]. *)
  Fixpoint keys_distinct (l : list K) : Prop :=
    match l with
    | [] => True
    | k :: l' => (forall k', In k' l' -> eqb k k' = false) /\ keys_distinct l'
    end.

  Lemma In_dget : forall d k v, keys_distinct (map fst d) -> In (k, v) d -> dget eqb d k = Some v.
  Proof.
    induction d as [| [k0 v0] d IH]; simpl; intros k v Hd H.
    - destruct H.
    - destruct Hd as [Hd1 Hd2]. destruct H as [H | H].
      + injection H as -> ->. now rewrite eqb_refl.
      + rewrite (Hd1 k) by (apply in_map_iff; exists (k, v); auto). auto.
  Qed.

  Lemma dset_keys_mem : forall d k v, dget eqb d k <> None -> map fst (dset eqb d k v) = map fst d.
  Proof.
    induction d as [| [k0 v0] d IH]; simpl; intros k v H.
    - congruence.
    - destruct (eqb k0 k) eqn:E; simpl; auto. now rewrite IH.
  Qed.

  Lemma dset_absent : forall d k v, dget eqb d k = None -> dset eqb d k v = d ++ [(k, v)].
  Proof.
    induction d as [| [k0 v0] d IH]; simpl; intros k v H; auto.
    destruct (eqb k0 k) eqn:E; try discriminate. now rewrite IH.
  Qed.

  Lemma keys_distinct_app_single : forall l k,
    keys_distinct l -> (forall k', In k' l -> eqb k' k = false) -> keys_distinct (l ++ [k]).
  Proof.
    induction l as [| k0 l IH]; simpl; intros k Hd H.
    - split; [intros ? [] | auto].
    - destruct Hd as [H1 H2]. split.
      + intros k' Hin. apply in_app_iff in Hin as [Hin | [<- | []]]; auto.
      + apply IH; auto.
  Qed.

  Lemma keys_distinct_dset : forall d k v,
    keys_distinct (map fst d) -> keys_distinct (map fst (dset eqb d k v)).
  Proof.
    intros d k v H. destruct (dget eqb d k) eqn:E.
    - rewrite dset_keys_mem; auto. congruence.
    - rewrite dset_absent, map_app by auto. simpl. apply keys_distinct_app_single; auto.
      intros k' Hin. apply in_map_iff in Hin as ([k1 v1] & <- & Hin). simpl.
      eapply dget_None in E; eauto.
  Qed.

  Lemma ddel_incl : forall d k x, In x (ddel eqb d k) -> In x d.
  Proof.
    induction d as [| [k0 v0] d IH]; simpl; intros k x H; auto.
    destruct (eqb k0 k); simpl in H; auto. destruct H; auto. right. eauto.
  Qed.

  Lemma keys_distinct_ddel : forall d k,
    keys_distinct (map fst d) -> keys_distinct (map fst (ddel eqb d k)).
  Proof.
    induction d as [| [k0 v0] d IH]; simpl; intros k H; auto.
    destruct H as [H1 H2]. destruct (eqb k0 k); auto. simpl. split; auto.
    intros k' Hin. apply in_map_iff in Hin as ([k1 v1] & <- & Hin).
    apply ddel_incl in Hin. apply H1. apply in_map_iff. exists (k1, v1). auto.
  Qed.

  Lemma ddel_filter : forall d k, keys_distinct (map fst d) ->
    ddel eqb d k = filter (fun kv => negb (eqb (fst kv) k)) d.
  Proof.
    induction d as [| [k0 v0] d IH]; simpl; intros k H; auto.
    destruct H as [H1 H2]. destruct (eqb k0 k) eqn:E; simpl.
    - symmetry. clear IH H2.
      assert (forall kv, In kv d -> negb (eqb (fst kv) k) = true) as Hall.
      { intros [k1 v1] Hin. simpl.
        assert (eqb k0 k1 = false) as H2 by (apply H1, in_map_iff; exists (k1, v1); auto).
        destruct (eqb k1 k) eqn:E1; auto.
        exfalso. assert (eqb k0 k1 = true) as H3.
        { apply (eqb_trans k0 k k1); auto. now rewrite eqb_sym. }
        congruence. }
      induction d as [| kv d IHd]; simpl; auto.
      rewrite Hall by (left; auto). f_equal. apply IHd.
      + intros k' Hin. apply H1. now right.
      + intros kv' Hin. apply Hall. now right.
    - f_equal. now apply IH.
  Qed.

  Lemma dget_ddel_same : forall d k, keys_distinct (map fst d) -> dget eqb (ddel eqb d k) k = None.
  Proof.
    intros d k H. rewrite ddel_filter by auto. apply dget_None.
    intros k' v Hin. apply filter_In in Hin as [_ Hin]. simpl in Hin.
    now apply negb_true_iff in Hin.
  Qed.

  Lemma dget_ddel_other : forall d k k', eqb k k' = false ->
    dget eqb (ddel eqb d k) k' = dget eqb d k'.
  Proof.
    induction d as [| [k0 v0] d IH]; simpl; intros k k' H; auto.
    destruct (eqb k0 k) eqn:E; simpl.
    - now rewrite (eqb_cong_l k0 k k' E), H.
    - destruct (eqb k0 k'); auto.
  Qed.

  Lemma keys_distinct_dupdate : forall (e : list (K * V)) d,
    keys_distinct (map fst d) -> keys_distinct (map fst (dupdate eqb d e)).
  Proof.
    induction e as [| [k v] e IH]; simpl; intros d H; auto.
    unfold dupdate in *. simpl. apply IH. now apply keys_distinct_dset.
  Qed.

  (** Last binding for [k] in [l], if any. *)
  Fixpoint last_bind (l : list (K * V)) (k : K) : option V :=
    match l with
    | [] => None
    | (k', v) :: l' => match last_bind l' k with
                       | Some w => Some w
                       | None => if eqb k' k then Some v else None
                       end
    end.

  Lemma dget_dupdate : forall (e : list (K * V)) d k,
    dget eqb (dupdate eqb d e) k =
    match last_bind e k with Some v => Some v | None => dget eqb d k end.
  Proof.
    induction e as [| [k0 v0] e IH]; intros d k; simpl; auto.
    unfold dupdate in *. simpl. rewrite IH. destruct (last_bind e k); auto.
    rewrite dget_dset. destruct (eqb k0 k); auto.
  Qed.

  Lemma last_bind_distinct : forall (l : list (K * V)) k,
    keys_distinct (map fst l) -> last_bind l k = dget eqb l k.
  Proof.
    induction l as [| [k0 v0] l IH]; simpl; intros k H; auto.
    destruct H as [H1 H2]. rewrite IH by auto. destruct (eqb k0 k) eqn:E.
    - destruct (dget eqb l k) eqn:E2; auto.
      apply dget_In in E2 as (k' & E3 & Hin).
      exfalso. assert (eqb k0 k' = false) as H3 by (apply H1, in_map_iff; exists (k', v); auto).
      assert (eqb k0 k' = true) as H4.
      { apply (eqb_trans k0 k k'); auto. now rewrite eqb_sym. }
      congruence.
    - destruct (dget eqb l k); auto.
  Qed.

  Lemma dict_of_distinct : forall (l : list (K * V)),
    keys_distinct (map fst l) -> dict_of eqb l = l.
  Proof.
    intros l H. unfold dict_of.
    enough (forall acc, (forall k k', In k (map fst acc) -> In k' (map fst l) -> eqb k k' = false) ->
             dupdate eqb acc l = acc ++ l) as Hg.
    { apply Hg. intros k k' []. }
    induction l as [| [k v] l IH]; intros acc Hacc.
    - unfold dupdate. simpl. now rewrite app_nil_r.
    - simpl in H. destruct H as [H1 H2]. unfold dupdate in *. simpl.
      rewrite dset_absent.
      + rewrite IH; auto.
        * rewrite <- app_assoc. reflexivity.
        * intros a b Ha Hb. rewrite map_app in Ha. apply in_app_iff in Ha as [Ha | [<- | []]].
          -- apply Hacc; auto. now right.
          -- simpl. auto.
      + apply dget_None. intros k' v' Hin. apply Hacc.
        * apply in_map_iff. exists (k', v'). auto.
        * now left.
  Qed.
End DictFacts.

Section PSetFacts.
  Context {A : Type}.
  Variable eqb : A -> A -> bool.
  Hypothesis eqb_refl : forall a, eqb a a = true.
  Hypothesis eqb_sym : forall a b, eqb a b = eqb b a.
  Hypothesis eqb_trans : forall a b c, eqb a b = true -> eqb b c = true -> eqb a c = true.

  Lemma smem_iff : forall s x, smem eqb s x = true <-> exists y, In y s /\ eqb y x = true.
  Proof. intros s x. unfold smem. now rewrite existsb_exists. Qed.

  Lemma sadd_In : forall s x y, In y (sadd eqb s x) -> In y s \/ y = x.
  Proof.
    intros s x y. unfold sadd. destruct (smem eqb s x); auto.
    intros H. apply in_app_iff in H as [H | [H | []]]; auto.
  Qed.

  Lemma sadd_keeps : forall s x y, In y s -> In y (sadd eqb s x).
  Proof.
    intros s x y H. unfold sadd. destruct (smem eqb s x); auto. apply in_app_iff. auto.
  Qed.

  Lemma sadd_has : forall s x, exists y, In y (sadd eqb s x) /\ eqb y x = true.
  Proof.
    intros s x. unfold sadd. destruct (smem eqb s x) eqn:E.
    - now apply smem_iff in E.
    - exists x. split; auto. apply in_app_iff. right. now left.
  Qed.

  Lemma smem_sadd : forall s x y, smem eqb (sadd eqb s x) y = smem eqb s y || eqb x y.
  Proof.
    intros s x y. unfold sadd. destruct (smem eqb s x) eqn:E.
    - destruct (eqb x y) eqn:E2; [| now rewrite orb_false_r].
      rewrite orb_true_r. apply smem_iff. apply smem_iff in E as (z & H1 & H2).
      exists z. split; eauto.
    - unfold smem. rewrite existsb_app. simpl. now rewrite orb_false_r.
  Qed.

  Lemma smem_fold_sadd : forall l s y,
    smem eqb (fold_left (sadd eqb) l s) y = smem eqb s y || existsb (fun x => eqb x y) l.
  Proof.
    induction l as [| x l IH]; intros s y; simpl.
    - now rewrite orb_false_r.
    - rewrite IH, smem_sadd. now rewrite orb_assoc.
  Qed.

  Lemma set_of_In : forall l x, In x (set_of eqb l) -> In x l.
  Proof.
    intros l x. unfold set_of.
    enough (forall s, In x (fold_left (sadd eqb) l s) -> In x s \/ In x l) as H.
    { intros Hx. apply H in Hx as [[] | Hx]; auto. }
    induction l as [| y l IH]; intros s Hin; simpl in *; auto.
    apply IH in Hin as [Hin | Hin]; auto.
    apply sadd_In in Hin as [Hin | Hin]; auto.
  Qed.

  Lemma smem_set_of : forall l x, smem eqb (set_of eqb l) x = existsb (fun y => eqb y x) l.
  Proof. intros l x. unfold set_of. now rewrite smem_fold_sadd. Qed.
End PSetFacts.

(** ** Loops *)

Lemma for_each_ext {A S} (f g : A -> S -> S * bool) : forall l s,
  (forall x s, In x l -> f x s = g x s) -> for_each f l s = for_each g l s.
Proof.
  induction l as [| x l IH]; intros s H; simpl; auto.
  rewrite H by now left. destruct (g x s) as [s' [|]]; auto.
  apply IH. intros; apply H. now right.
Qed.

Lemma for_each_app {A S} (f : A -> S -> S * bool) : forall l1 l2 s,
  for_each f (l1 ++ l2) s =
  match for_each f l1 s with
  | (s', true) => (s', true)
  | (s', false) => for_each f l2 s'
  end.
Proof.
  induction l1 as [| x l1 IH]; intros l2 s; simpl; auto.
  destruct (f x s) as [s' [|]]; auto.
Qed.

Lemma for_each_map {A B S} (f : B -> S -> S * bool) (h : A -> B) : forall l s,
  for_each f (map h l) s = for_each (fun x => f (h x)) l s.
Proof.
  induction l as [| x l IH]; intros s; simpl; auto.
  destruct (f (h x) s) as [s' [|]]; auto.
Qed.

(** Nested loops are one loop over the concatenation. *)
Lemma for_each_flat {A B S} (f : B -> S -> S * bool) (h : A -> list B) : forall l s,
  for_each (fun x => for_each f (h x)) l s = for_each f (flat_map h l) s.
Proof.
  induction l as [| x l IH]; intros s; simpl; auto.
  rewrite for_each_app. destruct (for_each f (h x) s) as [s' [|]]; auto.
Qed.

(** A loop whose body only acts on elements satisfying [p] is a loop over the
    filtered list. *)
Lemma for_each_filter {A S} (p : A -> bool) (f : A -> S -> S * bool) : forall l s,
  for_each (fun x s => if p x then f x s else (s, false)) l s = for_each f (filter p l) s.
Proof.
  induction l as [| x l IH]; intros s; simpl; auto.
  destruct (p x); simpl; auto.
  destruct (f x s) as [s' [|]]; auto.
Qed.

(** Counting loop with bound: processes exactly the first [Nat.max 1 n - c]
    elements when started at count [c]. *)
Lemma for_each_count {A R} (rec : R -> A -> R) (stop : nat -> bool) (n : nat) :
  (forall c, stop c = (n <=? c)) ->
  forall l r c, c < n ->
  fst (fst (for_each (fun x (s : R * nat) =>
                 let r' := rec (fst s) x in
                 let c' := S (snd s) in ((r', c'), stop c')) l (r, c)))
  = fold_left rec (firstn (n - c) l) r.
Proof.
  intros Hstop. induction l as [| x l IH]; intros r c Hc; simpl.
  - now rewrite firstn_nil.
  - rewrite Hstop. destruct (n <=? S c) eqn:E.
    + apply Nat.leb_le in E. replace (n - c) with 1 by lia. reflexivity.
    + apply Nat.leb_gt in E. rewrite IH by lia.
      destruct (n - c) as [| m] eqn:Em; [lia|]. simpl.
      replace (n - S c) with m by lia. reflexivity.
Qed.

Lemma for_each_nostop {A R} (rec : R -> A -> R) : forall l r,
  for_each (fun x (s : R) => (rec s x, false)) l r = (fold_left rec l r, false).
Proof. induction l as [| x l IH]; intros r; simpl; auto. Qed.
