(** * deep_freeze and deep_copy: specification and correctness. *)
From Coq Require Import Bool List Arith Lia.
From Verif Require Import PyVal PyDict PyDictFacts InfIO Freeze.
Import ListNotations.

(** ** Specification *)

(** Where something is inside an object: position in a sequence, key of a
    dictionary, member of a set. *)
Inductive place : Type := At (i : nat) | Key (k : obj) | Member (e : obj).

(** [reach x p y]: following [p] from [x] leads to [y]. *)
Inductive reach : obj -> list place -> obj -> Prop :=
| reach_here x : reach x [] x
| reach_seq x l i y p z : x = Lst l \/ x = Tup l -> nth_error l i = Some y -> reach y p z -> reach x (At i :: p) z
| reach_val x l k y p z : x = Dct l \/ x = FDct l -> In (k, y) l -> reach y p z -> reach x (Key k :: p) z
| reach_mem x l e p z : x = PSet l \/ x = FSet l -> In e l -> reach e p z -> reach x (Member e :: p) z.

(** What is there, apart from being frozen or not. *)
Inductive sort : Type := IsScal (v : value) | IsFun (n : nat) | IsSeq (len : nat) | IsSet (card : nat) | IsDict (size : nat).

Definition sort_of (x : obj) : sort :=
  match x with
  | Scal v => IsScal v
  | Fun n => IsFun n
  | Lst l | Tup l => IsSeq (length l)
  | PSet l | FSet l => IsSet (length l)
  | Dct l | FDct l => IsDict (length l)
  end.

Definition mutable (x : obj) : Prop :=
  match x with Lst _ | PSet _ | Dct _ => True | _ => False end.

(** The type of a container, with plain and frozen dictionaries identified. *)
Inductive flavor : Type := FScal | FFun | FLst | FTup | FPSet | FFSet | FDict.
Definition flavor_of (x : obj) : flavor :=
  match x with
  | Scal _ => FScal | Fun _ => FFun | Lst _ => FLst | Tup _ => FTup
  | PSet _ => FPSet | FSet _ => FFSet | Dct _ | FDct _ => FDict
  end.

(** [y] occurs in [x], as or inside an element, key or value. *)
Inductive part : obj -> obj -> Prop :=
| part_elem x l y : x = Lst l \/ x = Tup l \/ x = PSet l \/ x = FSet l -> In y l -> part x y
| part_key x l k v : x = Dct l \/ x = FDct l -> In (k, v) l -> part x k
| part_val x l k v : x = Dct l \/ x = FDct l -> In (k, v) l -> part x v.

Inductive occurs : obj -> obj -> Prop :=
| occurs_here x : occurs x x
| occurs_in x y z : part x y -> occurs y z -> occurs x z.

Section Facts.
  Variable same : obj -> obj -> bool.

  Definition all (P : obj -> Prop) (l : list obj) : Prop := fold_right (fun x Q => P x /\ Q) True l.

  (** Hashable objects: scalars, callables, tuples of hashables, frozensets
      (whose elements Python has already made distinct). *)
  Fixpoint hashable (x : obj) : Prop :=
    match x with
    | Scal _ | Fun _ => True
    | Tup l => fold_right (fun x Q => hashable x /\ Q) True l
    | FSet l => keys_distinct same l /\ fold_right (fun x Q => hashable x /\ Q) True l
    | _ => False
    end.

  (** Objects Python can hold: set elements and dictionary keys are hashable
      and distinct. *)
  Fixpoint wf (x : obj) : Prop :=
    match x with
    | Scal _ | Fun _ => True
    | Lst l | Tup l => fold_right (fun x Q => wf x /\ Q) True l
    | PSet l | FSet l => keys_distinct same l /\ all hashable l
    | Dct l | FDct l => keys_distinct same (map fst l) /\ all hashable (map fst l) /\
                        fold_right (fun kv Q => match kv with (_, v) => wf v end /\ Q) True l
    end.

  (** ** Induction *)

  Section Ind.
    Variable P : obj -> Prop.
    Hypothesis Hs : forall v, P (Scal v).
    Hypothesis Hf : forall n, P (Fun n).
    Hypothesis Hl : forall l, (forall x, In x l -> P x) -> P (Lst l).
    Hypothesis Ht : forall l, (forall x, In x l -> P x) -> P (Tup l).
    Hypothesis Hp : forall l, (forall x, In x l -> P x) -> P (PSet l).
    Hypothesis Hfs : forall l, (forall x, In x l -> P x) -> P (FSet l).
    Hypothesis Hd : forall l, (forall k v, In (k, v) l -> P k /\ P v) -> P (Dct l).
    Hypothesis Hfd : forall l, (forall k v, In (k, v) l -> P k /\ P v) -> P (FDct l).

    Fixpoint obj_rect' (x : obj) : P x.
    Proof.
      assert (forall l, (fix ok (l : list obj) : Prop := match l with [] => True | x :: l' => P x /\ ok l' end) l ->
                forall x, In x l -> P x) as Hin.
      { induction l as [| y l IH]; intros H z Hz; [destruct Hz |]; destruct Hz as [<- | Hz]; [exact (proj1 H) | exact (IH (proj2 H) z Hz)]. }
      assert (forall l, (fix ok (l : list (obj * obj)) : Prop := match l with [] => True | x :: l' => (P (fst x) /\ P (snd x)) /\ ok l' end) l ->
                forall k v, In (k, v) l -> P k /\ P v) as Hin2.
      { induction l as [| y l IH]; intros H k v Hz; [destruct Hz |]; destruct Hz as [-> | Hz]; [exact (proj1 H) | exact (IH (proj2 H) k v Hz)]. }
      destruct x as [v | n | l | l | l | l | l | l].
      - apply Hs.
      - apply Hf.
      - apply Hl, Hin. clear Hin Hin2. revert l. fix go 1. intros [| x l]; [exact I | exact (conj (obj_rect' x) (go l))].
      - apply Ht, Hin. clear Hin Hin2. revert l. fix go 1. intros [| x l]; [exact I | exact (conj (obj_rect' x) (go l))].
      - apply Hp, Hin. clear Hin Hin2. revert l. fix go 1. intros [| x l]; [exact I | exact (conj (obj_rect' x) (go l))].
      - apply Hfs, Hin. clear Hin Hin2. revert l. fix go 1. intros [| x l]; [exact I | exact (conj (obj_rect' x) (go l))].
      - apply Hd, Hin2. clear Hin Hin2. revert l. fix go 1. intros [| [k v] l]; [exact I | exact (conj (conj (obj_rect' k) (obj_rect' v)) (go l))].
      - apply Hfd, Hin2. clear Hin Hin2. revert l. fix go 1. intros [| [k v] l]; [exact I | exact (conj (conj (obj_rect' k) (obj_rect' v)) (go l))].
    Qed.
  End Ind.

  Lemma all_In : forall P l, all P l <-> forall x, In x l -> P x.
  Proof.
    intros P. induction l as [| x l IH]; simpl.
    - split; [intros _ x [] | auto].
    - rewrite IH. split.
      + intros [H1 H2] y [<- | Hy]; auto.
      + intros H. split; auto.
  Qed.

  Lemma all_vals : forall P (l : list (obj * obj)),
    fold_right (fun kv Q => match kv with (_, v) => P v end /\ Q) True l <-> forall k v, In (k, v) l -> P v.
  Proof.
    intros P. induction l as [| [k0 v0] l IH]; simpl.
    - split; [intros _ k v [] | auto].
    - rewrite IH. split.
      + intros [H1 H2] k v [E | Hy]; [injection E as <- <-; auto | eauto].
      + intros H. split; eauto.
  Qed.

  (** ** Deduplication changes nothing for distinct elements *)

  Lemma set_of_id : forall l, keys_distinct same l -> set_of same l = l.
  Proof.
    intros l H. unfold set_of.
    enough (forall acc, (forall a b, In a acc -> In b l -> same a b = false) ->
              fold_left (sadd same) l acc = acc ++ l) as Hg.
    { apply Hg. intros a b []. }
    induction l as [| x l IH]; intros acc Ha; simpl; [now rewrite app_nil_r |].
    destruct H as [H1 H2]. unfold sadd at 2.
    assert (smem same acc x = false) as ->.
    { unfold smem. apply not_true_is_false. intros E. apply existsb_exists in E as (y & Hy & E).
      rewrite (Ha y x) in E; auto; [discriminate | now left]. }
    rewrite IH; auto.
    - now rewrite <- app_assoc.
    - intros a b Hx Hb. apply in_app_iff in Hx as [Hx | [<- | []]]; [apply Ha; auto; now right | auto].
  Qed.

  Lemma freeze_hashable : forall x, hashable x -> deep_freeze same x = x.
  Proof.
    induction x as [v | n | l IH | l IH | l IH | l IH | l IH | l IH] using obj_rect'; simpl; intros H; try tauto.
    - f_equal. rewrite <- (map_id l) at 2. apply map_ext_in. intros x Hx. apply IH; auto.
      exact (proj1 (all_In hashable l) H x Hx).
    - destruct H as [Hd H]. f_equal.
      assert (map (deep_freeze same) l = l) as ->.
      { rewrite <- (map_id l) at 2. apply map_ext_in. intros x Hx. apply IH; auto.
        exact (proj1 (all_In hashable l) H x Hx). }
      now apply set_of_id.
  Qed.

  Lemma hashable_wf : forall x, hashable x -> wf x.
  Proof.
    induction x as [v | n | l IH | l IH | l IH | l IH | l IH | l IH] using obj_rect'; simpl; intros H; try tauto.
    apply (proj2 (all_In wf l)). intros x Hx. apply IH; auto. exact (proj1 (all_In hashable l) H x Hx).
  Qed.

  Lemma freeze_set : forall l, keys_distinct same l -> all hashable l -> set_of same (map (deep_freeze same) l) = l.
  Proof.
    intros l Hd H. rewrite all_In in H.
    assert (map (deep_freeze same) l = l) as ->; [| now apply set_of_id].
    rewrite <- (map_id l) at 2. apply map_ext_in. intros x Hx. apply freeze_hashable. auto.
  Qed.

  Lemma freeze_dict : forall l, keys_distinct same (map fst l) -> all hashable (map fst l) ->
    dict_of same (map (fun kv => match kv with (k, v) => (deep_freeze same k, deep_freeze same v) end) l) =
    map (fun kv => (fst kv, deep_freeze same (snd kv))) l.
  Proof.
    intros l Hd H. rewrite all_In in H.
    assert (map (fun kv => match kv with (k, v) => (deep_freeze same k, deep_freeze same v) end) l =
            map (fun kv => (fst kv, deep_freeze same (snd kv))) l) as ->.
    { apply map_ext_in. intros [k v] Hin. simpl. f_equal. apply freeze_hashable, H. now apply (in_map fst) in Hin. }
    apply dict_of_distinct. now rewrite map_map.
  Qed.

  (** ** Freezing *)

  Lemma wf_step : forall x p, wf x -> forall y, reach x p y -> wf y.
  Proof.
    intros x p Hw y H. induction H as [x | x l i y p z Hx Hi Hr IH | x l k y p z Hx Hi Hr IH | x l e p z Hx Hi Hr IH]; auto; apply IH.
    - destruct Hx; subst x; exact (proj1 (all_In wf l) Hw y (nth_error_In _ _ Hi)).
    - destruct Hx; subst x; destruct Hw as (_ & _ & Hw); exact (proj1 (all_vals wf l) Hw k y Hi).
    - destruct Hx; subst x; destruct Hw as (_ & Hw); apply hashable_wf; exact (proj1 (all_In hashable l) Hw e Hi).
  Qed.

  Lemma freeze_wf_dict : forall l, wf (Dct l) -> (forall k v, In (k, v) l -> wf v -> wf (deep_freeze same v)) ->
    wf (Dct (map (fun kv => (fst kv, deep_freeze same (snd kv))) l)).
  Proof.
    intros l (H1 & H2 & H3) IH. simpl. rewrite map_map. split; [exact H1 |]. split; [exact H2 |].
    apply (proj2 (all_vals wf _)). intros k v Hin. apply in_map_iff in Hin as ([k' v'] & E & Hin). simpl in E.
    injection E as <- <-. apply (IH k' v' Hin). exact (proj1 (all_vals wf l) H3 k' v' Hin).
  Qed.

  Lemma freeze_wf_list : forall l, all wf l -> (forall x, In x l -> wf x -> wf (deep_freeze same x)) ->
    all wf (map (deep_freeze same) l).
  Proof.
    intros l H IH. rewrite all_In in *. intros y Hy. apply in_map_iff in Hy as (x & <- & Hx). auto.
  Qed.

  Lemma freeze_wf : forall x, wf x -> wf (deep_freeze same x).
  Proof.
    induction x as [v | n | l IH | l IH | l IH | l IH | l IH | l IH] using obj_rect'; simpl; intros H; auto.
    - now apply freeze_wf_list.
    - now apply freeze_wf_list.
    - destruct H as [H1 H2]. rewrite freeze_set by auto. auto.
    - destruct H as [H1 H2]. rewrite freeze_set by auto. auto.
    - rewrite freeze_dict by apply H. apply (freeze_wf_dict l H). intros k v Hin. apply (IH k v Hin).
    - rewrite freeze_dict by apply H. apply (freeze_wf_dict l H). intros k v Hin. apply (IH k v Hin).
  Qed.

  Lemma freeze_idem : forall x, wf x -> deep_freeze same (deep_freeze same x) = deep_freeze same x.
  Proof.
    assert (forall l, wf (Dct l) -> (forall k v, In (k, v) l -> wf v -> deep_freeze same (deep_freeze same v) = deep_freeze same v) ->
      deep_freeze same (FDct (map (fun kv => (fst kv, deep_freeze same (snd kv))) l)) =
      FDct (map (fun kv => (fst kv, deep_freeze same (snd kv))) l)) as Hdict.
    { intros l (H1 & H2 & H3) IH. simpl. f_equal. rewrite freeze_dict.
      - rewrite map_map. apply map_ext_in. intros [k v] Hin. simpl. f_equal. apply (IH k v Hin).
        exact (proj1 (all_vals wf l) H3 k v Hin).
      - rewrite map_map. exact H1.
      - rewrite map_map. exact H2. }
    induction x as [v | n | l IH | l IH | l IH | l IH | l IH | l IH] using obj_rect'; simpl deep_freeze at 2 3; intros H; auto.
    - simpl. f_equal. rewrite map_map. apply map_ext_in. intros x Hx. apply IH; auto. exact (proj1 (all_In wf l) H x Hx).
    - simpl. f_equal. rewrite map_map. apply map_ext_in. intros x Hx. apply IH; auto. exact (proj1 (all_In wf l) H x Hx).
    - destruct H as [H1 H2]. rewrite freeze_set by auto. simpl. f_equal. now apply freeze_set.
    - destruct H as [H1 H2]. rewrite freeze_set by auto. simpl. f_equal. now apply freeze_set.
    - rewrite freeze_dict by apply H. apply (Hdict l H). intros k v Hin. apply (IH k v Hin).
    - rewrite freeze_dict by apply H. apply (Hdict l H). intros k v Hin. apply (IH k v Hin).
  Qed.

  Lemma freeze_sort : forall x, wf x -> sort_of (deep_freeze same x) = sort_of x.
  Proof.
    intros [v | n | l | l | l | l | l | l] H; simpl; auto; try now rewrite map_length.
    - destruct H as [H1 H2]. now rewrite freeze_set.
    - destruct H as [H1 H2]. now rewrite freeze_set.
    - destruct H as (H1 & H2 & H3). now rewrite freeze_dict, map_length.
    - destruct H as (H1 & H2 & H3). now rewrite freeze_dict, map_length.
  Qed.

  Lemma reach_freeze : forall x p y, reach x p y -> wf x -> reach (deep_freeze same x) p (deep_freeze same y).
  Proof.
    intros x p y H. induction H as [x | x l i y p z Hx Hi Hr IH | x l k y p z Hx Hi Hr IH | x l e p z Hx Hi Hr IH]; intros Hw.
    - constructor.
    - econstructor.
      + right. destruct Hx; subst x; reflexivity.
      + rewrite nth_error_map, Hi. reflexivity.
      + apply IH. destruct Hx; subst x; exact (proj1 (all_In wf l) Hw y (nth_error_In _ _ Hi)).
    - assert (wf (Dct l)) as Hw' by (destruct Hx; subst x; exact Hw). destruct Hw' as (H1 & H2 & H3).
      eapply (reach_val _ (map (fun kv => (fst kv, deep_freeze same (snd kv))) l)).
      + right. rewrite <- freeze_dict by auto. destruct Hx; subst x; reflexivity.
      + apply in_map_iff. exists (k, y). auto.
      + apply IH. exact (proj1 (all_vals wf l) H3 k y Hi).
    - assert (wf (PSet l)) as Hw' by (destruct Hx; subst x; exact Hw). destruct Hw' as (H1 & H2).
      assert (hashable e) as He by exact (proj1 (all_In hashable l) H2 e Hi).
      eapply (reach_mem _ l).
      + right. rewrite <- (freeze_set l) at 1 by auto. destruct Hx; subst x; simpl; now rewrite freeze_set by auto.
      + exact Hi.
      + rewrite <- (freeze_hashable e He) at 1. apply IH. now apply hashable_wf.
  Qed.

  Lemma reach_unfreeze : forall p x z, wf x -> reach (deep_freeze same x) p z ->
    exists y, reach x p y /\ z = deep_freeze same y.
  Proof.
    induction p as [| s p IH]; intros x z Hw H.
    - inversion H; subst. exists x. split; [constructor | auto].
    - inversion H as [ | x0 l i y p0 z0 Hx Hi Hr | x0 l k y p0 z0 Hx Hi Hr | x0 l e p0 z0 Hx Hi Hr]; subst.
      + assert (exists l0, (x = Lst l0 \/ x = Tup l0) /\ l = map (deep_freeze same) l0) as (l0 & Hx0 & ->).
        { destruct x; simpl in Hx; destruct Hx as [Hx | Hx]; inversion Hx; eauto. }
        rewrite nth_error_map in Hi. destruct (nth_error l0 i) as [y0 |] eqn:Ei; [| discriminate]. simpl in Hi. injection Hi as <-.
        destruct (IH y0 z) as (w & H1 & H2); auto.
        { destruct Hx0; subst x; exact (proj1 (all_In wf l0) Hw y0 (nth_error_In _ _ Ei)). }
        exists w. split; auto. econstructor; eauto.
      + assert (exists l0, (x = Dct l0 \/ x = FDct l0) /\ wf (Dct l0) /\ l = map (fun kv => (fst kv, deep_freeze same (snd kv))) l0) as (l0 & Hx0 & Hw0 & ->).
        { destruct x as [| | | | | | l0 | l0]; simpl in Hx; destruct Hx as [Hx | Hx]; inversion Hx;
            exists l0; (split; [auto |]); (split; [exact Hw |]); apply freeze_dict; apply Hw. }
        apply in_map_iff in Hi as ([k0 v0] & E & Hi). simpl in E. injection E as <- <-.
        destruct (IH v0 z) as (w & H1 & H2); auto.
        { destruct Hw0 as (_ & _ & H3). exact (proj1 (all_vals wf l0) H3 k0 v0 Hi). }
        exists w. split; auto. econstructor; eauto.
      + assert (exists l0, (x = PSet l0 \/ x = FSet l0) /\ wf (PSet l0) /\ l = l0) as (l0 & Hx0 & Hw0 & ->).
        { destruct x as [| | | | l0 | l0 | |]; simpl in Hx; destruct Hx as [Hx | Hx]; inversion Hx;
            exists l0; (split; [auto |]); (split; [exact Hw |]); apply freeze_set; apply Hw. }
        assert (hashable e) as He by (destruct Hw0 as [_ H2]; exact (proj1 (all_In hashable l0) H2 e Hi)).
        rewrite <- (freeze_hashable e He) in Hr. destruct (IH e z) as (w & H1 & H2); auto; [now apply hashable_wf |].
        exists w. split; auto. eapply reach_mem; eauto.
  Qed.

  Theorem freeze_content : forall x p s, wf x ->
    ((exists y, reach x p y /\ sort_of y = s) <-> exists z, reach (deep_freeze same x) p z /\ sort_of z = s).
  Proof.
    intros x p s Hw. split.
    - intros (y & H & <-). exists (deep_freeze same y). split; [now apply reach_freeze |]. apply freeze_sort. eapply wf_step; eauto.
    - intros (z & H & <-). apply reach_unfreeze in H as (y & H & ->); auto. exists y. split; auto.
      symmetry. apply freeze_sort. eapply wf_step; eauto.
  Qed.

  Theorem freeze_immutable : forall x p z, wf x -> reach (deep_freeze same x) p z -> ~ mutable z.
  Proof.
    intros x p z Hw H. apply reach_unfreeze in H as (y & _ & ->); auto. destruct y; simpl; auto.
  Qed.

  (** ** Copying *)

  Fixpoint thaw (x : obj) : obj :=
    match x with
    | Scal v => Scal v
    | Fun n => Fun n
    | Lst l => Lst (map thaw l)
    | Tup l => Tup (map thaw l)
    | PSet l => PSet l
    | FSet l => FSet l
    | Dct l | FDct l => Dct (map (fun kv => match kv with (k, v) => (k, thaw v) end) l)
    end.

  Definition dateless (x : obj) : Prop := forall d, ~ occurs x (Scal (VDate d)).

  Lemma dateless_part : forall x y, dateless x -> part x y -> dateless y.
  Proof. intros x y H Hp d Ho. apply (H d). econstructor; eauto. Qed.

  Lemma mapM_map {A B} (f : A -> outcome B) (g : A -> B) : forall l, (forall x, In x l -> f x = Ret (g x)) -> mapM f l = Ret (map g l).
  Proof.
    induction l as [| x l IH]; simpl; intros H; auto. rewrite H, IH; auto.
  Qed.

  Lemma mapM_inv {A B} (f : A -> outcome B) : forall l l', mapM f l = Ret l' -> forall x, In x l -> exists y, f x = Ret y.
  Proof.
    induction l as [| x l IH]; simpl; intros l' H y Hy; [contradiction |].
    destruct (f x) eqn:E1; [| discriminate]. destruct (mapM f l) eqn:E2; [| discriminate].
    destruct Hy as [<- | Hy]; eauto.
  Qed.

  Lemma thaw_hashable : forall x, hashable x -> thaw x = x.
  Proof.
    induction x as [v | n | l IH | l IH | l IH | l IH | l IH | l IH] using obj_rect'; simpl; intros H; try tauto.
    f_equal. rewrite <- (map_id l) at 2. apply map_ext_in. intros x Hx. apply IH; auto.
    exact (proj1 (all_In hashable l) H x Hx).
  Qed.

  Lemma thaw_list : forall l, all hashable l -> map thaw l = l.
  Proof.
    intros l H. rewrite all_In in H. rewrite <- (map_id l) at 2. apply map_ext_in. intros x Hx. now apply thaw_hashable, H.
  Qed.

  Lemma copy_thaw : forall x, wf x -> dateless x -> deep_copy same x = Ret (thaw x).
  Proof.
    induction x as [v | n | l IH | l IH | l IH | l IH | l IH | l IH] using obj_rect'; simpl; intros H Hd; auto.
    - destruct v as [| | | | | dd]; auto. exfalso. apply (Hd dd). constructor.
    - rewrite (mapM_map _ thaw); auto. intros x Hx. apply IH; auto.
      + exact (proj1 (all_In wf l) H x Hx).
      + apply (dateless_part (Lst l)); auto. eapply part_elem; eauto.
    - rewrite (mapM_map _ thaw); auto. intros x Hx. apply IH; auto.
      + exact (proj1 (all_In wf l) H x Hx).
      + apply (dateless_part (Tup l)); auto. eapply part_elem; eauto.
    - destruct H as [H1 H2]. rewrite (mapM_map _ thaw).
      + simpl. rewrite thaw_list by auto. now rewrite set_of_id by exact H1.
      + intros x Hx. apply IH; auto.
        * apply hashable_wf. exact (proj1 (all_In hashable l) H2 x Hx).
        * apply (dateless_part (PSet l)); auto. eapply part_elem; eauto.
    - destruct H as [H1 H2]. rewrite (mapM_map _ thaw).
      + simpl. rewrite thaw_list by auto. rewrite !(set_of_id l H1). reflexivity.
      + intros x Hx. apply IH; auto.
        * apply hashable_wf. exact (proj1 (all_In hashable l) H2 x Hx).
        * apply (dateless_part (FSet l)); auto. eapply part_elem; eauto 6.
    - destruct H as (H1 & H2 & H3). rewrite (mapM_map _ (fun kv => match kv with (k, v) => (k, thaw v) end)).
      + simpl. f_equal. f_equal. apply dict_of_distinct. rewrite map_map.
        rewrite (map_ext _ fst); [exact H1 |]. now intros [k v].
      + intros [k v] Hin. destruct (IH k v Hin) as [IHk IHv].
        assert (hashable k) as Hk by (apply (proj1 (all_In hashable _) H2); now apply (in_map fst) in Hin).
        rewrite IHk, IHv; auto.
        * now rewrite thaw_hashable.
        * exact (proj1 (all_vals wf l) H3 k v Hin).
        * apply (dateless_part (Dct l)); auto. eapply part_val; eauto.
        * now apply hashable_wf.
        * apply (dateless_part (Dct l)); auto. eapply part_key; eauto.
    - destruct H as (H1 & H2 & H3). rewrite (mapM_map _ (fun kv => match kv with (k, v) => (k, thaw v) end)).
      + simpl. f_equal. f_equal. apply dict_of_distinct. rewrite map_map.
        rewrite (map_ext _ fst); [exact H1 |]. now intros [k v].
      + intros [k v] Hin. destruct (IH k v Hin) as [IHk IHv].
        assert (hashable k) as Hk by (apply (proj1 (all_In hashable _) H2); now apply (in_map fst) in Hin).
        rewrite IHk, IHv; auto.
        * now rewrite thaw_hashable.
        * exact (proj1 (all_vals wf l) H3 k v Hin).
        * apply (dateless_part (FDct l)); auto. eapply part_val; eauto.
        * now apply hashable_wf.
        * apply (dateless_part (FDct l)); auto. eapply part_key; eauto.
  Qed.

  Lemma copy_dateless : forall x y, deep_copy same x = Ret y -> dateless x.
  Proof.
    intros x y H d Ho. revert y H. remember (Scal (VDate d)) as z eqn:Ez. induction Ho as [x | x z' z Hp Ho IH]; intros y H; subst.
    - discriminate.
    - assert (exists y', deep_copy same z' = Ret y') as (y' & H'); [| eapply IH; eauto].
      inversion Hp as [x0 l y0 Hx Hin | x0 l k v Hx Hin | x0 l k v Hx Hin]; subst.
      + destruct Hx as [-> | [-> | [-> | ->]]]; simpl in H; unfold omap in H;
          destruct (mapM (deep_copy same) l) eqn:E; try discriminate; eapply mapM_inv; eauto.
      + destruct Hx as [-> | ->]; simpl in H; unfold omap in H;
          match type of H with match ?m with _ => _ end = _ => destruct m eqn:E end; try discriminate;
          destruct (mapM_inv _ _ _ E _ Hin) as (w & Ew); simpl in Ew;
          destruct (deep_copy same z') as [k' |]; [eauto | discriminate | eauto | discriminate].
      + destruct Hx as [-> | ->]; simpl in H; unfold omap in H;
          match type of H with match ?m with _ => _ end = _ => destruct m eqn:E end; try discriminate;
          destruct (mapM_inv _ _ _ E _ Hin) as (w & Ew); simpl in Ew;
          destruct (deep_copy same k); try discriminate; destruct (deep_copy same z') as [k' |]; try discriminate; eauto.
  Qed.

  Lemma reach_thaw : forall x p y, reach x p y -> wf x -> reach (thaw x) p (thaw y).
  Proof.
    intros x p y H. induction H as [x | x l i y p z Hx Hi Hr IH | x l k y p z Hx Hi Hr IH | x l e p z Hx Hi Hr IH]; intros Hw.
    - constructor.
    - eapply (reach_seq _ (map thaw l)).
      + destruct Hx; subst x; simpl; auto.
      + rewrite nth_error_map, Hi. reflexivity.
      + apply IH. destruct Hx; subst x; exact (proj1 (all_In wf l) Hw y (nth_error_In _ _ Hi)).
    - eapply (reach_val _ (map (fun kv => match kv with (k, v) => (k, thaw v) end) l)).
      + destruct Hx; subst x; simpl; auto.
      + apply in_map_iff. exists (k, y). auto.
      + apply IH. destruct Hx; subst x; destruct Hw as (_ & _ & H3); exact (proj1 (all_vals wf l) H3 k y Hi).
    - assert (hashable e) as He by (destruct Hx; subst x; destruct Hw as [_ H2]; exact (proj1 (all_In hashable l) H2 e Hi)).
      eapply (reach_mem _ l).
      + destruct Hx; subst x; simpl; auto.
      + exact Hi.
      + rewrite <- (thaw_hashable e He) at 1. apply IH. now apply hashable_wf.
  Qed.

  Lemma reach_unthaw : forall p x z, wf x -> reach (thaw x) p z -> exists y, reach x p y /\ z = thaw y.
  Proof.
    induction p as [| s p IH]; intros x z Hw H.
    - inversion H; subst. exists x. split; [constructor | auto].
    - inversion H as [ | x0 l i y p0 z0 Hx Hi Hr | x0 l k y p0 z0 Hx Hi Hr | x0 l e p0 z0 Hx Hi Hr]; subst.
      + assert (exists l0, (x = Lst l0 \/ x = Tup l0) /\ l = map thaw l0) as (l0 & Hx0 & ->).
        { destruct x; simpl in Hx; destruct Hx as [Hx | Hx]; inversion Hx; eauto. }
        rewrite nth_error_map in Hi. destruct (nth_error l0 i) as [y0 |] eqn:Ei; [| discriminate]. simpl in Hi. injection Hi as <-.
        destruct (IH y0 z) as (w & H1 & H2); auto.
        { destruct Hx0; subst x; exact (proj1 (all_In wf l0) Hw y0 (nth_error_In _ _ Ei)). }
        exists w. split; auto. econstructor; eauto.
      + assert (exists l0, (x = Dct l0 \/ x = FDct l0) /\ wf (Dct l0) /\
          l = map (fun kv => match kv with (k, v) => (k, thaw v) end) l0) as (l0 & Hx0 & Hw0 & ->).
        { destruct x as [| | | | | | l0 | l0]; simpl in Hx; destruct Hx as [Hx | Hx]; inversion Hx;
            exists l0; (split; [auto |]); (split; [exact Hw |]); reflexivity. }
        apply in_map_iff in Hi as ([k0 v0] & E & Hi). simpl in E. injection E as <- <-.
        destruct (IH v0 z) as (w & H1 & H2); auto.
        { destruct Hw0 as (_ & _ & H3). exact (proj1 (all_vals wf l0) H3 k0 v0 Hi). }
        exists w. split; auto. econstructor; eauto.
      + assert ((x = PSet l \/ x = FSet l) /\ wf (PSet l)) as (Hx0 & Hw0).
        { destruct x as [| | | | l0 | l0 | |]; simpl in Hx; destruct Hx as [Hx | Hx]; inversion Hx; subst; auto. }
        assert (hashable e) as He by (destruct Hw0 as [_ H2]; exact (proj1 (all_In hashable l) H2 e Hi)).
        rewrite <- (thaw_hashable e He) in Hr. destruct (IH e z) as (w & H1 & H2); auto; [now apply hashable_wf |].
        exists w. split; auto. eapply reach_mem; eauto.
  Qed.

  Lemma thaw_sort : forall x, sort_of (thaw x) = sort_of x /\ flavor_of (thaw x) = flavor_of x.
  Proof. intros [v | n | l | l | l | l | l | l]; simpl; rewrite ?map_length; auto. Qed.

  Theorem copy_spec : forall x, wf x ->
    ((exists y, deep_copy same x = Ret y) <-> dateless x) /\
    forall y, deep_copy same x = Ret y ->
      (forall p s f, (exists z, reach x p z /\ sort_of z = s /\ flavor_of z = f) <->
                     exists z, reach y p z /\ sort_of z = s /\ flavor_of z = f) /\
      (forall p l, ~ reach y p (FDct l)).
  Proof.
    intros x Hw. split.
    - split; [intros (y & H); eapply copy_dateless; eauto |]. intros H. exists (thaw x). now apply copy_thaw.
    - intros y H. pose proof (copy_dateless _ _ H) as Hd. rewrite copy_thaw in H by auto. injection H as <-. split.
      + intros p s f. split.
        * intros (z & Hz & <- & <-). exists (thaw z). split; [now apply reach_thaw |]. apply thaw_sort.
        * intros (z & Hz & <- & <-). apply reach_unthaw in Hz as (w & Hz & ->); auto. exists w. split; auto.
          destruct (thaw_sort w). auto.
      + intros p l Hz. apply reach_unthaw in Hz as (w & _ & E); auto. destruct w; discriminate.
  Qed.

  Lemma occurs_freeze_date : forall x d, wf x -> occurs (deep_freeze same x) (Scal (VDate d)) -> occurs x (Scal (VDate d)).
  Proof.
    induction x as [v | n | l IH | l IH | l IH | l IH | l IH | l IH] using obj_rect'; intros d Hw H; auto;
    inversion H as [ | x y z Hp Ho]; subst.
    1,2: inversion Hp as [x0 l0 y0 Hx Hin | x0 l0 k v Hx Hin | x0 l0 k v Hx Hin]; subst; simpl in Hx;
      repeat (destruct Hx as [Hx | Hx]); inversion Hx; subst;
      apply in_map_iff in Hin as (x & <- & Hin); (econstructor; [eapply part_elem; eauto |]); apply IH; auto;
      exact (proj1 (all_In wf l) Hw x Hin).
    1,2: destruct Hw as [H1 H2]; simpl in Hp; rewrite freeze_set in Hp by auto;
      inversion Hp as [x0 l0 y0 Hx Hin | x0 l0 k v Hx Hin | x0 l0 k v Hx Hin]; subst;
      repeat (destruct Hx as [Hx | Hx]); inversion Hx; subst; (econstructor; [eapply part_elem; eauto 6 |]); auto.
    1,2: destruct Hw as (H1 & H2 & H3); simpl in Hp; rewrite freeze_dict in Hp by auto;
      inversion Hp as [x0 l0 y0 Hx Hin | x0 l0 k v Hx Hin | x0 l0 k v Hx Hin]; subst;
      repeat (destruct Hx as [Hx | Hx]); inversion Hx; subst;
      apply in_map_iff in Hin as ([k' v'] & E & Hin); simpl in E; injection E as <- <-;
      [ econstructor; [eapply part_key; eauto |]; auto
      | econstructor; [eapply part_val; eauto |]; apply (IH k' v' Hin); auto; exact (proj1 (all_vals wf l) H3 k' v' Hin) ].
  Qed.

  Theorem copy_of_frozen : forall x, wf x -> dateless x ->
    exists y, deep_copy same (deep_freeze same x) = Ret y /\
      (forall p s, (exists z, reach x p z /\ sort_of z = s) <-> exists z, reach y p z /\ sort_of z = s) /\
      (forall p z, reach y p z -> flavor_of z <> FLst /\ flavor_of z <> FPSet).
  Proof.
    intros x Hw Hd. assert (dateless (deep_freeze same x)) as Hd' by (intros d H; apply (Hd d); now apply occurs_freeze_date).
    destruct (copy_spec (deep_freeze same x) (freeze_wf x Hw)) as [[_ Hc] Hy].
    destruct (Hc Hd') as (y & E). exists y. split; auto. destruct (Hy y E) as [Hr _]. split.
    - intros p s. rewrite freeze_content by auto. split.
      + intros (z & Hz & Hs). destruct (proj1 (Hr p s (flavor_of z))) as (w & H1 & H2 & _); eauto.
      + intros (z & Hz & Hs). destruct (proj2 (Hr p s (flavor_of z))) as (w & H1 & H2 & _); eauto.
    - intros p z Hz. destruct (proj2 (Hr p (sort_of z) (flavor_of z))) as (w & H1 & H2 & H3); eauto.
      apply freeze_immutable in H1; auto. rewrite <- H3. destruct w; simpl in *; split; try discriminate; tauto.
  Qed.
End Facts.

(** ** dict_overlay *)

Lemma overlay_get : forall K V (eqb : K -> K -> bool) (d1 d2 : list (K * V)) k,
  (forall a, eqb a a = true) -> (forall a b, eqb a b = eqb b a) ->
  (forall a b c, eqb a b = true -> eqb b c = true -> eqb a c = true) -> keys_distinct eqb (map fst d2) ->
  dget eqb (dict_overlay eqb d1 d2) k = match dget eqb d2 k with Some v => Some v | None => dget eqb d1 k end.
Proof.
  intros K V eqb d1 d2 k E1 E2 E3 Hd. change (dict_overlay eqb d1 d2) with (dupdate eqb d1 d2).
  rewrite (dget_dupdate eqb E1 E2 E3). now rewrite (last_bind_distinct eqb E2 E3).
Qed.
