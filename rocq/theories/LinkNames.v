(** * Names of the link attributes. *)
From Coq Require Import ZArith Bool List String Ascii Arith Lia Permutation.
From Verif Require Import PyVal PyDict PyStr Data FindTypes FindTypesFacts FK FKFacts GraphFacts Obj Links.
Import ListNotations.
Local Open Scope string_scope.
Local Open Scope list_scope.

Definition same_set (a b : list string) : Prop := forall x, In x a <-> In x b.
Definition no_underscore (s : string) : Prop := has_char "_" s = false.

Lemma set_eqb_iff : forall a b, set_eqb a b = true <-> same_set a b.
Proof.
  intros a b. unfold set_eqb, same_set. rewrite andb_true_iff, !forallb_forall. split.
  - intros [H1 H2] x. split; intros H; apply mem_str_iff; auto.
  - intros H. split; intros x Hx; apply mem_str_iff; now apply H.
Qed.

(** ** join *)

Lemma split_underscore : forall a b s t, no_underscore a -> no_underscore b ->
  (a ++ String "_" s)%string = (b ++ String "_" t)%string -> a = b /\ s = t.
Proof.
  unfold no_underscore. induction a as [| c a IH]; intros [| d b] s t Ha Hb H; cbn [String.append] in H.
  - injection H as ->. auto.
  - exfalso. injection H as Hc _. subst d. cbn [has_char] in Hb. discriminate.
  - exfalso. injection H as Hc _. subst c. cbn [has_char] in Ha. discriminate.
  - injection H as -> H. cbn [has_char] in Ha, Hb. apply orb_false_iff in Ha as [_ Ha], Hb as [_ Hb].
    destruct (IH _ _ _ Ha Hb H) as [-> ->]. auto.
Qed.

Lemma no_split : forall a b t, no_underscore a -> a <> (b ++ String "_" t)%string.
Proof.
  unfold no_underscore. induction a as [| c a IH]; intros [| d b] t Ha H; cbn [String.append] in H; try discriminate.
  - injection H as -> _. cbn [has_char] in Ha. discriminate.
  - injection H as -> H. cbn [has_char] in Ha. apply orb_false_iff in Ha as [_ Ha]. now apply IH in H.
Qed.

Lemma join_injective : forall l m, l <> [] -> m <> [] -> Forall no_underscore l -> Forall no_underscore m ->
  join_underscore l = join_underscore m -> l = m.
Proof.
  unfold join_underscore. induction l as [| a l IH]; intros [| b m] Hl Hm Fl Fm H; try congruence.
  inversion Fl as [| ? ? Fa Fl']; inversion Fm as [| ? ? Fb Fm']; subst.
  destruct l as [| a' l], m as [| b' m]; cbn [String.concat] in H.
  - congruence.
  - exfalso. now apply no_split in H.
  - exfalso. symmetry in H. now apply no_split in H.
  - change ("_" ++ String.concat "_" (a' :: l))%string with (String "_" (String.concat "_" (a' :: l))) in H.
    change ("_" ++ String.concat "_" (b' :: m))%string with (String "_" (String.concat "_" (b' :: m))) in H.
    apply split_underscore in H as [-> H]; auto. f_equal. apply IH; auto; discriminate.
Qed.

(** ** Trial names *)

Definition trial (sets : list (list string)) (fields : list string) : list string :=
  fold_left (fun tr s => if set_eqb s fields then tr else filter (fun x => negb (mem_str x s)) tr) sets fields.

Lemma trial_In : forall sets fields x, In x (trial sets fields) <->
  In x fields /\ forall s, In s sets -> ~ same_set s fields -> ~ In x s.
Proof.
  intros sets fields x. unfold trial.
  assert (forall l, In x (fold_left (fun tr s => if set_eqb s fields then tr else filter (fun x => negb (mem_str x s)) tr) sets l)
    <-> In x l /\ forall s, In s sets -> ~ same_set s fields -> ~ In x s) as H; [| apply H].
  induction sets as [| s sets IH]; intros l; simpl.
  - split; [tauto |]. tauto.
  - rewrite IH. destruct (set_eqb s fields) eqn:E.
    + apply set_eqb_iff in E. split; intros [H1 H2]; split; auto.
      intros s' [<- | Hs']; auto.
    + assert (~ same_set s fields) as Hns by (intros Hc; apply set_eqb_iff in Hc; congruence).
      rewrite filter_In, negb_true_iff, mem_str_false. split.
      * intros [[H1 H2] H3]. split; auto. intros s' [<- | Hs']; auto.
      * intros [H1 H2]. split; [| intros; apply H2; auto]. split; auto.
Qed.

Definition name_parts (sets : list (list string)) (fields : list string) : list string :=
  match trial sets fields with [] => fields | _ => trial sets fields end.

Lemma name_parts_distinct : forall sets a b,
  (exists a', In a' sets /\ same_set a' a) -> (exists b', In b' sets /\ same_set b' b) ->
  ~ same_set a b -> ~ same_set (name_parts sets a) (name_parts sets b).
Proof.
  intros sets a b (a' & Ia & Sa) (b' & Ib & Sb) Hab Hs. unfold name_parts in Hs.
  assert (forall u v v' x, In v' sets -> same_set v' v -> ~ same_set u v -> In x (trial sets u) -> ~ In x v) as Huniq.
  { intros u v v' x Iv Sv Huv Hx Hc. apply trial_In in Hx as [_ Hx]. apply (Hx v' Iv).
    - intros Hc'. apply Huv. intros y. rewrite <- (Hc' y). apply Sv.
    - now apply Sv. }
  destruct (trial sets a) as [| x ta] eqn:Ea.
  - destruct (trial sets b) as [| y tb] eqn:Eb; [contradiction |].
    apply (Huniq b a a' y); auto.
    + intros Hc. apply Hab. intros z. symmetry. apply Hc.
    + rewrite Eb. simpl. auto.
    + apply Hs. simpl. auto.
  - assert (~ In x b) as Hx. { apply (Huniq a b b' x); auto. rewrite Ea. simpl. auto. }
    destruct (trial sets b) as [| y tb] eqn:Eb.
    + apply Hx. apply Hs. simpl. auto.
    + apply Hx. assert (In x (y :: tb)) as Hin by (apply Hs; simpl; auto). rewrite <- Eb in Hin.
      now apply trial_In in Hin as [Hin _].
Qed.

Lemma native_sets_In : forall sch fks nt ft f, In f fks -> fk_native f = nt -> fk_foreign f = ft ->
  simple_fk sch f = true -> exists s, In s (native_sets sch fks nt ft) /\ same_set s (map fst (fk_map f)).
Proof.
  intros sch fks nt ft f. unfold native_sets.
  set (g := fun (acc : list (list string)) f0 => if String.eqb (fk_native f0) nt && String.eqb (fk_foreign f0) ft && simple_fk sch f0
        then (if existsb (set_eqb (map fst (fk_map f0))) acc then acc else acc ++ [map fst (fk_map f0)]) else acc).
  intros Hin Hn Hf Hs.
  assert (forall l acc s, In s acc -> In s (fold_left g l acc)) as Hkeep.
  { induction l as [| f0 l IH]; intros acc s H; simpl; auto. apply IH. unfold g.
    destruct (_ && _); auto. destruct (existsb _ acc); auto. apply in_app_iff. auto. }
  assert (forall l acc, In f l -> exists s, In s (fold_left g l acc) /\ same_set s (map fst (fk_map f))) as H; [| auto].
  induction l as [| f0 l IH]; intros acc H; [contradiction |]. simpl. destruct H as [-> | H]; auto.
  assert (exists s, In s (g acc f) /\ same_set s (map fst (fk_map f))) as (s & A & B); [| exists s; auto].
  unfold g. rewrite Hn, Hf, !String.eqb_refl, Hs. cbn [andb]. destruct (existsb _ acc) eqn:E.
  - apply existsb_exists in E as (s & A & B). exists s. split; auto. apply set_eqb_iff in B. intros x. symmetry. apply B.
  - exists (map fst (fk_map f)). split; [apply in_app_iff; simpl; auto | intros x; tauto].
Qed.

Lemma same_set_perm : forall a a' b b', Permutation a' a -> Permutation b' b -> a' = b' -> same_set a b.
Proof.
  intros a a' b b' P1 P2 -> x. split; intros H.
  - apply (Permutation_in x P2). now apply (Permutation_in x (Permutation_sym P1)).
  - apply (Permutation_in x P1). now apply (Permutation_in x (Permutation_sym P2)).
Qed.

(** Foreign keys between the same tables with different native fields get
    different links, if no field name has an underscore. *)
Theorem link_names_distinct : forall order sch fks f g,
  (forall l, Permutation (order l) l) -> In f fks -> In g fks ->
  fk_native f = fk_native g -> fk_foreign f = fk_foreign g ->
  simple_fk sch f = true -> simple_fk sch g = true -> fk_map f <> [] -> fk_map g <> [] ->
  Forall no_underscore (map fst (fk_map f)) -> Forall no_underscore (map fst (fk_map g)) ->
  no_underscore (fk_native f) ->
  ~ same_set (map fst (fk_map f)) (map fst (fk_map g)) ->
  link_name order sch fks (fk_native f) (fk_foreign f) (map fst (fk_map f)) <>
  link_name order sch fks (fk_native g) (fk_foreign g) (map fst (fk_map g)).
Proof.
  intros order sch fks f g Ho Hf Hg En Ef Sf Sg Nf Ng Uf Ug Ut Hd H. rewrite <- En, <- Ef in H.
  destruct (native_sets_In sch fks _ _ f Hf eq_refl eq_refl Sf) as (s1 & I1 & S1).
  destruct (native_sets_In sch fks _ _ g Hg (eq_sym En) (eq_sym Ef) Sg) as (s2 & I2 & S2).
  unfold link_name in H. set (sets := native_sets sch fks (fk_native f) (fk_foreign f)) in *.
  destruct (Nat.eqb (List.length sets) 1) eqn:E.
  - apply Nat.eqb_eq in E. destruct sets as [| s [| s' l]]; try discriminate. destruct I1 as [<- | []], I2 as [<- | []].
    apply Hd. intros x. rewrite <- (S1 x). apply S2.
  - fold (trial sets (map fst (fk_map f))) in H. fold (trial sets (map fst (fk_map g))) in H.
    fold (name_parts sets (map fst (fk_map f))) in H. fold (name_parts sets (map fst (fk_map g))) in H.
    assert (forall x, In x (name_parts sets (map fst (fk_map f))) -> In x (map fst (fk_map f))) as P1.
    { intros x. unfold name_parts. destruct (trial sets (map fst (fk_map f))) eqn:Et; auto. rewrite <- Et.
      intros Hx. now apply trial_In in Hx. }
    assert (forall x, In x (name_parts sets (map fst (fk_map g))) -> In x (map fst (fk_map g))) as P2.
    { intros x. unfold name_parts. destruct (trial sets (map fst (fk_map g))) eqn:Et; auto. rewrite <- Et.
      intros Hx. now apply trial_In in Hx. }
    apply join_injective in H; try discriminate.
    + injection H as H. apply (name_parts_distinct sets (map fst (fk_map f)) (map fst (fk_map g)) (ex_intro _ s1 (conj I1 S1))
        (ex_intro _ s2 (conj I2 S2)) Hd).
      exact (same_set_perm _ _ _ _ (Ho _) (Ho _) H).
    + constructor; auto. apply Forall_forall. intros x Hx. apply (Permutation_in x (Ho _)) in Hx.
      rewrite Forall_forall in Uf. auto.
    + constructor; auto. apply Forall_forall. intros x Hx. apply (Permutation_in x (Ho _)) in Hx.
      rewrite Forall_forall in Ug. auto.
Qed.
