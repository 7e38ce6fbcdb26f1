(** * Facts about the utilities *)
From Coq Require Import ZArith Bool List String Ascii Arith Lia.
From Verif Require Import PyVal PyValFacts PyDict PyDictFacts PyStr ListFacts Data InfIO RowPred RowPredFacts Utils.
Import ListNotations.
Local Open Scope list_scope.

(** ** Slicer *)

Section SlicerFacts.
  Context {A : Type}.
  Variable eqb : A -> A -> bool.
  Variable star : A -> bool.
  Hypothesis eqb_refl : forall x, eqb x x = true.
  Hypothesis eqb_sym : forall x y, eqb x y = eqb y x.
  Hypothesis eqb_trans : forall x y z, eqb x y = true -> eqb y z = true -> eqb x z = true.
  Hypothesis star_eqb : forall x y, eqb x y = true -> star x = star y.

  (** [t] agrees with the pattern: same length, and every position a wildcard
      or equal. *)
  Fixpoint agrees (args t : list A) : bool :=
    match args, t with
    | [], [] => true
    | a :: args', x :: t' => (star a || eqb a x) && agrees args' t'
    | _, _ => false
    end.

  Notation teq := (tuple_eqb eqb).

  Lemma teq_refl : forall t, teq t t = true.
  Proof. induction t; simpl; auto. unfold tuple_eqb in *. simpl. now rewrite eqb_refl, IHt. Qed.
  Lemma teq_sym : forall t u, teq t u = teq u t.
  Proof.
    induction t as [|a t IH]; intros [|b u]; auto. unfold tuple_eqb in *. simpl. now rewrite eqb_sym, IH.
  Qed.
  Lemma teq_trans : forall t u v, teq t u = true -> teq u v = true -> teq t v = true.
  Proof.
    unfold tuple_eqb. induction t as [|a t IH]; intros [|b u] [|c v]; simpl; try discriminate; auto.
    rewrite !andb_true_iff. intros [H1 H2] [H3 H4]. split; eauto.
  Qed.

  Lemma peq_refl : forall t, posns_eqb t t = true.
  Proof. unfold posns_eqb. induction t; simpl; auto. now rewrite Nat.eqb_refl, IHt. Qed.
  Lemma peq_eq : forall t u, posns_eqb t u = true -> t = u.
  Proof.
    unfold posns_eqb. induction t as [|a t IH]; intros [|b u]; simpl; try discriminate; auto.
    rewrite andb_true_iff, Nat.eqb_eq. intros [-> H]. f_equal. auto.
  Qed.
  Lemma peq_sym : forall t u, posns_eqb t u = posns_eqb u t.
  Proof.
    unfold posns_eqb. induction t as [|a t IH]; intros [|b u]; auto. simpl. now rewrite Nat.eqb_sym, IH.
  Qed.
  Lemma peq_trans : forall t u v, posns_eqb t u = true -> posns_eqb u v = true -> posns_eqb t v = true.
  Proof. intros t u v H1 H2. apply peq_eq in H1, H2. subst. apply peq_refl. Qed.

  Lemma fill_get_gen : forall posns l d k,
    dget_or teq (fold_left (fun d t => dset teq d (fa posns t) (dget_or teq d (fa posns t) [] ++ [t])) l d) k [] =
    dget_or teq d k [] ++ filter (fun t => teq (fa posns t) k) l.
  Proof.
    induction l as [|t l IH]; intros d k; simpl; [now rewrite app_nil_r|].
    rewrite IH. unfold dget_or at 1. rewrite (dget_dset teq teq_refl teq_sym teq_trans).
    destruct (teq (fa posns t) k) eqn:E.
    - rewrite <- app_assoc. simpl. f_equal. unfold dget_or.
      now rewrite (dget_cong teq teq_sym teq_trans d _ _ E).
    - reflexivity.
  Qed.

  Lemma fill_get : forall posns l k,
    dget_or teq (fill eqb posns l) k [] = filter (fun t => teq (fa posns t) k) l.
  Proof. intros. unfold fill. now rewrite fill_get_gen. Qed.

  (** The fixed positions of a pattern. *)
  Lemma fa_seq : forall (args t : list A) n pre pre', List.length pre = n -> List.length pre' = n ->
    List.length args = List.length t ->
    teq (fa (filter (fun i => negb (existsb (Nat.eqb i) (wildcards_from star n args))) (seq n (List.length args))) (pre ++ t))
        (fa (filter (fun i => negb (existsb (Nat.eqb i) (wildcards_from star n args))) (seq n (List.length args))) (pre' ++ args)) =
    agrees args t.
  Proof.
    assert (W : forall args n i, i < n -> existsb (Nat.eqb i) (wildcards_from star n args) = false).
    { induction args as [|a args IH]; intros n i Hi; simpl; auto.
      destruct (star a); simpl; rewrite ?IH by lia; auto. rewrite orb_false_r. apply Nat.eqb_neq. lia. }
    induction args as [|a args IH]; intros [|x t] n pre pre' Hn Hn' Hl; try discriminate; [reflexivity|].
    simpl in Hl. injection Hl as Hl.
    assert (P1 : forall (p : list A) y q, List.length p = n -> nth_error (p ++ y :: q) n = Some y).
    { intros p y q Hp. rewrite nth_error_app2 by lia. now replace (n - List.length p) with 0 by lia. }
    assert (F : forall w, (forall i, S n <= i -> existsb (Nat.eqb i) (if star a then n :: w else w) = existsb (Nat.eqb i) w) ->
      filter (fun i => negb (existsb (Nat.eqb i) (if star a then n :: w else w))) (seq (S n) (List.length args)) =
      filter (fun i => negb (existsb (Nat.eqb i) w)) (seq (S n) (List.length args))).
    { intros w Hw. apply filter_ext_in. intros i Hi. apply in_seq in Hi. now rewrite Hw by lia. }
    cbn [List.length seq filter wildcards_from].
    set (w := wildcards_from star (S n) args).
    rewrite F.
    2:{ intros i Hi. destruct (star a); auto. simpl. replace (i =? n) with false; auto. symmetry. apply Nat.eqb_neq. lia. }
    assert (IH' := IH t (S n) (pre ++ [x]) (pre' ++ [a])).
    rewrite !app_length in IH'. simpl in IH'. rewrite <- !app_assoc in IH'. simpl in IH'.
    specialize (IH' ltac:(lia) ltac:(lia) Hl). fold w in IH'.
    destruct (star a) eqn:Sa.
    - simpl. rewrite Nat.eqb_refl. simpl. rewrite Sa. simpl. exact IH'.
    - assert (Wn : existsb (Nat.eqb n) w = false) by (apply W; lia). rewrite Wn. cbn [negb].
      unfold fa in *. cbn [flat_map]. rewrite !P1 by auto. unfold tuple_eqb in *.
      cbn [app list_eqb agrees]. rewrite Sa. cbn [orb].
      rewrite IH'. f_equal. apply eqb_sym.
  Qed.

  Lemma fa_agrees : forall args t, List.length args = List.length t ->
    teq (fa (fixedposns (List.length args) (wildcards_from star 0 args)) t)
        (fa (fixedposns (List.length args) (wildcards_from star 0 args)) args) = agrees args t.
  Proof. intros args t H. apply (fa_seq args t 0 [] []); auto. Qed.

  (** What the archive must satisfy: each entry is the slicing of the indices. *)
  Definition archive_ok (s : @slicer A) : Prop :=
    forall n w d, (match sl_indices s with x :: _ => List.length x = n | [] => True end) ->
      dget posns_eqb (sl_archive s) w = Some d ->
      forall k, dget_or teq d k [] = filter (fun t => teq (fa (fixedposns n w) t) k) (sl_indices s).

  Lemma clear_ok : forall s, archive_ok (clear s).
  Proof. intros s n w d _ H. discriminate. Qed.

  Lemma slice_spec : forall s args, archive_ok s ->
    (forall t, In t (sl_indices s) -> List.length t = List.length (hd [] (sl_indices s))) ->
    fst (slice eqb star s args) =
      (match sl_indices s with
       | [] => Ret []
       | x :: _ => if Nat.eqb (List.length args) (List.length x) then Ret (filter (agrees args) (sl_indices s)) else Raise
       end) /\ archive_ok (snd (slice eqb star s args)) /\
    sl_indices (snd (slice eqb star s args)) = sl_indices s.
  Proof.
    intros s args Ha Hl. unfold slice. destruct (sl_indices s) as [|x l] eqn:El; [auto|].
    destruct (Nat.eqb (List.length args) (List.length x)) eqn:En; [|auto].
    apply Nat.eqb_eq in En. simpl in Hl.
    set (w := wildcards_from star 0 args). set (posns := fixedposns (List.length args) w).
    set (slicing := match dget posns_eqb (sl_archive s) w with Some d => d | None => fill eqb posns (x :: l) end).
    assert (Sl : forall k, dget_or teq slicing k [] = filter (fun t => teq (fa posns t) k) (x :: l)).
    { unfold slicing. destruct (dget posns_eqb (sl_archive s) w) as [d|] eqn:Ed.
      - intros k. rewrite <- El. apply (Ha (List.length args) w d); auto. rewrite El. auto.
      - intros k. apply fill_get. }
    assert (R : (match dget teq slicing (fa posns args) with Some l0 => l0 | None => [] end) =
                filter (agrees args) (x :: l)).
    { change (dget_or teq slicing (fa posns args) [] = filter (agrees args) (x :: l)).
      rewrite Sl. apply filter_ext_in. intros t Ht. apply fa_agrees. rewrite En. symmetry. auto. }
    cbn [fst snd sl_indices sl_archive]. split; [now rewrite R|]. split; [|reflexivity].
    intros n w' d Hn Hd k. cbn [sl_indices sl_archive] in *.
    rewrite (dget_dset posns_eqb peq_refl peq_sym peq_trans) in Hd.
    destruct (posns_eqb w w') eqn:Ew.
    - apply peq_eq in Ew. subst w'. injection Hd as <-.
      assert (n = List.length args) as -> by congruence. fold posns.
      destruct (dget teq slicing (fa posns args)) as [l0|] eqn:Ef.
      + apply Sl.
      + rewrite <- Sl. unfold dget_or. rewrite (dget_dset teq teq_refl teq_sym teq_trans).
        destruct (teq (fa posns args) k) eqn:Ek; auto.
        rewrite <- (dget_cong teq teq_sym teq_trans slicing _ _ Ek). now rewrite Ef.
    - rewrite <- El. apply (Ha n w' d); auto. rewrite El. auto.
  Qed.

  Lemma srun_ok : forall ops s, archive_ok s ->
    (forall t, In t (sl_indices s) -> List.length t = List.length (hd [] (sl_indices s))) ->
    archive_ok (srun eqb star s ops) /\ sl_indices (srun eqb star s ops) = sl_indices s.
  Proof.
    induction ops as [|o ops IH]; intros s Ha Hl; simpl; [auto|].
    assert (Q : archive_ok (sstep eqb star s o) /\ sl_indices (sstep eqb star s o) = sl_indices s).
    { destruct o as [args|]; simpl.
      - destruct (slice_spec s args Ha Hl) as (_ & H1 & H2). auto.
      - split; [apply clear_ok|reflexivity]. }
    destruct Q as [Q1 Q2]. destruct (IH (sstep eqb star s o) Q1) as [P1 P2]; [now rewrite Q2|].
    split; [exact P1|congruence].
  Qed.

  Theorem slice_history : forall l s ops args, make_slicer star l = Ret s -> l <> [] ->
    List.length args = List.length (hd [] l) ->
    fst (slice eqb star (srun eqb star s ops) args) = Ret (filter (agrees args) l).
  Proof.
    intros l s ops args Hm Hl Ha. unfold make_slicer in Hm.
    destruct l as [|x l]; [congruence|].
    destruct (forallb _ (x :: l) && _) eqn:E; [|discriminate]. injection Hm as <-.
    apply andb_true_iff in E as [E _]. rewrite forallb_forall in E.
    assert (L : forall t, In t (x :: l) -> List.length t = List.length x).
    { intros t Ht. apply Nat.eqb_eq. auto. }
    destruct (srun_ok ops (mkSl (x :: l) [])) as [H1 H2].
    - intros n w d _ H. discriminate.
    - exact L.
    - destruct (slice_spec (srun eqb star (mkSl (x :: l) []) ops) args H1) as (H & _ & _).
      + rewrite H2. exact L.
      + rewrite H, H2. simpl in *. rewrite Ha, Nat.eqb_refl. reflexivity.
  Qed.

  Theorem slice_other : forall l s ops args, make_slicer star l = Ret s ->
    (l = [] -> fst (slice eqb star (srun eqb star s ops) args) = Ret []) /\
    (l <> [] -> List.length args <> List.length (hd [] l) -> fst (slice eqb star (srun eqb star s ops) args) = Raise).
  Proof.
    intros l s ops args Hm. unfold make_slicer in Hm. split.
    - intros ->. injection Hm as <-.
      destruct (srun_ok ops (mkSl [] [])) as [H1 H2].
      + intros n w d _ H. discriminate.
      + intros t [].
      + destruct (slice_spec (srun eqb star (mkSl [] []) ops) args H1) as (H & _ & _).
        * rewrite H2. intros t [].
        * rewrite H, H2. reflexivity.
    - intros Hl Ha. destruct l as [|x l]; [congruence|].
      destruct (forallb _ (x :: l) && _) eqn:E; [|discriminate]. injection Hm as <-.
      apply andb_true_iff in E as [E _]. rewrite forallb_forall in E.
      assert (L : forall t, In t (x :: l) -> List.length t = List.length x).
      { intros t Ht. apply Nat.eqb_eq. auto. }
      destruct (srun_ok ops (mkSl (x :: l) [])) as [H1 H2].
      + intros n w d _ H. discriminate.
      + exact L.
      + destruct (slice_spec (srun eqb star (mkSl (x :: l) []) ops) args H1) as (H & _ & _).
        * rewrite H2. exact L.
        * rewrite H, H2. simpl in *. destruct (Nat.eqb (List.length args) (List.length x)) eqn:Q; auto.
          apply Nat.eqb_eq in Q. congruence.
  Qed.

  Lemma agrees_iff : forall args t, agrees args t = true <->
    List.length args = List.length t /\
    forall i a x, nth_error args i = Some a -> nth_error t i = Some x -> star a = true \/ eqb a x = true.
  Proof.
    induction args as [|a args IH]; intros [|x t]; simpl.
    - split; auto. intros _. split; auto. intros [|i] ? ? H; discriminate.
    - split; [discriminate|intros [H _]; discriminate].
    - split; [discriminate|intros [H _]; discriminate].
    - rewrite andb_true_iff, orb_true_iff, IH. split.
      + intros [H1 [H2 H3]]. split; [congruence|]. intros [|i] b y Hb Hy.
        * simpl in *. injection Hb as <-. injection Hy as <-. exact H1.
        * simpl in *. eauto.
      + intros [H1 H2]. split; [apply (H2 0); reflexivity|]. split; [congruence|].
        intros i b y Hb Hy. apply (H2 (S i)); auto.
  Qed.
End SlicerFacts.

Lemma make_slicer_lengths {A} : forall (star : A -> bool) l s t, make_slicer star l = Ret s -> In t l ->
  List.length t = List.length (hd [] l).
Proof.
  intros star l s t H Ht. unfold make_slicer in H. destruct l as [|x l]; [contradiction|].
  destruct (forallb _ (x :: l) && _) eqn:E; [|discriminate].
  apply andb_true_iff in E as [E _]. rewrite forallb_forall in E. simpl. apply Nat.eqb_eq. auto.
Qed.

Lemma make_slicer_iff {A} : forall (star : A -> bool) l,
  (exists s, make_slicer star l = Ret s) <->
  (forall t u, In t l -> In u l -> List.length t = List.length u) /\
  (forall t x, In t l -> In x t -> star x = false).
Proof.
  intros star l. split.
  - intros (s & H). split.
    + intros t u Ht Hu. rewrite (make_slicer_lengths _ _ _ _ H Ht), (make_slicer_lengths _ _ _ _ H Hu). reflexivity.
    + intros t x Ht Hx. unfold make_slicer in H. destruct l as [|y l]; [contradiction|].
      destruct (forallb _ (y :: l) && _) eqn:E; [|discriminate].
      apply andb_true_iff in E as [_ E]. apply negb_true_iff in E.
      destruct (star x) eqn:Ex; auto. exfalso.
      rewrite <- not_true_iff_false in E. apply E. apply existsb_exists. exists t. split; auto.
      apply existsb_exists. eauto.
  - intros [H1 H2]. unfold make_slicer. destruct l as [|y l]; [eauto|].
    assert (E : forallb (fun z => Nat.eqb (List.length z) (List.length y)) (y :: l) && negb (existsb (existsb star) (y :: l)) = true).
    { apply andb_true_iff. split.
      - apply forallb_forall. intros z Hz. apply Nat.eqb_eq. apply H1; simpl; auto.
      - apply negb_true_iff, not_true_iff_false. intros Q. apply existsb_exists in Q as (t & Ht & Q).
        apply existsb_exists in Q as (x & Hx & Q). rewrite (H2 t x Ht Hx) in Q. discriminate. }
    rewrite E. eauto.
Qed.
