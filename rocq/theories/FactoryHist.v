(** * Histories of factory calls: locking, predicate names, last call wins. *)
From Coq Require Import ZArith Bool List String Ascii Arith Lia Permutation.
From Verif Require Import PyVal PyValFacts PyDict PyDictFacts PyStr ListFacts TypeDict TypeDictFacts Data
  FindTypes FindTypesFacts FK FKFacts ImpliedFacts WfCheck GraphFacts Factory FactoryFacts FactoryMore FactoryClone
  FactoryEdit.
Import ListNotations.
Local Open Scope string_scope.
Local Open Scope list_scope.

Definition pred_name (i : nat) : value := VNum (of_int (Z.of_nat i)).

Section Hist.
  Variable parses : value -> bool.
  Notation inv := (inv parses).
  Notation step := (step parses).
  Notation run := (run parses).

  (** The calls made with, for each, whether it raised. *)
  Fixpoint history (f : factory) (ops : list op) : list (op * bool) :=
    match ops with
    | [] => []
    | o :: ops' => (o, snd (step f o)) :: history (fst (step f o)) ops'
    end.

  (** ** C22 *)

  Definition frozen (f g : factory) : Prop :=
    f_used g = true /\ f_decl g = f_decl f /\ f_types g = f_types f /\ f_defaults g = f_defaults f /\
    f_fks g = f_fks f /\ f_preds g = f_preds f /\ f_gens g = f_gens f.

  Lemma frozen_trans : forall f g h, frozen f g -> frozen g h -> frozen f h.
  Proof. intros f g h (A & B & C & D & E & F & G) (A' & B' & C' & D' & E' & F' & G'). repeat split; congruence. Qed.

  Lemma step_frozen : forall f o, f_used f = true ->
    frozen f (fst (step f o)) /\ ((forall n, o <> ORemParam n) -> f_params (fst (step f o)) = f_params f) /\
    (forall n d, In (n, d) (f_params (fst (step f o))) -> In (n, d) (f_params f)).
  Proof.
    intros f o Hu.
    assert (frozen f f) as Hr by (repeat split; auto).
    destruct o; cbn [Factory.step]; try (now split; [repeat split; auto | auto]).
    - unfold set_data_type. rewrite Hu. cbn. auto.
    - unfold clear_data_type. rewrite Hu. destruct (negb _); cbn; auto.
    - unfold add_pred. rewrite Hu. cbn. auto.
    - unfold add_parameter. rewrite Hu. cbn [negb]. rewrite andb_false_r. cbn. auto.
    - unfold remove_parameter. destruct (dmem pyeq (f_params f) v); cbn; auto.
      split; [repeat split; auto |]. split; [intros H; exfalso; now apply (H v) |].
      intros n d H. now apply ddel_incl in H.
    - unfold set_default. rewrite Hu. cbn. auto.
    - unfold set_defaults. rewrite Hu. cbn. auto.
    - unfold set_gens. rewrite Hu. cbn. auto.
    - unfold clear_fks. rewrite Hu. cbn. auto.
    - unfold add_fk. rewrite Hu. cbn. auto.
    - rewrite Hu. cbn. auto.
    - unfold set_tip. destruct (_ && _); cbn; [| auto]. split; [repeat split; auto | auto].
    - destruct (good_flag v); cbn; [| auto]. split; [repeat split; auto | auto].
    - destruct (good_xlsx v); cbn; [| auto]. split; [repeat split; auto | auto].
    - destruct (good_dup v); cbn; [| auto]. split; [repeat split; auto | auto].
    - destruct (good_auto v); cbn; [| auto]. split; [repeat split; auto | auto].
  Qed.

  Theorem run_frozen : forall ops f, f_used f = true ->
    frozen f (run f ops) /\ ((forall n, ~ In (ORemParam n) ops) -> f_params (run f ops) = f_params f) /\
    (forall n d, In (n, d) (f_params (run f ops)) -> In (n, d) (f_params f)).
  Proof.
    induction ops as [| o ops IH]; intros f Hu; simpl.
    - split; [repeat split; auto | auto].
    - destruct (step_frozen f o Hu) as (H1 & H2 & H3). destruct (IH (fst (step f o))) as (I1 & I2 & I3).
      { apply H1. }
      split; [eapply frozen_trans; eauto |]. split.
      + intros Hn. rewrite I2, H2; auto.
        * intros n E. apply (Hn n). auto.
        * intros n E. apply (Hn n). auto.
      + intros n d H. apply I3 in H. now apply H3.
  Qed.

  (** ** C23 *)

  Theorem auto_name : forall f t p g, inv f -> step f (OPred t (Some p) VNone) = (g, false) ->
    exists i, shown_pred f t (pred_name i) = None /\
      (forall j, (j < i)%nat -> shown_pred f t (pred_name j) <> None) /\
      shown_pred g t (pred_name i) = Some p /\
      (forall t' n, ~ (t' = t /\ pyeq n (pred_name i) = true) -> shown_pred g t' n = shown_pred f t' n) /\
      g = with_preds f (f_preds g).
  Proof.
    intros f t p g Hf H. cbn [Factory.step] in H. unfold add_pred in H.
    destruct (_ && _) in H; [| discriminate].
    destruct (mem_str (p_resp p) ["Boolean"; "Error Message"]); [| discriminate]. cbn [or_raise] in H.
    injection H as <-. destruct (fresh_name_spec (dget_or String.eqb (f_preds f) t [])) as (i & E & H1 & H2).
    exists i. split; [exact H1 |]. split; [exact H2 |]. rewrite E.
    assert (forall t' n, shown_pred (with_preds f (dset String.eqb (f_preds f) t
              (dset pyeq (dget_or String.eqb (f_preds f) t []) (pred_name i) p))) t' n =
              if String.eqb t t' && pyeq (pred_name i) n then Some p else shown_pred f t' n) as Hs.
    { intros t' n. unfold shown_pred. cbn [f_preds with_preds]. unfold dget_or at 1. rewrite sget_dset.
      destruct (String.eqb t t') eqn:Et; cbn [andb].
      - apply String.eqb_eq in Et. subst t'. now rewrite pget_dset.
      - reflexivity. }
    unfold pred_name in Hs. split; [rewrite Hs, String.eqb_refl, pyeq_refl; reflexivity |].
    split; [| reflexivity]. intros t' n Hne. rewrite Hs.
    destruct (String.eqb t t' && pyeq (VNum (of_int (Z.of_nat i))) n) eqn:Eb; auto. exfalso. apply Hne.
    apply andb_true_iff in Eb as [A B]. apply String.eqb_eq in A. split; [auto |]. now rewrite pyeq_sym.
  Qed.

  Theorem pred_accepted : forall f t p n, snd (step f (OPred t (Some p) n)) = false <->
    f_used f = false /\ (exists ts, decl_of (f_decl f) t = Some (Fields ts)) /\ ~ In t (f_gens f) /\
    In (p_resp p) ["Boolean"; "Error Message"].
  Proof.
    intros f t p n. cbn [Factory.step]. unfold add_pred. split.
    - destruct (_ && _) eqn:Ec; [| discriminate].
      destruct (mem_str (p_resp p) ["Boolean"; "Error Message"]) eqn:Em; [| discriminate]. intros _.
      repeat rewrite andb_true_iff in Ec. rewrite !negb_true_iff in Ec. destruct Ec as [[[A B] C] D].
      split; [auto |]. split; [now apply is_generic_false |]. apply mem_str_false in D. apply mem_str_iff in Em. auto.
    - intros (A & (ts & B) & C & D). destruct (plain_table f _ _ B) as [B1 B2].
      apply mem_str_false in C. apply mem_str_iff in D. rewrite A, B1, B2, C, D. reflexivity.
  Qed.

  (** ** C24 *)

  (** The last accepted call for [(t, x)] wins; [cur] is the initial value. *)
  Fixpoint last_default (t x : string) (h : list (op * bool)) (cur : option value) : option value :=
    match h with
    | [] => cur
    | (OSetDefault t' x' v, false) :: h' =>
        last_default t x h' (if string_dec t' t then if string_dec x' x then Some v else cur else cur)
    | (OSetDefaults l, false) :: h' =>
        last_default t x h' (match last_bind tf_eqb (flat l) (t, x) with Some v => Some v | None => cur end)
    | _ :: h' => last_default t x h' cur
    end.

  Fixpoint last_type (t x : string) (h : list (op * bool)) (cur : option dtype) : option dtype :=
    match h with
    | [] => cur
    | (OSetType t' x' a, false) :: h' =>
        last_type t x h' (if string_dec t' t then if string_dec x' x then safe_creator a else cur else cur)
    | (OClearType t' x', false) :: h' =>
        last_type t x h' (if string_dec t' t then if string_dec x' x then None else cur else cur)
    | _ :: h' => last_type t x h' cur
    end.

  Fixpoint last_tip (t x : string) (h : list (op * bool)) (cur : option string) : option string :=
    match h with
    | [] => cur
    | (OTip t' x' s, false) :: h' =>
        last_tip t x h' (if string_dec t' t then if string_dec x' x then
                           (if string_dec s "" then None else Some s) else cur else cur)
    | _ :: h' => last_tip t x h' cur
    end.

  Lemma eqb_dec_if {A} : forall t t' x x' (a b : A),
    (if String.eqb t t' && String.eqb x x' then a else b) =
    (if string_dec t t' then if string_dec x x' then a else b else b).
  Proof.
    intros t t' x x' a b. destruct (string_dec t t') as [-> | H].
    - rewrite String.eqb_refl. cbn [andb]. destruct (string_dec x x') as [-> | H].
      + now rewrite String.eqb_refl.
      + apply String.eqb_neq in H. now rewrite H.
    - apply String.eqb_neq in H. now rewrite H.
  Qed.

  Lemma last_bind_app_tf {V} : forall (a b : list ((string * string) * V)) k,
    last_bind tf_eqb (a ++ b) k = match last_bind tf_eqb b k with Some v => Some v | None => last_bind tf_eqb a k end.
  Proof.
    induction a as [| [k0 v0] a IH]; intros b k; simpl.
    - now destruct (last_bind tf_eqb b k).
    - rewrite IH. now destruct (last_bind tf_eqb b k).
  Qed.

  Lemma last_bind_one_table {V} : forall t0 (l0 : list (string * V)) t x,
    last_bind tf_eqb (map (fun xv => ((t0, fst xv), snd xv)) l0) (t, x) =
    if String.eqb t0 t then last_bind String.eqb l0 x else None.
  Proof.
    intros t0 l0 t x. induction l0 as [| [y v] l0 IH]; simpl.
    - now destruct (String.eqb t0 t).
    - rewrite IH. unfold tf_eqb. cbn [fst snd]. destruct (String.eqb t0 t); cbn [andb]; auto.
  Qed.

  Lemma set_defaults_ok : forall l f, inv f -> snd (set_defaults f l) = false ->
    forall t x, shown_default (fst (set_defaults f l)) t x =
      match last_bind tf_eqb (flat l) (t, x) with Some v => Some v | None => shown_default f t x end.
  Proof.
    intros l f Hf. unfold set_defaults. destruct (f_used f) eqn:Hu; [discriminate |]. clear Hu.
    revert f Hf. induction l as [| [t0 l0] l IH]; intros f Hf H t x; simpl in *; auto.
    destruct (set_table_defaults f (t0, l0)) as [g |] eqn:E; simpl in *; [| discriminate].
    pose proof (set_table_defaults_inv parses f (t0, l0) g Hf E) as Hg.
    rewrite IH by auto. unfold flat. cbn [flat_map fst snd]. rewrite last_bind_app_tf. fold (flat l).
    destruct (last_bind tf_eqb (flat l) (t, x)); auto.
    destruct (set_table_defaults_get f t0 l0 g (proj1 (inv_defaults _ _ Hf)) E) as (_ & _ & _ & Hget).
    unfold shown_default. rewrite Hget, last_bind_one_table.
    destruct (String.eqb t0 t) eqn:Et; auto. apply String.eqb_eq in Et. subst t0. reflexivity.
  Qed.

  Lemma or_raise_false : forall f o g, or_raise f o = (g, false) -> o = Some g.
  Proof. intros f [h |] g H; simpl in H; [injection H as <- | discriminate]. reflexivity. Qed.
  Lemma or_raise_true : forall f o g, or_raise f o = (g, true) -> g = f.
  Proof. intros f [h |] g H; simpl in H; [discriminate | now injection H]. Qed.

  (** A rejected call changes nothing, set_default_values aside. *)
  Theorem rejected_unchanged : forall f o g, step f o = (g, true) -> (forall l, o <> OSetDefaults l) -> g = f.
  Proof.
    intros f o g H Hn. destruct o; cbn [Factory.step] in H; try (now apply or_raise_true in H); try discriminate.
    exfalso. now apply (Hn l).
  Qed.

  (** One step, as seen through one field. *)
  Definition obs (f g : factory) (o : op) (r : bool) (t x : string) : Prop :=
    shown_default g t x = last_default t x [(o, r)] (shown_default f t x) /\
    shown_type g t x = last_type t x [(o, r)] (shown_type f t x) /\
    shown_tip g t x = last_tip t x [(o, r)] (shown_tip f t x).

  Lemma obs_same : forall f g o r t x, f_defaults g = f_defaults f -> f_types g = f_types f -> f_tips g = f_tips f ->
    (forall a, last_default t x [(o, r)] a = a) -> (forall a, last_type t x [(o, r)] a = a) ->
    (forall a, last_tip t x [(o, r)] a = a) -> obs f g o r t x.
  Proof.
    intros f g o r t x A B C D E F. unfold obs. rewrite D, E, F.
    unfold shown_default, shown_type, shown_tip. rewrite A, B, C. auto.
  Qed.

  Lemma step_obs : forall f o t x, inv f -> (forall l, o = OSetDefaults l -> snd (step f o) = false) ->
    obs f (fst (step f o)) o (snd (step f o)) t x.
  Proof.
    intros f o t x Hf Hok.
    destruct (snd (step f o)) eqn:Er.
    - assert (fst (step f o) = f) as ->.
      { eapply rejected_unchanged.
        - rewrite (surjective_pairing (step f o)), Er. reflexivity.
        - intros l E. specialize (Hok l E). discriminate. }
      destruct o; split; cbn; auto.
    - destruct (step f o) as [g r] eqn:Es. cbn [fst snd] in *. subst r.
      destruct o; cbn [Factory.step] in Es; try (apply or_raise_false in Es).
      + (* set_data_type *)
        unfold set_data_type in Es. destruct (_ && _) in Es; [| discriminate].
        destruct (safe_creator d) as [dt |] eqn:Ed; [| discriminate]. injection Es as <-.
        split; [reflexivity |]. split; [| reflexivity]. unfold shown_type. cbn [f_types with_types last_type].
        rewrite dget2_dset2, Ed. apply eqb_dec_if.
      + destruct (clear_data_type_get f s s0 g (proj1 (inv_types _ _ Hf)) Es) as (-> & _ & Hg).
        split; [reflexivity |]. split; [| reflexivity]. cbn [last_type]. unfold shown_type at 1. rewrite Hg.
        apply eqb_dec_if.
      + unfold add_pred in Es. destruct (_ && _) in Es; [| discriminate].
        destruct o as [p |].
        * destruct (mem_str _ _) in Es; [| discriminate]. injection Es as <-. now apply obs_same.
        * destruct (dget String.eqb (f_preds f) s); injection Es as <-; now apply obs_same.
      + unfold add_parameter in Es. destruct (_ && _) in Es; [| discriminate]. destruct b.
        * destruct (safe_creator d); [| discriminate]. destruct (valid_data parses d0 v0); [| discriminate].
          injection Es as <-. now apply obs_same.
        * injection Es as <-. now apply obs_same.
      + unfold remove_parameter in Es. destruct (dmem _ _ _); [| discriminate]. injection Es as <-. now apply obs_same.
      + unfold set_default in Es. destruct (_ && _) in Es; [| discriminate]. injection Es as <-.
        split; [| split; reflexivity]. unfold shown_default. cbn [f_defaults with_defaults last_default].
        rewrite dget2_dset2. apply eqb_dec_if.
      + split.
        * cbn [last_default]. pose proof (set_defaults_ok l f Hf) as H. rewrite Es in H. cbn [fst snd] in H. auto.
        * assert (f_types g = f_types f /\ f_tips g = f_tips f) as [A B].
          { unfold set_defaults in Es. destruct (f_used f); [discriminate |]. clear -Es. revert f Es.
            induction l as [| tl l IH]; intros f Es; simpl in Es; [injection Es as <-; auto |].
            destruct (set_table_defaults f tl) as [h |] eqn:E; [| discriminate]. apply IH in Es as [A B].
            rewrite A, B. unfold set_table_defaults in E. destruct (_ && _) in E; [| discriminate].
            injection E as <-. auto. }
          unfold shown_type, shown_tip. rewrite A, B. auto.
      + unfold set_gens in Es. destruct (_ && _) in Es; [| discriminate]. injection Es as <-. now apply obs_same.
      + unfold clear_fks in Es. destruct (f_used f); [discriminate |]. destruct o as [t' |].
        * destruct (is_table f t'); [| discriminate]. injection Es as <-. now apply obs_same.
        * injection Es as <-. now apply obs_same.
      + unfold add_fk in Es. destruct (_ && _) in Es; [| discriminate]. destruct (mapping_of f0); [| discriminate].
        destruct (forallb _ _); [| discriminate]. injection Es as <-. now apply obs_same.
      + destruct (f_used f); [discriminate |]. destruct (add_implied _ _ _); [| discriminate]. injection Es as <-.
        now apply obs_same.
      + injection Es as <-. now apply obs_same.
      + unfold set_tip in Es. destruct (_ && _) in Es; [| discriminate]. injection Es as <-.
        split; [reflexivity |]. split; [reflexivity |]. unfold shown_tip. cbn [f_tips with_tips last_tip].
        pose proof (proj1 (inv_tips _ _ Hf)) as Hn.
        destruct (string_dec s1 "") as [-> | Hs].
        * cbn [String.eqb]. destruct (tf_eqb (s, s0) (t, x)) eqn:E.
          -- apply tf_eqb_eq in E. injection E as -> ->. destruct (string_dec t t); [| congruence].
             destruct (string_dec x x); [| congruence]. apply (dget_ddel_same tf_eqb tf_eqb_sym tf_eqb_trans).
             now apply (keys_distinct_NoDup tf_eqb tf_eqb_eq).
          -- rewrite (dget_ddel_other tf_eqb tf_eqb_sym tf_eqb_trans) by auto.
             destruct (string_dec s t) as [-> |]; auto. destruct (string_dec s0 x) as [-> |]; auto.
             now rewrite tf_eqb_refl in E.
        * pose proof Hs as Hs'. apply String.eqb_neq in Hs'. rewrite Hs', tget_dset. unfold tf_eqb. cbn [fst snd].
          apply eqb_dec_if.
      + destruct (good_flag v); [| discriminate]. injection Es as <-. now apply obs_same.
      + destruct (good_xlsx v); [| discriminate]. injection Es as <-. now apply obs_same.
      + destruct (good_dup v); [| discriminate]. injection Es as <-. now apply obs_same.
      + destruct (good_auto v); [| discriminate]. injection Es as <-. now apply obs_same.
      + injection Es as <-. now apply obs_same.
  Qed.

  Lemma last_default_cons : forall t x e h c, last_default t x (e :: h) c = last_default t x h (last_default t x [e] c).
  Proof. intros t x [[] []] h c; reflexivity. Qed.
  Lemma last_type_cons : forall t x e h c, last_type t x (e :: h) c = last_type t x h (last_type t x [e] c).
  Proof. intros t x [[] []] h c; reflexivity. Qed.
  Lemma last_tip_cons : forall t x e h c, last_tip t x (e :: h) c = last_tip t x h (last_tip t x [e] c).
  Proof. intros t x [[] []] h c; reflexivity. Qed.

  Theorem last_call_wins : forall ops f t x, inv f ->
    (forall l, ~ In (OSetDefaults l, true) (history f ops)) ->
    shown_default (run f ops) t x = last_default t x (history f ops) (shown_default f t x) /\
    shown_type (run f ops) t x = last_type t x (history f ops) (shown_type f t x) /\
    shown_tip (run f ops) t x = last_tip t x (history f ops) (shown_tip f t x).
  Proof.
    induction ops as [| o ops IH]; intros f t x Hf Hn; [cbn; auto |].
    cbn [history] in *. rewrite last_default_cons, last_type_cons, last_tip_cons.
    assert (obs f (fst (step f o)) o (snd (step f o)) t x) as (A & B & C).
    { apply step_obs; auto. intros l E. destruct (snd (step f o)) eqn:Er; auto. exfalso. apply (Hn l).
      left. now rewrite E. }
    rewrite <- A, <- B, <- C. change (run f (o :: ops)) with (run (fst (step f o)) ops). apply IH.
    - now apply step_inv.
    - intros l Hc. apply (Hn l). now right.
  Qed.

  (** Types and tooltips do not need the proviso. *)
  Theorem last_call_wins_types : forall ops f t x, inv f ->
    shown_type (run f ops) t x = last_type t x (history f ops) (shown_type f t x) /\
    shown_tip (run f ops) t x = last_tip t x (history f ops) (shown_tip f t x).
  Proof.
    induction ops as [| o ops IH]; intros f t x Hf; [cbn; auto |].
    cbn [history] in *. rewrite last_type_cons, last_tip_cons.
    change (run f (o :: ops)) with (run (fst (step f o)) ops).
    assert (shown_type (fst (step f o)) t x = last_type t x [(o, snd (step f o))] (shown_type f t x) /\
            shown_tip (fst (step f o)) t x = last_tip t x [(o, snd (step f o))] (shown_tip f t x)) as [B C].
    { destruct o; try (match goal with |- context [step f ?o] => 
         destruct (step_obs f o t x Hf ltac:(intros; discriminate)) as (_ & H1 & H2); split; [exact H1 | exact H2] end).
      assert (f_types (fst (set_defaults f l)) = f_types f /\ f_tips (fst (set_defaults f l)) = f_tips f) as [A B].
      { unfold set_defaults. destruct (f_used f); auto. clear. revert f.
        induction l as [| tl l IH]; intros f; simpl; auto.
        destruct (set_table_defaults f tl) as [h |] eqn:E; simpl; auto. destruct (IH h) as [A B].
        rewrite A, B. unfold set_table_defaults in E. destruct (_ && _) in E; [| discriminate].
        injection E as <-. auto. }
      cbn [Factory.step]. unfold shown_type, shown_tip. rewrite A, B. destruct (snd (set_defaults f l)); cbn; auto. }
    rewrite <- B, <- C. apply IH. now apply step_inv.
  Qed.

  (** What a rejected set_default_values may have done: the tables before the
      offending one, nothing else. *)
  Theorem rejected_set_defaults : forall l f t x, inv f ->
    exists l1 l2, l = l1 ++ l2 /\
      shown_default (fst (set_defaults f l)) t x =
      match last_bind tf_eqb (flat l1) (t, x) with Some v => Some v | None => shown_default f t x end.
  Proof.
    intros l f t x Hf. unfold set_defaults. destruct (f_used f); [exists [], l; cbn; auto |]. revert f Hf.
    induction l as [| [t0 l0] l IH]; intros f Hf; simpl.
    - exists [], []. cbn. auto.
    - destruct (set_table_defaults f (t0, l0)) as [g |] eqn:E; simpl.
      + pose proof (set_table_defaults_inv parses f (t0, l0) g Hf E) as Hg.
        destruct (IH g Hg) as (l1 & l2 & -> & Hr). exists ((t0, l0) :: l1), l2. split; [reflexivity |].
        rewrite Hr. unfold flat. cbn [flat_map fst snd]. rewrite last_bind_app_tf. fold (flat l1).
        destruct (last_bind tf_eqb (flat l1) (t, x)); auto.
        destruct (set_table_defaults_get f t0 l0 g (proj1 (inv_defaults _ _ Hf)) E) as (_ & _ & _ & Hget).
        unfold shown_default. rewrite Hget, last_bind_one_table.
        destruct (String.eqb t0 t) eqn:Et; auto. apply String.eqb_eq in Et. subst t0. reflexivity.
      + exists [], ((t0, l0) :: l). cbn. auto.
  Qed.
End Hist.
