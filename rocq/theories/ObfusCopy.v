(** * obfusimplify: the copy. *)
From Coq Require Import ZArith Bool List String Ascii Arith Lia Permutation.
From Verif Require Import PyVal PyValFacts PyDict PyDictFacts ListFacts PyStr Data FindTypes FindTypesFacts
  ReplaceFacts FK FKFacts ImpliedFacts InfIO Ampl Obfus ObfusNames ObfusFacts.
Import ListNotations.

(** ** Renamed columns *)

Lemma last_bind_map : forall (l : list (string * string)) (t e t' f : string),
  (last_bind tf_eqb (map (fun nf => ((t, fst nf), e)) l) (t', f) = Some e /\ t = t' /\ exists ff, In (f, ff) l) \/
  (last_bind tf_eqb (map (fun nf => ((t, fst nf), e)) l) (t', f) = None /\ ~ (t = t' /\ exists ff, In (f, ff) l)).
Proof.
  induction l as [| [a b] l IH]; intros t e t' f; simpl.
  - right. split; auto. intros (_ & ff & []).
  - destruct (IH t e t' f) as [(H1 & H2 & ff & H3) | (H1 & H2)]; rewrite H1.
    + left. repeat split; auto. exists ff. now right.
    + destruct (tf_eqb (t, a) (t', f)) eqn:E.
      * apply tf_eqb_eq in E. injection E as -> ->. left. repeat split; auto. exists b. now left.
      * right. split; auto. intros (-> & ff & [Hin | Hin]).
        -- injection Hin as -> ->. rewrite tf_eqb_refl in E. discriminate.
        -- apply H2. split; eauto.
Qed.

(** No two fields are mapped to one, in either direction. *)
Definition one_to_one (f : fk) : Prop := NoDup (map fst (fk_map f)) /\ NoDup (map snd (fk_map f)).

Lemma cols_spec : forall fks ents t f, (forall g, In g fks -> one_to_one g) ->
  match dget tf_eqb (fk_columns fks ents) (t, f) with
  | Some e => In e ents /\ exists g ff, In g fks /\ fk_native g = t /\ fk_foreign g = e /\ In (f, ff) (fk_map g)
  | None => forall g ff, In g fks -> fk_native g = t -> In (f, ff) (fk_map g) -> ~ In (fk_foreign g) ents
  end.
Proof.
  intros fks ents t f. induction fks as [| g fks IH] using rev_ind; intros Ho.
  - simpl. intros g ff [].
  - specialize (IH (fun g' Hg' => Ho g' (in_or_app _ _ _ (or_introl Hg')))).
    unfold fk_columns in *. rewrite fold_left_app. cbn [fold_left].
    destruct (Ho g) as [O1 O2]; [apply in_or_app; right; now left |]. rewrite (n2f_distinct (fk_map g) O1 O2).
    destruct (mem_str (fk_foreign g) ents) eqn:Em.
    + apply mem_str_In in Em. rewrite (dget_dupdate tf_eqb tf_eqb_refl tf_eqb_sym tf_eqb_trans).
      destruct (last_bind_map (fk_map g) (fk_native g) (fk_foreign g) t f) as [(H1 & H2 & ff & H3) | (H1 & H2)]; rewrite H1.
      * split; auto. exists g, ff. repeat split; auto. apply in_or_app. right. now left.
      * destruct (dget tf_eqb _ (t, f)) as [e |].
        -- destruct IH as (A & g' & ff & B & C). split; auto. exists g', ff. split; auto. apply in_or_app. now left.
        -- intros g' ff Hin Hn Hff. apply in_app_or in Hin as [Hin | [<- | []]]; [eauto |].
           exfalso. apply H2. eauto.
    + assert (~ In (fk_foreign g) ents) as Hn by (rewrite <- mem_str_In; congruence).
      destruct (dget tf_eqb _ (t, f)) as [e |].
      * destruct IH as (A & g' & ff & B & C). split; auto. exists g', ff. split; auto. apply in_or_app. now left.
      * intros g' ff Hin Hn' Hff. apply in_app_or in Hin as [Hin | [<- | []]]; eauto.
Qed.

(** ** Cells *)

Definition fixc (rev : renaming) (cols : list ((string * string) * string)) (t : string) (ts : tschema)
  (f : string) (v : value) : outcome value :=
  match dget tf_eqb cols (t, f) with
  | Some e => match dget tv_eqb rev (e, v) with Some n => Ret (as_value n) | None => Raise end
  | None => if list_eqb String.eqb (tpk ts) [f]
            then Ret (match dget tv_eqb rev (t, v) with Some n => as_value n | None => v end)
            else Ret v
  end.

Lemma single_pk : forall ts f, list_eqb String.eqb (tpk ts) [f] = true <-> tpk ts = [f].
Proof. intros ts f. apply FKFacts.list_eqb_eq. intros a b. apply String.eqb_eq. Qed.

Lemma fix_cells_iff : forall rev cols t fs vs vs', fix_cells rev cols t fs vs = Ret vs' <->
  Forall2 (fun fv y => fix_cell rev cols t (fst fv) (snd fv) = Ret y) (combine fs vs) vs'.
Proof. intros. unfold fix_cells. apply (all_ret_iff (fun fv => fix_cell rev cols t (fst fv) (snd fv))). Qed.

Lemma Forall2_impl_in {A B} (R S : A -> B -> Prop) : forall l l', (forall x y, In x l -> R x y -> S x y) ->
  Forall2 R l l' -> Forall2 S l l'.
Proof.
  intros l l' H F. induction F as [| x y l l' Hxy _ IH]; constructor.
  - apply H; auto. now left.
  - apply IH. intros a b Ha. apply H. now right.
Qed.

Lemma fix_cells_fixc : forall rev cols t ts fs vs vs', (forall f, In f fs -> tpk ts <> [f]) ->
  (fix_cells rev cols t fs vs = Ret vs' <->
   Forall2 (fun fv y => fixc rev cols t ts (fst fv) (snd fv) = Ret y) (combine fs vs) vs').
Proof.
  intros rev cols t ts fs vs vs' H. rewrite fix_cells_iff.
  assert (forall x, In x (combine fs vs) -> fixc rev cols t ts (fst x) (snd x) = fix_cell rev cols t (fst x) (snd x)) as E.
  { intros [f v] Hin. apply in_combine_l in Hin. unfold fixc, fix_cell. simpl. destruct (dget tf_eqb cols (t, f)); auto.
    destruct (list_eqb String.eqb (tpk ts) [f]) eqn:Es; auto. apply single_pk in Es. exfalso. now apply (H f). }
  split; apply Forall2_impl_in; intros x y Hx Hxy; [rewrite E | rewrite <- E]; auto.
Qed.

Lemma fix_key_fixc : forall rev cols t ts k k', wf_tschema ts -> List.length k = List.length (tpk ts) ->
  (fix_key rev cols t ts k = Ret k' <->
   Forall2 (fun fv y => fixc rev cols t ts (fst fv) (snd fv) = Ret y) (combine (tpk ts) k) k').
Proof.
  intros rev cols t ts k k' Hw Hk. unfold fix_key. destruct (tpk ts) as [| p [| p2 pk]] eqn:Ep.
  - rewrite <- (fix_cells_fixc rev cols t ts [] k k'); [reflexivity |]. intros f [].
  - destruct k as [| v [|]]; try discriminate. cbn [hd combine].
    assert (fixc rev cols t ts p v = match dget tf_eqb cols (t, p) with
        | Some e => match dget tv_eqb rev (e, v) with Some n => Ret (as_value n) | None => Raise end
        | None => Ret (match dget tv_eqb rev (t, v) with Some n => as_value n | None => v end) end) as E.
    { unfold fixc. now rewrite (proj2 (single_pk ts p) Ep). }
    split.
    + intros H. assert (exists y, k' = [y] /\ fixc rev cols t ts p v = Ret y) as (y & -> & Hy).
      { rewrite E. destruct (dget tf_eqb cols (t, p)) as [e |].
        - destruct (dget tv_eqb rev (e, v)); [| discriminate]. injection H as <-. eauto.
        - injection H as <-. eauto. }
      constructor; [exact Hy | constructor].
    + intros H. inversion H as [| a y b l Hy Hl]; subst. inversion Hl; subst. simpl in Hy. rewrite E in Hy.
      destruct (dget tf_eqb cols (t, p)) as [e |].
      * destruct (dget tv_eqb rev (e, v)); [| discriminate Hy]. injection Hy as <-. reflexivity.
      * injection Hy as <-. reflexivity.
  - rewrite <- (fix_cells_fixc rev cols t ts (p :: p2 :: pk) k k'); [reflexivity |]. intros f Hf E. rewrite Ep in E. discriminate.
Qed.

Lemma Forall2_len {A B} (R : A -> B -> Prop) : forall l l', Forall2 R l l' -> List.length l = List.length l'.
Proof. intros l l' H. induction H; simpl; auto. Qed.

Lemma Forall2_combine_length {A B C} (R : A * B -> C -> Prop) : forall l l' m, List.length l = List.length l' ->
  Forall2 R (combine l l') m -> List.length m = List.length l.
Proof.
  intros l l' m E H. apply Forall2_len in H. rewrite <- H, combine_length. lia.
Qed.

(** A whole row. *)
Lemma fix_row : forall rev cols t ts k r k' r', wf_tschema ts ->
  List.length k = List.length (tpk ts) -> List.length r = List.length (tdf ts) ->
  fix_key rev cols t ts k = Ret k' -> fix_cells rev cols t (tdf ts) r = Ret r' ->
  List.length k' = List.length (tpk ts) /\ List.length r' = List.length (tdf ts) /\
  forall f v, cell_in ts k r f v -> exists v', cell_in ts k' r' f v' /\ fixc rev cols t ts f v = Ret v'.
Proof.
  intros rev cols t ts k r k' r' Hw Hk Hr H1 H2. apply (proj1 (fix_key_fixc _ _ _ _ _ _ Hw Hk)) in H1.
  apply (proj1 (fix_cells_fixc rev cols t ts (tdf ts) r r' ltac:(
    intros f Hf E; apply (NoDup_app_disj _ _ f Hw); [rewrite E; now left | exact Hf]))) in H2.
  assert (List.length k' = List.length (tpk ts)) as Lk by (eapply Forall2_combine_length; [| exact H1]; lia).
  assert (List.length r' = List.length (tdf ts)) as Lr by (eapply Forall2_combine_length; [| exact H2]; lia).
  split; auto. split; auto. intros f v (i & Hi1 & Hi2).
  pose proof (Forall2_app H1 H2) as H. rewrite <- combine_app_eq in H by lia.
  assert (nth_error (combine (tpk ts ++ tdf ts) (k ++ r)) i = Some (f, v)) as Hc by (now apply nth_error_combine).
  destruct (Forall2_nth _ _ _ _ _ H Hc) as (y & Hy1 & Hy2). exists y. split; [exists i; auto | exact Hy2].
Qed.

Lemma as_value_inj : forall a b, pyeq (as_value a) (as_value b) = true -> a = b.
Proof.
  intros a b H. unfold as_value, pyeq in H. simpl in H. apply String.eqb_eq in H.
  rewrite <- (list_ascii_of_string_of_list_ascii a), <- (list_ascii_of_string_of_list_ascii b). now rewrite H.
Qed.

Section Copy.
  Variable sch : schema.
  Variable fks : list fk.
  Variable skip : list string.
  Variable d : dat.
  Variable rev : renaming.
  Variable ents : list string.
  Hypothesis Hs : wf_schema sch.
  Hypothesis Hd : wf_dat sch d.
  Hypothesis Hents : forall e, In e ents <-> renamed_table sch fks skip e.
  Hypothesis Hbij : bijective_renaming sch fks skip d rev.
  Hypothesis Hkd : keys_distinct tv_eqb (map fst rev).
  Hypothesis Hone : forall g, In g fks -> one_to_one g.

  Let cols := fk_columns fks ents.
  Definition swapped (r : renaming) : list (text * (string * value)) := map (fun kv => (snd kv, fst kv)) r.

  Lemma look_some : forall e v n, dget tv_eqb rev (e, v) = Some n ->
    exists v0, In ((e, v0), n) rev /\ pyeq v0 v = true.
  Proof.
    intros e v n H. apply dget_In in H as ([e' v0] & E & Hin). unfold tv_eqb in E. simpl in E.
    apply andb_prop in E as [E1 E2]. apply String.eqb_eq in E1 as ->. eauto.
  Qed.

  Lemma look_key : forall e rid v r, In e ents -> row_in (d e) rid [v] r -> dget tv_eqb rev (e, v) <> None.
  Proof.
    intros e rid v r He Hrow. apply Hents in He. destruct Hbij as (_ & _ & _ & Hc).
    destruct (Hc _ _ _ _ He Hrow) as (n & Hin). apply (In_dget tv_eqb tv_refl) in Hin; auto. congruence.
  Qed.

  Lemma cell_key : forall ts k r f v, tpk ts = [f] -> wf_tschema ts -> List.length k = 1 -> cell_in ts k r f v -> k = [v].
  Proof.
    intros ts k r f v Hp Hw Hk (i & H1 & H2). destruct k as [| w [|]]; try discriminate.
    rewrite Hp in H1. simpl in H1. unfold wf_tschema, tfields in Hw. rewrite Hp in Hw. simpl in Hw.
    destruct i as [| i]; simpl in *; [congruence |]. inversion Hw; subst. exfalso. apply nth_error_In in H1. contradiction.
  Qed.

  Lemma fixc_renamed : forall t ts rid k r f v v', In (t, ts) sch -> row_in (d t) rid k r -> cell_in ts k r f v ->
    fixc rev cols t ts f v = Ret v' -> cell_renamed sch fks ents (swapped rev) t f v v'.
  Proof.
    intros t ts rid k r f v v' Ht Hrow Hc H. unfold fixc in H. pose proof (cols_spec fks ents t f Hone) as Hcs. fold cols in Hcs.
    assert (forall e v0 n, In ((e, v0), n) rev -> In (n, (e, v0)) (swapped rev)) as Hsw.
    { intros e v0 n Hin. unfold swapped. apply in_map_iff. exists ((e, v0), n). auto. }
    destruct (dget tf_eqb cols (t, f)) as [e |].
    - destruct Hcs as (He & g & ff & G1 & G2 & G3 & G4).
      destruct (dget tv_eqb rev (e, v)) as [n |] eqn:E; [| discriminate]. injection H as <-.
      apply look_some in E as (v0 & Hin & Hv). right. exists e, n, v0. repeat split; auto. left. exists g, ff. auto.
    - assert (forall e, refers sch fks ents t f e -> t = e /\ In e ents /\ tpk ts = [f]) as Hno.
      { intros e (He & [(g & ff & G1 & G2 & G3 & G4) | (E & ts' & H1 & H2)]).
        - subst e. exfalso. now apply (Hcs g ff).
        - split; auto. split; auto. assert (ts' = ts) as -> by (rewrite <- (ts_of_In _ _ _ Hs H1); now apply ts_of_In). auto. }
      destruct (list_eqb String.eqb (tpk ts) [f]) eqn:Ep.
      + apply single_pk in Ep. destruct (dget tv_eqb rev (t, v)) as [n |] eqn:E; injection H as <-.
        * apply look_some in E as (v0 & Hin & Hv). right. exists t, n, v0. split; [| repeat split; auto].
          destruct Hbij as (_ & _ & Hb & _). apply Hb in Hin as [Hin _]. apply Hents in Hin. split; auto. right. split; auto. eauto.
        * left. split; auto. intros e He. apply Hno in He as (<- & He & _).
          assert (List.length k = 1) as Hk.
          { rewrite (row_in_key_length ts (d t) rid k r); auto. now rewrite Ep. }
          apply cell_key in Hc; auto; [| now apply (proj2 Hs) in Ht]. subst k. eapply look_key; eauto.
      + injection H as <-. left. split; auto. intros e He. apply Hno in He as (_ & _ & He). apply single_pk in He. congruence.
  Qed.

  Lemma fixc_inj : forall t ts f v1 v2 w1 w2, In (t, ts) sch ->
    (tpk ts = [f] -> In t ents -> dget tv_eqb rev (t, v1) <> None /\ dget tv_eqb rev (t, v2) <> None) ->
    fixc rev cols t ts f v1 = Ret w1 -> fixc rev cols t ts f v2 = Ret w2 -> pyeq w1 w2 = true -> pyeq v1 v2 = true.
  Proof.
    intros t ts f v1 v2 w1 w2 Ht Hk H1 H2 E.
    assert (forall e n1 n2, dget tv_eqb rev (e, v1) = Some n1 -> dget tv_eqb rev (e, v2) = Some n2 ->
              pyeq (as_value n1) (as_value n2) = true -> pyeq v1 v2 = true) as Hnn.
    { intros e n1 n2 A B C. apply as_value_inj in C as ->. apply look_some in A as (x & A1 & A2). apply look_some in B as (y & B1 & B2).
      destruct Hbij as (Hb & _). pose proof (proj1 (Hb _ _ _ _ A1 B1) eq_refl) as Hxy. unfold tv_eqb in Hxy. simpl in Hxy.
      apply andb_prop in Hxy as [_ Hxy]. apply (pyeq_trans v1 x v2); [now rewrite pyeq_sym |]. now apply (pyeq_trans x y v2). }
    unfold fixc in H1, H2. destruct (dget tf_eqb cols (t, f)) as [e |].
    - destruct (dget tv_eqb rev (e, v1)) eqn:E1; [| discriminate]. destruct (dget tv_eqb rev (e, v2)) eqn:E2; [| discriminate].
      injection H1 as <-. injection H2 as <-. eauto.
    - destruct (list_eqb String.eqb (tpk ts) [f]) eqn:Ep; injection H1 as <-; injection H2 as <-; auto.
      apply single_pk in Ep.
      assert (forall v n, dget tv_eqb rev (t, v) = Some n -> In t ents) as Hin.
      { intros v n Hv. apply look_some in Hv as (v0 & Hv & _). destruct Hbij as (_ & _ & Hb & _). apply Hb in Hv as [Hv _]. now apply Hents. }
      destruct (dget tv_eqb rev (t, v1)) eqn:E1.
      + specialize (Hk Ep (Hin _ _ E1)) as [_ Hk]. destruct (dget tv_eqb rev (t, v2)) eqn:E2; [| congruence]. eauto.
      + destruct (dget tv_eqb rev (t, v2)) eqn:E2; auto. specialize (Hk Ep (Hin _ _ E2)) as [Hk _]. congruence.
  Qed.

  Definition fix_kr (t : string) (ts : tschema) (kr : key * row) : outcome (key * row) :=
    match fix_key rev cols t ts (fst kr), fix_cells rev cols t (tdf ts) (snd kr) with
    | Ret k', Ret r' => Ret (k', r')
    | _, _ => Raise
    end.

  Lemma fix_keyed_eq : forall t ts l acc, fix_keyed rev cols t ts l acc =
    match all_ret (map (fix_kr t ts) l) with Ret prs => Ret (dupdate key_pyeq acc prs) | Raise => Raise end.
  Proof.
    intros t ts. induction l as [| [k r] l IH]; intros acc; [reflexivity |]. cbn [fix_keyed map all_ret].
    unfold fix_kr at 1. cbn [fst snd]. destruct (fix_key rev cols t ts k); [| reflexivity].
    destruct (fix_cells rev cols t (tdf ts) r); [| reflexivity]. rewrite IH. now destruct (all_ret (map (fix_kr t ts) l)).
  Qed.

  Lemma fix_kr_iff : forall t ts kr kr', fix_kr t ts kr = Ret kr' <->
    fix_key rev cols t ts (fst kr) = Ret (fst kr') /\ fix_cells rev cols t (tdf ts) (snd kr) = Ret (snd kr').
  Proof.
    intros t ts kr [k' r']. unfold fix_kr. cbn [fst snd].
    destruct (fix_key rev cols t ts (fst kr)); [| split; [discriminate | intros [H _]; discriminate]].
    destruct (fix_cells rev cols t (tdf ts) (snd kr)); [| split; [discriminate | intros [_ H]; discriminate]].
    split; [intros H; injection H as <- <-; auto | intros [H1 H2]; injection H1 as ->; injection H2 as ->; reflexivity].
  Qed.

  Lemma Forall2_pyeq : forall (fs : list string) (R : string -> value -> value -> Prop) k1 k2 w1 w2,
    List.length k1 = List.length fs -> List.length k2 = List.length fs ->
    Forall2 (fun fv y => R (fst fv) (snd fv) y) (combine fs k1) w1 ->
    Forall2 (fun fv y => R (fst fv) (snd fv) y) (combine fs k2) w2 ->
    (forall f v1 v2 y1 y2, In (f, v1) (combine fs k1) -> In (f, v2) (combine fs k2) ->
       R f v1 y1 -> R f v2 y2 -> pyeq y1 y2 = true -> pyeq v1 v2 = true) ->
    key_pyeq w1 w2 = true -> key_pyeq k1 k2 = true.
  Proof.
    induction fs as [| f fs IH]; intros R [| v1 k1] [| v2 k2] w1 w2 L1 L2 F1 F2 H E; simpl in *; try discriminate; auto.
    inversion F1 as [| a y1 b l1 Hy1 Hl1]; subst. inversion F2 as [| a y2 b l2 Hy2 Hl2]; subst.
    unfold key_pyeq in *. simpl in *. apply andb_prop in E as [E1 E2]. apply andb_true_intro. split.
    - apply (H f v1 v2 y1 y2); auto.
    - apply (IH R k1 k2 l1 l2); auto. intros f' a1 a2 b1 b2 G1 G2. apply H; auto.
  Qed.

  Lemma fix_key_inj : forall t ts l k1 r1 k2 r2 k1' k2', In (t, ts) sch -> d t = Keyed l -> In (k1, r1) l -> In (k2, r2) l ->
    fix_key rev cols t ts k1 = Ret k1' -> fix_key rev cols t ts k2 = Ret k2' -> key_pyeq k1' k2' = true ->
    key_pyeq k1 k2 = true.
  Proof.
    intros t ts l k1 r1 k2 r2 k1' k2' Ht El H1 H2 F1 F2 E. pose proof (Hd _ _ Ht) as Hw. rewrite El in Hw. simpl in Hw.
    destruct Hw as (_ & _ & Hl). destruct (Hl _ _ H1) as [L1 _]. destruct (Hl _ _ H2) as [L2 _].
    pose proof (proj2 Hs _ _ Ht) as Hwt.
    apply (proj1 (fix_key_fixc _ _ _ _ _ _ Hwt L1)) in F1. apply (proj1 (fix_key_fixc _ _ _ _ _ _ Hwt L2)) in F2.
    apply (Forall2_pyeq (tpk ts) (fun f v y => fixc rev cols t ts f v = Ret y) k1 k2 k1' k2'); auto.
    intros f v1 v2 y1 y2 G1 G2 A B. apply (fixc_inj t ts f v1 v2 y1 y2); auto.
    intros Ep He. rewrite Ep in *. destruct k1 as [| a [|]]; try discriminate. destruct k2 as [| b [|]]; try discriminate.
    simpl in G1, G2. destruct G1 as [G1 | []]. destruct G2 as [G2 | []]. injection G1 as ->. injection G2 as ->.
    split; [apply (look_key t (RPk [v1]) v1 r1 He) | apply (look_key t (RPk [v2]) v2 r2 He)]; rewrite El; simpl; auto.
  Qed.

  Lemma fix_table_spec : forall t ts tb', In (t, ts) sch -> fix_table rev cols t ts (d t) = Ret tb' ->
    wf_table ts tb' /\
    Forall2 (row_renamed sch fks ents (swapped rev) t ts) (rows_of (d t)) (rows_of tb').
  Proof.
    intros t ts tb' Ht H. pose proof (Hd _ _ Ht) as Hw. pose proof (proj2 Hs _ _ Ht) as Hwt.
    destruct (d t) as [l | l] eqn:El; simpl in H, Hw.
    - rewrite fix_keyed_eq in H. destruct (all_ret (map (fix_kr t ts) l)) as [prs |] eqn:E; [| discriminate].
      injection H as <-. apply (all_ret_iff (fix_kr t ts)) in E. destruct Hw as (Hne & Hdk & Hl).
      assert (Forall2 (fun kr kr' => In kr l /\ fix_kr t ts kr = Ret kr') l prs) as E'.
      { refine (Forall2_impl_in _ _ _ _ _ E). auto. }
      clear E. assert (forall (R : key * row -> key * row -> Prop) l0 prs kr', Forall2 R l0 prs -> In kr' prs ->
        exists kr, In kr l0 /\ R kr kr') as Hback.
      { clear. intros R l0 prs kr' E. induction E as [| a b l1 l2 Hab E IH]; intros Hin; [destruct Hin |]. destruct Hin as [<- | Hin].
        - exists a. split; auto. now left.
        - destruct (IH Hin) as (c & C1 & C2). exists c. split; auto. now right. }
      assert (distinct_keys (map fst prs)) as Hdk'.
      { unfold distinct_keys in *.
        enough (forall l0 prs, Forall2 (fun kr kr' => In kr l /\ fix_kr t ts kr = Ret kr') l0 prs ->
          NoDup (map (map canon) (map fst l0)) -> NoDup (map (map canon) (map fst prs))) as Hg by eauto.
        clear prs E' Hdk. intros l0 prs E. induction E as [| kr kr' l0 prs [Hin Hkr] E IH]; simpl; intros Hdk; [constructor |].
        inversion Hdk as [| x y Hn Hdk']; subst. constructor; [| apply IH; auto].
        intros Hin'. apply in_map_iff in Hin' as (k2 & Ek & Hin'). apply in_map_iff in Hin' as (kr2' & <- & Hin2).
        destruct (Hback _ _ _ _ E Hin2) as (kr2 & Hin0 & Hin2' & Hf).
        apply fix_kr_iff in Hkr as [Hk1 _]. apply fix_kr_iff in Hf as [Hk2 _].
        apply Hn. apply in_map_iff. exists (fst kr2). split; [| apply in_map; auto].
        symmetry. apply key_pyeq_iff. destruct kr as [k r], kr2 as [k2 r2]. simpl in *.
        apply (fix_key_inj t ts l k r k2 r2 (fst kr') (fst kr2')); auto.
        now apply key_pyeq_iff. }
      assert (dupdate key_pyeq [] prs = prs) as ->.
      { apply (dict_of_distinct key_pyeq). clear - Hdk'. unfold distinct_keys in Hdk'. induction (map fst prs) as [| k ks IH]; simpl in *; auto.
        inversion Hdk' as [| x y Hn Hdk'']; subst. split; auto. intros k' Hk'. apply key_pyeq_neq. intros Ek. apply Hn.
        rewrite Ek. now apply in_map. }
      split.
      + simpl. split; auto. split; auto. intros k' r' Hin.
        destruct (Hback _ _ _ _ E' Hin) as ([k r] & _ & Hin' & Hf).
        apply fix_kr_iff in Hf as [F1 F2]. simpl in F1, F2. destruct (Hl _ _ Hin') as [L1 L2].
        destruct (fix_row _ _ _ _ _ _ _ _ Hwt L1 L2 F1 F2) as (A & B & _). auto.
      + simpl. enough (forall l0 prs, Forall2 (fun kr kr' => In kr l /\ fix_kr t ts kr = Ret kr') l0 prs ->
          Forall2 (row_renamed sch fks ents (swapped rev) t ts)
            (map (fun kr : key * row => (RPk (fst kr), fst kr, snd kr)) l0)
            (map (fun kr : key * row => (RPk (fst kr), fst kr, snd kr)) prs)) as Hg by auto.
        intros l0 prs0 E. induction E as [| a b l1 l2 [Hin Hab] E IH]; simpl; constructor; auto.
        apply fix_kr_iff in Hab as [F1 F2]. destruct a as [k r], b as [k' r']. simpl in *. destruct (Hl _ _ Hin) as [L1 L2].
        destruct (fix_row _ _ _ _ _ _ _ _ Hwt L1 L2 F1 F2) as (_ & _ & C).
        intros f v Hc. simpl in *. destruct (C f v Hc) as (v' & C1 & C2). exists v'. split; auto.
        apply (fixc_renamed t ts (RPk k) k r); auto. rewrite El. simpl. auto.
    - destruct (all_ret (map (fix_cells rev cols t (tdf ts)) l)) as [l' |] eqn:E; [| discriminate]. injection H as <-.
      apply (all_ret_iff (fix_cells rev cols t (tdf ts))) in E. destruct Hw as (Hp & Hl).
      assert (fix_key rev cols t ts [] = Ret []) as Fk.
      { unfold fix_key. rewrite Hp. reflexivity. }
      split.
      + simpl. split; auto. intros r' Hin.
        assert (exists r, In r l /\ fix_cells rev cols t (tdf ts) r = Ret r') as (r & Hin' & Hf).
        { clear - E Hin. induction E as [| a b l1 l2 Hab E IH]; [destruct Hin |]. destruct Hin as [<- | Hin].
          - exists a. split; auto. now left.
          - destruct (IH Hin) as (c & C1 & C2). exists c. split; auto. now right. }
        destruct (fix_row rev cols t ts [] r [] r' Hwt) as (_ & B & _); auto. now rewrite Hp.
      + simpl.
        enough (forall i, Forall2 (row_renamed sch fks ents (swapped rev) t ts)
                  (map (fun ir : nat * row => (RIdx (fst ir), [], snd ir)) (enum_from i l))
                  (map (fun ir : nat * row => (RIdx (fst ir), [], snd ir)) (enum_from i l'))) as Hg by apply Hg.
        assert (forall r, In r l -> exists rid, row_in (d t) rid [] r) as Hrow.
        { intros r Hin. apply In_nth_error in Hin as (i & Hi). exists (RIdx i). rewrite El. simpl. split; eauto. }
        clear El. induction E as [| a b l1 l2 Hab E IH]; intros i; simpl; constructor.
        * intros f v Hc. simpl in *.
          destruct (fix_row rev cols t ts [] a [] b Hwt) as (_ & _ & C); auto; [now rewrite Hp |].
          destruct (C f v Hc) as (v' & C1 & C2). exists v'. split; auto. destruct (Hrow a (or_introl eq_refl)) as (rid & Hr).
          now apply (fixc_renamed t ts rid [] a).
        * apply IH; intros r Hr; [apply Hl | apply Hrow]; now right.
  Qed.

  Lemma fix_tables_spec : forall s tbs, NoDup (map fst s) -> fix_tables rev cols s d = Ret tbs ->
    forall t ts, In (t, ts) s -> exists tb, fix_table rev cols t ts (d t) = Ret tb /\ dat_of tbs t = tb.
  Proof.
    induction s as [| [t0 ts0] s IH]; intros tbs Hnd H t ts Hin; [destruct Hin |]. simpl in H.
    destruct (fix_table rev cols t0 ts0 (d t0)) as [tb |] eqn:E; [| discriminate].
    destruct (fix_tables rev cols s d) as [r |] eqn:E2; [| discriminate]. injection H as <-.
    simpl in Hnd. inversion Hnd as [| x y Hn Hnd']; subst. destruct Hin as [Hin | Hin].
    - injection Hin as <- <-. exists tb. split; auto. unfold dat_of, dget_or. simpl. now rewrite String.eqb_refl.
    - destruct (IH r Hnd' eq_refl t ts Hin) as (tb' & A & B). exists tb'. split; auto. unfold dat_of, dget_or in *. simpl.
      destruct (String.eqb_spec t0 t) as [-> | _]; auto. exfalso. apply Hn. now apply (in_map fst) in Hin.
  Qed.

  Theorem copy_spec : forall tbs, fix_tables rev cols sch d = Ret tbs ->
    wf_dat sch (dat_of tbs) /\
    forall t ts, In (t, ts) sch ->
      Forall2 (row_renamed sch fks ents (swapped rev) t ts) (rows_of (d t)) (rows_of (dat_of tbs t)).
  Proof.
    intros tbs H. split; intros t ts Ht; destruct (fix_tables_spec sch tbs (proj1 Hs) H t ts Ht) as (tb & A & ->);
      now apply (fix_table_spec t ts tb Ht) in A.
  Qed.
End Copy.
