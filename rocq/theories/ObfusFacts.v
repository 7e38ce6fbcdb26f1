(** * obfusimplify: the renaming is a bijection and the copy is the renamed
    original. *)
From Coq Require Import ZArith Bool List String Ascii Arith Lia Permutation.
From Verif Require Import PyVal PyValFacts PyDict PyDictFacts ListFacts PyStr Data FindTypes FindTypesFacts
  FK FKFacts InfIO Ampl Obfus ObfusNames.
Import ListNotations.

(** ** Lists *)

Lemma In_enum {A} : forall (l : list A) i j x, In (j, x) (enum_from i l) <-> i <= j /\ nth_error l (j - i) = Some x.
Proof.
  induction l as [| y l IH]; intros i j x; simpl.
  - split; [intros [] |]. intros [_ H]. destruct (j - i); discriminate.
  - rewrite IH. split.
    + intros [H | [H1 H2]].
      * injection H as -> ->. rewrite Nat.sub_diag. auto.
      * split; [lia |]. replace (j - i) with (S (j - S i)) by lia. auto.
    + intros [H1 H2]. destruct (Nat.eq_dec i j) as [-> | Hn].
      * left. rewrite Nat.sub_diag in H2. simpl in H2. congruence.
      * right. split; [lia |]. replace (j - i) with (S (j - S i)) in H2 by lia. auto.
Qed.

Lemma enum_snd {A} : forall (l : list A) i, map snd (enum_from i l) = l.
Proof. induction l as [| x l IH]; intros i; simpl; f_equal; auto. Qed.

Lemma all_ret_iff {A B} (g : A -> outcome B) : forall l l',
  all_ret (map g l) = Ret l' <-> Forall2 (fun x y => g x = Ret y) l l'.
Proof.
  induction l as [| x l IH]; intros l'; simpl.
  - split; intros H; [injection H as <-; constructor | now inversion H].
  - destruct (g x) as [y |] eqn:E.
    + destruct (all_ret (map g l)) as [r |] eqn:E2.
      * split; intros H.
        -- injection H as <-. constructor; auto. now apply IH.
        -- inversion H as [| a b c e Hy Hr]; subst. apply IH in Hr. congruence.
      * split; intros H; [discriminate |]. inversion H as [| a b c e Hy Hr]; subst. apply IH in Hr. congruence.
    + split; intros H; [discriminate |]. inversion H as [| a b c e Hy Hr]; subst. congruence.
Qed.

Lemma Forall2_nth {A B} (R : A -> B -> Prop) : forall l l' i x, Forall2 R l l' -> nth_error l i = Some x ->
  exists y, nth_error l' i = Some y /\ R x y.
Proof.
  intros l l' i x H. revert i. induction H as [| a b l l' Hab _ IH]; intros [| i] E; simpl in E; try discriminate.
  - injection E as <-. exists b. auto.
  - now apply IH.
Qed.

Section KD.
  Context {K : Type}.
  Variable eqb : K -> K -> bool.
  Hypothesis eqb_refl : forall a, eqb a a = true.
  Hypothesis eqb_sym : forall a b, eqb a b = eqb b a.

  Lemma kd_app : forall a b, keys_distinct eqb (a ++ b) <->
    keys_distinct eqb a /\ keys_distinct eqb b /\ forall x y, In x a -> In y b -> eqb x y = false.
  Proof.
    induction a as [| k a IH]; intros b; simpl.
    - split; [intros H; repeat split; auto; intros x y [] | tauto].
    - rewrite IH. split.
      + intros (H1 & H2 & H3 & H4). repeat split; auto.
        * intros k' Hk. apply H1, in_or_app. now left.
        * intros x y [<- | Hx] Hy; auto. apply H1, in_or_app. now right.
      + intros ((H1 & H2) & H3 & H4). repeat split; auto.
        intros k' Hk. apply in_app_or in Hk as [Hk | Hk]; auto.
  Qed.

  Lemma kd_NoDup {B} (f : B -> K) (g : B -> text) : forall l,
    keys_distinct eqb (map f l) -> (forall a b, In a l -> In b l -> g a = g b -> f a = f b) -> NoDup (map g l).
  Proof.
    induction l as [| x l IH]; simpl; intros H Hg; [constructor |]. destruct H as [H1 H2]. constructor.
    - intros Hin. apply in_map_iff in Hin as (y & Hy & Hyl).
      assert (f x = f y) as E by (apply Hg; auto).
      assert (eqb (f x) (f y) = false) as E2 by (apply H1, in_map; auto). rewrite E, eqb_refl in E2. discriminate.
    - apply IH; auto.
  Qed.
End KD.

Lemma kd_value : forall l, keys_distinct pyeq l <-> NoDup (map canon l).
Proof.
  induction l as [| v l IH]; simpl.
  - split; [constructor | auto].
  - rewrite NoDup_cons_iff, IH, in_map_iff. unfold pyeq. split; intros [H1 H2]; split; auto.
    + intros (w & E & Hw). specialize (H1 w Hw). destruct (value_eqb (canon v) (canon w)) eqn:Ev; [discriminate |].
      rewrite E in Ev. pose proof (pyeq_refl v) as Hr. unfold pyeq in Hr. congruence.
    + intros w Hw. destruct (value_eqb (canon v) (canon w)) eqn:Ev; auto. exfalso. apply H1. exists w. split; auto.
      symmetry. pose proof (key_pyeq_iff [v] [w]) as Hk. simpl in Hk.
      assert (map canon [v] = map canon [w]) as Hm by (apply Hk; unfold key_pyeq, pyeq; simpl; now rewrite Ev).
      simpl in Hm. congruence.
Qed.

Lemma tv_refl : forall a, tv_eqb a a = true.
Proof. intros [t v]. unfold tv_eqb. simpl. now rewrite String.eqb_refl, pyeq_refl. Qed.
Lemma tv_sym : forall a b, tv_eqb a b = tv_eqb b a.
Proof. intros [t v] [t' v']. unfold tv_eqb. simpl. now rewrite (String.eqb_sym t t'), (pyeq_sym v v'). Qed.
Lemma tv_trans : forall a b c, tv_eqb a b = true -> tv_eqb b c = true -> tv_eqb a c = true.
Proof.
  intros [t v] [t' v'] [t2 v2]. unfold tv_eqb. simpl. rewrite !andb_true_iff, !String.eqb_eq.
  intros [-> H1] [-> H2]. split; auto. eapply pyeq_trans; eauto.
Qed.

Lemma dupdate_app : forall (l acc : renaming), keys_distinct tv_eqb (map fst acc ++ map fst l) ->
  dupdate tv_eqb acc l = acc ++ l.
Proof.
  induction l as [| [k v] l IH]; intros acc H; unfold dupdate; simpl; [now rewrite app_nil_r |].
  apply kd_app in H as (H1 & H2 & H3); auto using tv_sym.
  rewrite dset_absent.
  - fold (dupdate tv_eqb (acc ++ [(k, v)]) l). rewrite IH, <- app_assoc; auto.
    rewrite map_app. simpl in *. rewrite <- app_assoc. apply kd_app. repeat split; simpl; auto; try tauto.
  - apply dget_None. intros k' v' Hin. apply H3; [apply in_map_iff; exists (k', v'); auto | now left].
Qed.

(** ** Specification *)

(** Column [f] of table [t] holds keys of the entity table [e]. *)
Definition refers (sch : schema) (fks : list fk) (ents : list string) (t f e : string) : Prop :=
  In e ents /\
  ((exists g ff, In g fks /\ fk_native g = t /\ fk_foreign g = e /\ In (f, ff) (fk_map g)) \/
   (t = e /\ exists ts, In (t, ts) sch /\ tpk ts = [f])).

(** [v'] is what [v] becomes in column [f] of table [t]. *)
Definition cell_renamed (sch : schema) (fks : list fk) (ents : list string) (ren : list (text * (string * value)))
  (t f : string) (v v' : value) : Prop :=
  (v' = v /\ forall e, ~ refers sch fks ents t f e) \/
  exists e n v0, refers sch fks ents t f e /\ In (n, (e, v0)) ren /\ v' = as_value n /\ pyeq v0 v = true.

Definition row_renamed (sch : schema) (fks : list fk) (ents : list string) (ren : list (text * (string * value)))
  (t : string) (ts : tschema) (a b : rowid * key * row) : Prop :=
  forall f v, cell_in ts (snd (fst a)) (snd a) f v ->
  exists v', cell_in ts (snd (fst b)) (snd b) f v' /\ cell_renamed sch fks ents ren t f v v'.

(** The entity tables that get renamed. *)
Definition renamed_table (sch : schema) (fks : list fk) (skip : list string) (e : string) : Prop :=
  ~ In e skip /\
  (exists ts pkf, In (e, ts) sch /\ tpk ts = [pkf]) /\
  ~ exists g, In g fks /\ fk_native g = e /\ native_one sch g = true /\ foreign_one sch g = true.

Section Facts.
  Variable order : list string -> list string.
  Variable sorted : list value -> outcome (list value).
  Hypothesis order_perm : forall l, Permutation (order l) l.
  Hypothesis sorted_perm : forall l l', sorted l = Ret l' -> Permutation l l'.

  (** ** Prefixes *)

  Lemma mem_str_In : forall x l, mem_str x l = true <-> In x l.
  Proof.
    intros x l. unfold mem_str. rewrite existsb_exists. split.
    - intros (y & H1 & H2). apply String.eqb_eq in H2 as ->. auto.
    - intros H. exists x. split; auto. apply String.eqb_refl.
  Qed.

  Lemma entity_In : forall sch fks e, wf_schema sch -> (In e (entity_tables sch fks) <-> renamed_table sch fks [] e).
  Proof.
    intros sch fks e Hs. unfold entity_tables, renamed_table. rewrite in_map_iff. split.
    - intros ([t ts] & <- & H). apply filter_In in H as [H1 H2]. simpl in *. apply andb_prop in H2 as [H2 H3].
      split; [tauto |]. split.
      + destruct (tpk ts) as [| p [|]] eqn:E; try discriminate. eauto.
      + intros (g & G1 & G2 & G3 & G4). apply negb_true_iff in H3. rewrite <- not_true_iff_false in H3. apply H3.
        apply existsb_exists. exists g. split; auto. now rewrite G2, String.eqb_refl, G3, G4.
    - intros (_ & (ts & pkf & H1 & H2) & H3). exists (e, ts). split; auto. apply filter_In. split; auto. simpl.
      rewrite H2. simpl. apply negb_true_iff, not_true_iff_false. intros H. apply existsb_exists in H as (g & G1 & G2).
      apply andb_prop in G2 as [G2 G4]. apply andb_prop in G2 as [G2 G3]. apply String.eqb_eq in G2. apply H3. exists g. auto.
  Qed.

  Lemma set_of_count : forall l, List.length (set_of text_eqb l) = List.length l -> NoDup l.
  Proof.
    intros l. induction l as [| x l IH] using rev_ind; intros H; [constructor |].
    unfold set_of in H. rewrite fold_left_app in H. simpl in H. fold (set_of text_eqb l) in H. rewrite app_length in H. simpl in H.
    assert (List.length (set_of text_eqb l) <= List.length l) as Hle.
    { clear. induction l as [| x l IH] using rev_ind; simpl; auto. unfold set_of. rewrite fold_left_app. simpl. fold (set_of text_eqb l).
      unfold sadd. rewrite app_length. simpl. destruct (smem _ _ _); [lia |]. rewrite app_length. simpl. lia. }
    unfold sadd in H. destruct (smem text_eqb (set_of text_eqb l) x) eqn:E; [lia |]. rewrite app_length in H. simpl in H.
    apply NoDup_app_intro; [apply IH; lia | constructor; [tauto | constructor] |].
    intros y Hy [<- | []]. rewrite smem_set_of in E; eauto using text_eqb_refl, text_eqb_sym, text_eqb_trans.
    apply not_true_iff_false in E. apply E. apply used_In. auto.
  Qed.

  Lemma good_letters : forall v, good_prepend v = true -> letters v.
  Proof.
    intros v H c Hc. unfold good_prepend in H. apply andb_prop in H as [H _].
    rewrite forallb_forall in H. now apply char_in_In, H.
  Qed.

  Lemma prepends_spec : forall sch fks user skip pre, wf_schema sch -> NoDup (map fst user) ->
    prepends order sch fks user skip = Ret pre ->
    (forall e, In e (map fst pre) <-> renamed_table sch fks skip e) /\
    NoDup (map fst pre) /\ NoDup (map snd pre) /\ (forall t p, In (t, p) pre -> letters p) /\ incl user pre.
  Proof.
    intros sch fks user skip pre Hs Hu H. unfold prepends in H.
    destruct (existsb _ user) eqn:E1; [discriminate |].
    destruct (forallb (fun t => mem_str t (entity_tables sch fks)) skip) eqn:E2; [| discriminate].
    destruct (forallb (fun kv => mem_str (fst kv) _ && good_prepend (snd kv)) user) eqn:E3; [| discriminate].
    destruct (Nat.eqb_spec (List.length (set_of text_eqb (map snd user))) (List.length user)) as [E4 | _]; [| discriminate].
    simpl in H. set (ents' := filter (fun t => negb (mem_str t skip)) (entity_tables sch fks)) in *.
    rewrite forallb_forall in E3.
    assert (NoDup ents') as Hnd.
    { apply NoDup_filter. unfold entity_tables. apply filter_NoDup_map. apply Hs. }
    set (rest := filter (fun t => negb (mem_str t (map fst user))) ents') in *.
    apply assign_spec in H as (A & B & C & D).
    - assert (forall e, In e (map fst pre) <-> In e ents') as Hin.
      { intros e. rewrite A, in_app_iff. rewrite (Permutation_in' eq_refl (order_perm rest)). unfold rest. rewrite filter_In.
        rewrite negb_true_iff, <- not_true_iff_false, mem_str_In. split.
        - intros [Hin | [Hin _]]; auto. apply in_map_iff in Hin as (kv & <- & Hkv). apply E3 in Hkv.
          apply andb_prop in Hkv as [Hkv _]. now apply mem_str_In.
        - intros Hin. destruct (in_dec string_dec e (map fst user)); auto. }
      split; [| split; [| split; [| split]]]; auto.
      + intros e. rewrite Hin. unfold ents'. rewrite filter_In, (entity_In sch fks e Hs).
        rewrite negb_true_iff, <- not_true_iff_false, mem_str_In. unfold renamed_table. simpl. tauto.
      + rewrite A. apply NoDup_app_intro; auto.
        * apply (Permutation_NoDup (Permutation_sym (order_perm rest))). now apply NoDup_filter.
        * intros x Hx Hr. apply (Permutation_in _ (order_perm rest)) in Hr. unfold rest in Hr. apply filter_In in Hr as [_ Hr].
          apply negb_true_iff in Hr. rewrite (proj2 (mem_str_In _ _) Hx) in Hr. discriminate.
    - apply NoDup_app_intro; auto.
      + apply (Permutation_NoDup (Permutation_sym (order_perm rest))). now apply NoDup_filter.
      + intros x Hx Hr. apply (Permutation_in _ (order_perm rest)) in Hr. unfold rest in Hr. apply filter_In in Hr as [_ Hr].
        apply negb_true_iff in Hr. rewrite (proj2 (mem_str_In _ _) Hx) in Hr. discriminate.
    - apply set_of_count. now rewrite E4, map_length.
    - intros t p Hin. apply E3 in Hin. apply andb_prop in Hin as [_ Hin]. now apply good_letters.
  Qed.

  (** ** Renamings *)

  Definition entries_for (t : string) (p : text) (ks : list value) : renaming :=
    map (fun ik => ((t, snd ik), new_name p (fst ik + 1))) (enum_from 0 ks).

  Lemma entries_for_In : forall t p ks t' v n, In ((t', v), n) (entries_for t p ks) <->
    t' = t /\ exists i, nth_error ks i = Some v /\ n = new_name p (i + 1).
  Proof.
    intros t p ks t' v n. unfold entries_for. rewrite in_map_iff. split.
    - intros ([i x] & E & H). apply In_enum in H as [_ H]. rewrite Nat.sub_0_r in H. simpl in E. injection E as <- <- <-.
      split; eauto.
    - intros (-> & i & H1 & ->). exists (i, v). split; auto. apply In_enum. rewrite Nat.sub_0_r. auto with arith.
  Qed.

  Lemma entries_for_kd : forall t p ks, NoDup (map canon ks) -> keys_distinct tv_eqb (map fst (entries_for t p ks)).
  Proof.
    intros t p ks H. apply kd_value in H. unfold entries_for. rewrite map_map. simpl.
    rewrite <- (map_map snd (fun v => (t, v))), enum_snd.
    induction ks as [| v ks IH]; simpl in *; auto. destruct H as [H1 H2]. split; auto.
    intros k Hk. apply in_map_iff in Hk as (w & <- & Hw). unfold tv_eqb. simpl. rewrite String.eqb_refl. simpl. auto.
  Qed.

  Lemma rr_spec : forall d pre acc rev, NoDup (map fst pre) ->
    (forall t p, In (t, p) pre -> NoDup (map canon (entity_keys (d t)))) ->
    keys_distinct tv_eqb (map fst acc) ->
    (forall t v n, In ((t, v), n) acc -> ~ In t (map fst pre)) ->
    reverse_renamings sorted d pre acc = Ret rev ->
    keys_distinct tv_eqb (map fst rev) /\
    (forall t v n, In ((t, v), n) rev <-> In ((t, v), n) acc \/
       exists p ks i, In (t, p) pre /\ sorted (entity_keys (d t)) = Ret ks /\ nth_error ks i = Some v /\ n = new_name p (i + 1)).
  Proof.
    intros d. induction pre as [| [t p] pre IH]; intros acc rev Hnd Hk Hkd Hacc H; simpl in H.
    - injection H as <-. split; auto. intros t v n. split; auto. intros [H | (p & ks & i & [] & _)]. auto.
    - destruct (sorted (entity_keys (d t))) as [ks |] eqn:Es; [| discriminate].
      assert (NoDup (map canon ks)) as Hks.
      { apply sorted_perm in Es. apply (Permutation_NoDup (Permutation_map canon Es)). apply (Hk t p). now left. }
      inversion Hnd as [| x y Hn Hnd']; subst.
      assert (fold_left (fun a ik => dset tv_eqb a (t, snd ik) (new_name p (fst ik + 1))) (enum_from 0 ks) acc =
              acc ++ entries_for t p ks) as E.
      { rewrite <- dupdate_app.
        - unfold dupdate, entries_for. now rewrite fold_left_map.
        - apply kd_app; auto using tv_sym. split; auto. split; [now apply entries_for_kd |].
          intros [t1 v1] [t2 v2] H1 H2. apply in_map_iff in H1 as ([x1 n1] & E1 & H1). apply in_map_iff in H2 as ([x2 n2] & E2 & H2).
          simpl in E1, E2. subst x1 x2. apply entries_for_In in H2 as (-> & _). apply Hacc in H1.
          unfold tv_eqb. simpl. destruct (String.eqb_spec t1 t) as [-> |]; auto. exfalso. apply H1. now left. }
      rewrite E in H. apply IH in H as [A B]; auto.
      + split; auto. intros t' v n. rewrite B, in_app_iff, entries_for_In. split.
        * intros [[Hin | (-> & i & H1 & H2)] | (q & ks' & i & H1 & H2)]; auto.
          -- right. exists p, ks, i. split; [now left |]. auto.
          -- right. exists q, ks', i. split; [now right |]. auto.
        * intros [Hin | (q & ks' & i & [H1 | H1] & H2 & H3 & H4)]; auto.
          -- injection H1 as <- <-. rewrite Es in H2. injection H2 as <-. left. right. split; auto. exists i. auto.
          -- right. exists q, ks', i. auto.
      + intros t' q Hin. apply (Hk t' q). now right.
      + rewrite map_app. apply kd_app; auto using tv_sym. split; auto. split; [now apply entries_for_kd |].
        intros [t1 v1] [t2 v2] H1 H2. apply in_map_iff in H1 as ([x1 n1] & E1 & H1). apply in_map_iff in H2 as ([x2 n2] & E2 & H2).
        simpl in E1, E2. subst x1 x2. apply entries_for_In in H2 as (-> & _). apply Hacc in H1.
        unfold tv_eqb. simpl. destruct (String.eqb_spec t1 t) as [-> |]; auto. exfalso. apply H1. now left.
      + intros t' v n Hin. apply in_app_or in Hin as [Hin | Hin].
        * apply Hacc in Hin. intros Hc. apply Hin. now right.
        * apply entries_for_In in Hin as (-> & _). auto.
  Qed.

  (** The keys of a well-formed one-field-key table. *)
  Lemma entity_keys_In : forall ts tb v, wf_table ts tb -> (exists pkf, tpk ts = [pkf]) ->
    (In v (entity_keys tb) <-> exists rid r, row_in tb rid [v] r).
  Proof.
    intros ts tb v Hw (pkf & Hp). destruct tb as [l | l]; simpl in Hw.
    - destruct Hw as (_ & _ & Hl). simpl. rewrite in_map_iff. split.
      + intros ([k r] & E & Hin). destruct (Hl _ _ Hin) as [Hk _]. rewrite Hp in Hk. simpl in *.
        destruct k as [| w [|]]; try discriminate. simpl in E. subst w. exists (RPk [v]), r. auto.
      + intros (rid & r & Hin & _). exists ([v], r). auto.
    - destruct Hw as [Hw _]. congruence.
  Qed.

  Lemma entity_keys_distinct : forall ts tb, wf_table ts tb -> (exists pkf, tpk ts = [pkf]) ->
    NoDup (map canon (entity_keys tb)).
  Proof.
    intros ts tb Hw (pkf & Hp). destruct tb as [l | l]; simpl in Hw; [| constructor].
    destruct Hw as (_ & Hd & Hl). unfold distinct_keys in Hd. simpl. rewrite map_map.
    assert (forall kr, In kr l -> map canon (fst kr) = [canon (hd VNone (fst kr))]) as Hs.
    { intros [k r] Hin. destruct (Hl _ _ Hin) as [Hk _]. rewrite Hp in Hk. destruct k as [| w [|]]; try discriminate. reflexivity. }
    rewrite map_map in Hd. clear Hl.
    induction l as [| kr l IH]; simpl in *; [constructor |]. inversion Hd as [| x y Hn Hd']; subst. constructor.
    - intros Hin. apply Hn. apply in_map_iff in Hin as (kr' & E & Hin). apply in_map_iff. exists kr'. split; auto.
      rewrite (Hs kr'), (Hs kr) by auto. f_equal. exact E.
    - apply IH; auto.
  Qed.

  Definition bijective_renaming (sch : schema) (fks : list fk) (skip : list string) (d : dat)
    (rev : renaming) : Prop :=
    (** no two entities get the same name *)
    (forall a n b m, In (a, n) rev -> In (b, m) rev -> (n = m <-> tv_eqb a b = true)) /\
    NoDup (map snd rev) /\
    (** exactly the keys of the entity tables are named *)
    (forall e v n, In ((e, v), n) rev -> renamed_table sch fks skip e /\ exists rid r, row_in (d e) rid [v] r) /\
    (forall e rid v r, renamed_table sch fks skip e -> row_in (d e) rid [v] r -> exists n, In ((e, v), n) rev).

  Theorem renaming_bijective : forall sch fks user skip d pre rev,
    wf_schema sch -> wf_dat sch d -> NoDup (map fst user) ->
    prepends order sch fks user skip = Ret pre -> reverse_renamings sorted d pre [] = Ret rev ->
    bijective_renaming sch fks skip d rev /\ keys_distinct tv_eqb (map fst rev).
  Proof.
    intros sch fks user skip d pre rev Hs Hd Hu Hp Hr.
    apply prepends_spec in Hp as (P1 & P2 & P3 & P4 & _); auto.
    assert (forall e, In e (map fst pre) -> exists ts, In (e, ts) sch /\ exists pkf, tpk ts = [pkf]) as Hent.
    { intros e He. apply P1 in He as (_ & (ts & pkf & H1 & H2) & _). eauto. }
    pose proof Hr as Hr0. apply rr_spec in Hr as [Hkd HIn]; auto; simpl; auto.
    2:{ intros t p Hin. destruct (Hent t) as (ts & H1 & H2); [now apply (in_map fst) in Hin |].
        eapply entity_keys_distinct; eauto. }
    assert (forall a n b m, In (a, n) rev -> In (b, m) rev -> n = m -> a = b) as Hinj.
    { intros [t v] n [t' v'] m H1 H2 E. apply HIn in H1 as [[] | (p & ks & i & A1 & A2 & A3 & A4)].
      apply HIn in H2 as [[] | (p' & ks' & i' & B1 & B2 & B3 & B4)]. subst n m.
      apply new_name_inj in E as [-> E]; eauto. assert (i = i') as -> by lia.
      assert ((t, p') = (t', p')) as Et by (apply (NoDup_map_inj_in snd pre); auto). injection Et as ->. congruence. }
    split; auto. unfold bijective_renaming. split; [| split; [| split]].
    - intros a n b m H1 H2. split.
      + intros E. rewrite (Hinj _ _ _ _ H1 H2 E). apply tv_refl.
      + intros E. apply (In_dget tv_eqb tv_refl) in H1, H2; auto.
        rewrite (dget_cong tv_eqb tv_sym tv_trans rev a b) in H1 by auto. congruence.
    - apply (kd_NoDup tv_eqb tv_refl fst snd); auto. intros [a n] [b m] H1 H2 E. simpl in *. eauto.
    - intros e v n Hin. apply HIn in Hin as [[] | (p & ks & i & A1 & A2 & A3 & A4)].
      apply (in_map fst) in A1. simpl in A1. split; [now apply P1 |]. destruct (Hent e A1) as (ts & H1 & H2).
      apply (entity_keys_In ts); eauto. apply sorted_perm in A2. apply (Permutation_in _ (Permutation_sym A2)).
      eapply nth_error_In; eauto.
    - intros e rid v r He Hrow. apply P1 in He. pose proof He as He'. apply Hent in He' as (ts & H1 & H2).
      apply in_map_iff in He as ([e' p] & E & He). simpl in E. subst e'.
      assert (In v (entity_keys (d e))) as Hv by (apply (entity_keys_In ts); eauto).
      destruct (sorted (entity_keys (d e))) as [ks |] eqn:Es.
      + apply (Permutation_in _ (sorted_perm _ _ Es)) in Hv. apply In_nth_error in Hv as (i & Hi).
        exists (new_name p (i + 1)). apply HIn. right. exists p, ks, i. auto.
      + exfalso. revert Hr0 He Es. clear. generalize (@nil ((string * value) * text)).
        induction pre as [| [t q] pre IH]; intros acc Hr He Es; simpl in Hr; [destruct He |].
        destruct He as [E | He].
        * injection E as -> ->. now rewrite Es in Hr.
        * destruct (sorted (entity_keys (d t))); [| discriminate]. eapply IH; eauto.
  Qed.
End Facts.
