(** * Facts about the dictionaries of foreign key failures. *)
From Coq Require Import ZArith Bool List String Arith Lia Sorted.
From Verif Require Import PyVal PyValFacts PyDict PyDictFacts ListFacts Data FindTypes FindTypesFacts Report FK FKFacts
  Factory InfIO PanFKFacts FkReport.
Import ListNotations.
Local Open Scope string_scope.
Local Open Scope list_scope.

(** ** Specification vocabulary *)

(** The plain tuple that stands for a foreign key. *)
Definition stands_for (p : lowkey) (k : fk) : Prop :=
  fst (fst p) = fk_native k /\ snd (fst p) = fk_foreign k /\
  match snd p with
  | LOne n f => fk_map k = [(n, f)]
  | LMany m => fk_map k = m /\ List.length m <> 1
  end.

(** [rows] are the rows of [all] at the positions that satisfy [P], in order. *)
Definition picked (P : nat -> Prop) (all rows : list row) : Prop :=
  exists idx, StronglySorted lt idx /\ (forall i, In i idx <-> P i) /\ map (nth_error all) idx = map Some rows.

(** ** Keys *)

Lemma pairs_eqb_eq : forall l m, list_eqb pair_eqb l m = true <-> l = m.
Proof. apply list_eqb_eq. intros [a b] [a' b']. unfold pair_eqb, tf_eqb. simpl. rewrite andb_true_iff, !String.eqb_eq. split; [intros [-> ->]; auto | intros E; injection E; auto]. Qed.

Lemma low_eqb_eq : forall a b, low_eqb a b = true <-> a = b.
Proof.
  intros [[n f] m] [[n' f'] m']. unfold low_eqb. cbn [fst snd]. rewrite !andb_true_iff, !String.eqb_eq.
  destruct m as [x y | l], m' as [x' y' | l'].
  - rewrite andb_true_iff, !String.eqb_eq. split; [intros [[-> ->] [-> ->]]; auto | intros E; injection E; auto].
  - split; [intros [_ H]; discriminate | intros E; discriminate].
  - split; [intros [_ H]; discriminate | intros E; discriminate].
  - rewrite pairs_eqb_eq. split; [intros [[-> ->] ->]; auto | intros E; injection E; auto].
Qed.

Lemma low_key_stands : forall k, stands_for (low_key k) k.
Proof.
  intros [n f m]. unfold stands_for, low_key. simpl. repeat split. destruct m as [| [a b] [| p m]]; simpl; auto.
Qed.

Lemma stands_inj : forall p k k', stands_for p k -> stands_for p k' -> k = k'.
Proof.
  intros [[a b] m] [n f l] [n' f' l'] (A & B & C) (A' & B' & C'). simpl in *. subst. destruct m; [| destruct C, C']; congruence.
Qed.

Lemma low_key_inj : forall k k', low_key k = low_key k' -> k = k'.
Proof. intros k k' H. apply (stands_inj (low_key k)); [| rewrite H]; apply low_key_stands. Qed.

(** ** Low and High *)

Lemma low_dict : forall V (rep : list (fk * V)), NoDup (map fst rep) ->
  dict_of low_eqb (map (fun kv => (low_key (fst kv), snd kv)) rep) = map (fun kv => (low_key (fst kv), snd kv)) rep /\
  NoDup (map fst (map (fun kv : fk * V => (low_key (fst kv), snd kv)) rep)).
Proof.
  intros V rep Hn.
  assert (NoDup (map fst (map (fun kv : fk * V => (low_key (fst kv), snd kv)) rep))) as Hl.
  { rewrite map_map. cbn [fst]. rewrite <- (map_map fst low_key). apply FinFun.Injective_map_NoDup; auto. exact low_key_inj. }
  split; auto. apply dict_of_distinct. now apply (keys_distinct_NoDup low_eqb low_eqb_eq).
Qed.

Lemma verbose_spec : forall V verbosity (rep : list (fk * V)), NoDup (map fst rep) ->
  (verbosity = "High" -> verbose verbosity rep = Ret (ByKey rep)) /\
  (verbosity = "Low" -> exists l, verbose verbosity rep = Ret (ByTuple l) /\ NoDup (map fst l) /\
     Forall2 (fun kv pv => stands_for (fst pv) (fst kv) /\ snd pv = snd kv) rep l) /\
  (verbosity <> "High" -> verbosity <> "Low" -> verbose verbosity rep = Raise).
Proof.
  intros V verbosity rep Hn. unfold verbose. split; [| split].
  - now intros ->.
  - intros ->. destruct (low_dict V rep Hn) as [E Hl]. simpl. eexists. split; [reflexivity |]. rewrite E. split; auto.
    clear. induction rep as [| [k v] rep IH]; simpl; constructor; auto. simpl. split; auto. apply low_key_stands.
  - intros A B. apply String.eqb_neq in A, B. now rewrite A, B.
Qed.

(** A positive bound is infinite or rounds up to a number of failures. *)
Lemma bound_cases : forall mx, num_ltb (of_int 0) mx = true -> mx = PInf \/ exists n, rounds_up mx n.
Proof.
  intros [| z |] H; [discriminate | right | now left]. unfold of_int in H. simpl in H. apply Z.ltb_lt in H.
  pose proof one_units_pos as Hu. exists (Z.to_nat ((z + one_units - 1) / one_units)). unfold rounds_up, num_leb, of_int.
  set (q := ((z + one_units - 1) / one_units)%Z).
  assert (0 <= q)%Z as Hq by (apply Z.div_pos; lia).
  pose proof (Z.div_mod (z + one_units - 1) one_units ltac:(lia)) as Hd. fold q in Hd.
  pose proof (Z.mod_pos_bound (z + one_units - 1) one_units Hu) as Hm.
  split.
  - rewrite Z2Nat.id by auto. simpl. apply negb_true_iff, Z.ltb_ge. nia.
  - intros m Hle. simpl in Hle. apply negb_true_iff, Z.ltb_ge in Hle. apply Nat2Z.inj_le. rewrite Z2Nat.id by auto.
    assert (q * one_units < (Z.of_nat m + 1) * one_units)%Z by nia. nia.
Qed.

Lemma tic_keys : forall sch fks d mx rep, find_foreign_key_failures sch fks d mx = Some rep -> NoDup (map fst rep).
Proof.
  intros sch fks d mx rep H. destruct (num_ltb (of_int 0) mx) eqn:E.
  - destruct (bound_cases mx E) as [-> | [n Hn]].
    + rewrite find_fks_all in H. injection H as <-. apply (greport_of_keys_NoDup fk_eqb fk_eqb_eq).
    + rewrite (find_fks_bounded _ _ _ _ n) in H by auto. injection H as <-. apply (greport_of_keys_NoDup fk_eqb fk_eqb_eq).
  - unfold find_foreign_key_failures in H. rewrite E in H. discriminate.
Qed.

Lemma pan_keys_in : forall sch d mx fks c k, In k (map fst (pan_find_bounded sch fks d mx c)) -> In k fks.
Proof.
  intros sch d mx. induction fks as [| f fks IH]; intros c k; simpl; [tauto |].
  destruct (existsb _ _); [| intros H; right; eauto]. destruct (pan_flags _ _ _ _) as [fl c'].
  destruct (num_leb _ _); simpl; [tauto |]. intros [<- | H]; [now left | right; eauto].
Qed.

Lemma pan_keys : forall sch d mx fks c, NoDup fks -> NoDup (map fst (pan_find_bounded sch fks d mx c)).
Proof.
  intros sch d mx. induction fks as [| f fks IH]; intros c Hn; simpl; [constructor |].
  inversion Hn as [| ? ? Hf Hn']; subst. destruct (existsb _ _); auto. destruct (pan_flags _ _ _ _) as [fl c'].
  destruct (num_leb _ _); simpl; [constructor; [tauto | constructor] |]. constructor; auto.
  intros H. apply Hf. eapply pan_keys_in; eauto.
Qed.

(** The two dictionaries hold the same entries. *)
Definition same_entries {V} (high low : outcome (fkdict V)) : Prop :=
  exists h l, high = Ret (ByKey h) /\ low = Ret (ByTuple l) /\ NoDup (map fst h) /\ NoDup (map fst l) /\
    Forall2 (fun kv pv => stands_for (fst pv) (fst kv) /\ snd pv = snd kv) h l.

Theorem tic_low : forall sch fks d mx, num_ltb (of_int 0) mx = true ->
  same_entries (tic_fk_report sch fks d "High" mx) (tic_fk_report sch fks d "Low" mx).
Proof.
  intros sch fks d mx Hm. unfold tic_fk_report. destruct (find_foreign_key_failures sch fks d mx) as [rep |] eqn:E.
  - pose proof (tic_keys _ _ _ _ _ E) as Hn. destruct (verbose_spec _ "High" rep Hn) as [A _].
    destruct (verbose_spec _ "Low" rep Hn) as (_ & B & _). destruct (B eq_refl) as (l & Hl & Hnl & Hf).
    exists rep, l. rewrite (A eq_refl), Hl. auto.
  - unfold find_foreign_key_failures in E. rewrite Hm in E. discriminate.
Qed.

Theorem pan_low : forall sch fks d tb mx, NoDup fks -> num_ltb (of_int 0) mx = true ->
  same_entries (pan_fk_report sch fks d "High" tb mx) (pan_fk_report sch fks d "Low" tb mx).
Proof.
  intros sch fks d tb mx Hnf Hm. unfold pan_fk_report. rewrite Hm.
  match goal with |- same_entries (verbose _ ?r) _ => set (rep := r) end.
  assert (NoDup (map fst rep)) as Hn by (unfold rep; rewrite map_map; cbn [fst]; now apply pan_keys).
  destruct (verbose_spec _ "High" rep Hn) as [A _]. destruct (verbose_spec _ "Low" rep Hn) as (_ & B & _).
  destruct (B eq_refl) as (l & Hl & Hnl & Hf). exists rep, l. rewrite (A eq_refl), Hl. auto.
Qed.

Theorem tic_raises : forall sch fks d verbosity mx, tic_fk_report sch fks d verbosity mx = Raise <->
  (verbosity <> "High" /\ verbosity <> "Low") \/ num_ltb (of_int 0) mx = false.
Proof.
  intros. unfold tic_fk_report, find_foreign_key_failures, verbose. destruct (num_ltb (of_int 0) mx).
  2:{ split; auto. }
  destruct (String.eqb verbosity "High") eqn:A; [| destruct (String.eqb verbosity "Low") eqn:B].
  - apply String.eqb_eq in A. split; [discriminate | intros [[? _] | ?]; congruence].
  - apply String.eqb_eq in B. split; [discriminate | intros [[_ ?] | ?]; congruence].
  - apply String.eqb_neq in A, B. tauto.
Qed.

Theorem pan_raises : forall sch fks d verbosity tb mx, pan_fk_report sch fks d verbosity tb mx = Raise <->
  (verbosity <> "High" /\ verbosity <> "Low") \/ num_ltb (of_int 0) mx = false.
Proof.
  intros. unfold pan_fk_report, verbose. destruct (num_ltb (of_int 0) mx).
  2:{ split; auto. }
  destruct (String.eqb verbosity "High") eqn:A; [| destruct (String.eqb verbosity "Low") eqn:B].
  - apply String.eqb_eq in A. split; [discriminate | intros [[? _] | ?]; congruence].
  - apply String.eqb_eq in B. split; [discriminate | intros [[_ ?] | ?]; congruence].
  - apply String.eqb_neq in A, B. tauto.
Qed.

(** ** Rows and booleans *)

Lemma rows_where_at : forall flags rows s, List.length flags = List.length rows ->
  exists idx, StronglySorted lt idx /\ (forall i, In i idx <-> s <= i /\ nth_error flags (i - s) = Some true) /\
    map (fun i => nth_error rows (i - s)) idx = map Some (rows_where flags rows).
Proof.
  induction flags as [| b flags IH]; intros [| r rows] s H; simpl in H; try lia.
  - exists []. split; [constructor |]. split; [| reflexivity]. intros i. split; [intros [] |].
    intros [_ H']. destruct (i - s); discriminate.
  - destruct (IH rows (S s) ltac:(lia)) as (idx & Hs & Hi & Hm).
    assert (forall i, In i idx -> i - s = S (i - S s)) as Hsh by (intros i Hin; apply Hi in Hin; lia).
    assert (map (fun i => nth_error (r :: rows) (i - s)) idx = map Some (rows_where flags rows)) as Hm'.
    { rewrite <- Hm. apply map_ext_in. intros i Hin. now rewrite (Hsh i Hin). }
    assert (forall i, s < i -> (In i idx <-> nth_error (b :: flags) (i - s) = Some true)) as Hi'.
    { intros i Hlt. rewrite Hi. replace (i - s) with (S (i - S s)) by lia. cbn [nth_error]. split; [tauto | intros; split; [lia | assumption]]. }
    destruct b.
    + exists (s :: idx). split; [constructor; auto; apply Forall_forall; intros i Hin; apply Hi in Hin; lia |]. split.
      * intros i. destruct (Nat.eq_dec s i) as [<- | Hne].
        -- rewrite Nat.sub_diag. cbn [In nth_error]. split; [intros; split; auto | intros; now left].
        -- simpl. split.
           ++ intros [E | Hin]; [congruence |]. pose proof Hin as Hg. apply Hi in Hg. split; [lia |]. apply Hi'; [lia | auto].
           ++ intros [Hle Hx]. right. apply Hi'; [lia | exact Hx].
      * simpl. rewrite Nat.sub_diag. simpl. f_equal. exact Hm'.
    + exists idx. split; auto. split; [| exact Hm']. intros i. split.
      * intros Hin. pose proof Hin as Hg. apply Hi in Hg. split; [lia |]. apply Hi'; [lia | auto].
      * intros [Hle Hx]. destruct (Nat.eq_dec s i) as [<- | Hne].
        -- rewrite Nat.sub_diag in Hx. discriminate.
        -- apply Hi'; [lia | exact Hx].
Qed.

Lemma rows_where_picked : forall flags rows, List.length flags = List.length rows ->
  picked (fun i => nth_error flags i = Some true) rows (rows_where flags rows).
Proof.
  intros flags rows H. destruct (rows_where_at flags rows 0 H) as (idx & A & B & C). exists idx. split; auto. split.
  - intros i. rewrite B, Nat.sub_0_r. split; [tauto |]. intros. split; [lia | auto].
  - rewrite <- C. apply map_ext. intros i. now rewrite Nat.sub_0_r.
Qed.

Lemma pan_flags_length : forall mx bad c tr, List.length (fst (pan_flags mx bad c tr)) = List.length bad.
Proof.
  intros mx. induction bad as [| b bad IH]; intros c tr; auto. cbn [pan_flags]. destruct tr; [| destruct b].
  - specialize (IH c true). destruct (pan_flags mx bad c true). simpl in *. congruence.
  - specialize (IH (S c) (num_leb mx (of_int (Z.of_nat (S c))))). destruct (pan_flags mx bad (S c) _). simpl in *. congruence.
  - specialize (IH c false). destruct (pan_flags mx bad c false). simpl in *. congruence.
Qed.

Lemma bounded_length : forall sch d mx fks c f flags, In (f, flags) (pan_find_bounded sch fks d mx c) ->
  List.length flags = List.length (d (fk_native f)).
Proof.
  intros sch d mx. induction fks as [| g fks IH]; intros c f flags; simpl; [tauto |].
  destruct (existsb _ _); [| apply IH]. pose proof (pan_flags_length mx (map (pan_fails sch d g) (d (fk_native g))) c false) as Hl.
  destruct (pan_flags _ _ _ _) as [fl c']. simpl in Hl. rewrite map_length in Hl.
  destruct (num_leb _ _); simpl.
  - intros [E | []]. injection E as <- <-. auto.
  - intros [E | H]; [injection E as <- <-; auto | eapply IH; eauto].
Qed.

(** With and without [as_table]: the rows are those at the flagged positions. *)
Theorem table_and_flags : forall sch fks d mx, num_ltb (of_int 0) mx = true ->
  exists tb fl, pan_fk_report sch fks d "High" true mx = Ret (ByKey tb) /\
    pan_fk_report sch fks d "High" false mx = Ret (ByKey fl) /\
    Forall2 (fun a b => fst a = fst b /\ exists rows flags, snd a = TheRows rows /\ snd b = TheFlags flags /\
      List.length flags = List.length (d (fk_native (fst a))) /\
      picked (fun i => nth_error flags i = Some true) (d (fk_native (fst a))) rows) tb fl.
Proof.
  intros sch fks d mx Hm. unfold pan_fk_report. rewrite Hm. do 2 eexists. split; [reflexivity |]. split; [reflexivity |].
  pose proof (bounded_length sch d mx fks 0) as Hl.
  induction (pan_find_bounded sch fks d mx 0) as [| [f flags] l IH]; simpl; constructor.
  - simpl. split; auto. do 2 eexists. split; [reflexivity |]. split; [reflexivity |].
    assert (List.length flags = List.length (d (fk_native f))) as E by (apply Hl; now left).
    split; auto. now apply rows_where_picked.
  - apply IH. intros. apply Hl. now right.
Qed.

(** Without a bound the rows are those without a parent. *)
Theorem rows_without_parent : forall sch fks d, wf_schema sch -> wf_pdat sch d -> good_pan_fks sch fks -> NoDup fks ->
  exists rep, pan_fk_report sch fks d "High" true PInf = Ret (ByKey rep) /\
    (forall f, In f (map fst rep) <-> In f fks /\ exists i, orphan (pan_schema sch) (as_dat d) f (RIdx i)) /\
    (forall f v, In (f, v) rep -> exists rows, v = TheRows rows /\
       picked (fun i => orphan (pan_schema sch) (as_dat d) f (RIdx i)) (d (fk_native f)) rows).
Proof.
  intros sch fks d Hs Hd Hg Hn. destruct (pan_find_exact sch fks d Hs Hd Hg) as [He Hl].
  unfold pan_fk_report. cbn [num_ltb of_int]. eexists. split; [reflexivity |]. rewrite pan_find_unbounded. rewrite map_map. cbn [fst].
  assert (forall f fl fl', In (f, fl) (pan_find sch fks d) -> In (f, fl') (pan_find sch fks d) -> fl = fl') as Huniq.
  { intros f fl fl' A B. apply filter_In in A as [A _], B as [B _]. apply in_map_iff in A as (g & E & _), B as (g' & E' & _).
    injection E as -> <-. injection E' as -> <-. reflexivity. }
  split.
  - intros f. rewrite in_map_iff. split.
    + intros ([f' fl] & E & Hin). simpl in E. subst f'. destruct (Hl _ _ Hin) as [_ Ht]. apply In_nth_error in Ht as [i Hi].
      destruct (proj1 (He f i)) as [A B]; [exists fl; auto |]. eauto.
    + intros [Hin [i Hi]]. destruct (proj2 (He f i) (conj Hin Hi)) as (fl & A & _). exists (f, fl). auto.
  - intros f v Hin. apply in_map_iff in Hin as ([f' fl] & E & Hin). injection E as -> <-. eexists. split; [reflexivity |]. cbn [snd].
    destruct (Hl _ _ Hin) as [Hlen _]. destruct (rows_where_picked fl (d (fk_native f)) Hlen) as (idx & A & B & C).
    exists idx. split; auto. split; auto. intros i. rewrite B.
    split.
    + intros Hi. apply He. exists fl. auto.
    + intros Ho. assert (In f fks) as Hf.
      { apply filter_In in Hin as [Hin _]. apply in_map_iff in Hin as (g & E & Hg'). injection E as -> _. auto. }
      destruct (proj2 (He f i) (conj Hf Ho)) as (fl' & H1 & H2). now rewrite (Huniq _ _ _ Hin H1).
Qed.
