(** * Specification and correctness of the data type checks. *)
From Coq Require Import ZArith Bool List String Arith Lia FinFun.
From Verif Require Import PyVal PyValFacts PyDict PyDictFacts ListFacts TypeDict TypeDictFacts Data FindTypes.
Import ListNotations.

(** ** Specification *)

(** Row [r] with key [k] is the row called [rid] of the table. *)
Definition row_in (tb : table) (rid : rowid) (k : key) (r : row) : Prop :=
  match tb with
  | Keyed l => In (k, r) l /\ rid = RPk k
  | Listed l => k = [] /\ exists i, nth_error l i = Some r /\ rid = RIdx i
  end.

(** The cell of field [f] in a row: same position among the fields and
    among the values. *)
Definition cell_in (ts : tschema) (k : key) (r : row) (f : string) (v : value) : Prop :=
  exists i, nth_error (tpk ts ++ tdf ts) i = Some f /\ nth_error (k ++ r) i = Some v.

(** [f] of table [t] was given type [dt]. *)
Definition declared (tys : types) (t f : string) (dt : dtype) : Prop :=
  exists fs, In (t, fs) tys /\ In (f, dt) fs.

(** The type enforced on (t, f): the declared one, or the implicit key filter
    for undeclared primary key fields. *)
Definition enforced (sch : schema) (tys : types) (t f : string) (dt : dtype) : Prop :=
  declared tys t f dt \/
  ((forall dt', ~ declared tys t f dt') /\
   (exists ts, In (t, ts) sch /\ In f (tpk ts)) /\ dt = nonnull_type).

Definition wf_types (sch : schema) (tys : types) : Prop :=
  NoDup (map fst tys) /\
  forall t fs, In (t, fs) tys ->
    NoDup (map fst fs) /\
    exists ts, In (t, ts) sch /\ forall f dt, In (f, dt) fs -> In f (tpk ts ++ tdf ts).

(** Cell (t, rid, f) holds [v], which its type does not accept. *)
Definition failing (parses : value -> bool) (sch : schema) (tys : types) (d : dat)
  (t f : string) (rid : rowid) (v : value) : Prop :=
  exists ts k r dt,
    In (t, ts) sch /\ row_in (d t) rid k r /\ cell_in ts k r f v /\
    enforced sch tys t f dt /\ valid_data parses dt v = false.

(** The report mentions row [rid] / value [v] under (t, f). *)
Definition reports_row (rep : treport) (t f : string) (rid : rowid) : Prop :=
  exists vals rids, In ((t, f), (vals, rids)) rep /\ In rid rids.
Definition reports_value (rep : treport) (t f : string) (v : value) : Prop :=
  exists vals rids, In ((t, f), (vals, rids)) rep /\ In v vals.

(** Number of failing cells listed. *)
Definition listed_cells (rep : treport) : nat :=
  list_sum (map (fun e => List.length (snd (snd e))) rep).

(** ** Small equality lemmas *)

Lemma string_eqb_sym' : forall a b, String.eqb a b = String.eqb b a.
Proof. exact String.eqb_sym. Qed.

Lemma string_eqb_trans : forall a b c,
  String.eqb a b = true -> String.eqb b c = true -> String.eqb a c = true.
Proof. intros a b c. rewrite !String.eqb_eq. congruence. Qed.

Lemma tf_eqb_eq : forall a b, tf_eqb a b = true <-> a = b.
Proof.
  intros [a1 a2] [b1 b2]. unfold tf_eqb. simpl. rewrite andb_true_iff, !String.eqb_eq.
  split; [intros [-> ->]; auto | intros H; injection H; auto].
Qed.

Lemma tf_eqb_refl : forall a, tf_eqb a a = true.
Proof. intros a. now apply tf_eqb_eq. Qed.

Lemma tf_eqb_sym : forall a b, tf_eqb a b = tf_eqb b a.
Proof. intros a b. apply eq_true_iff_eq. rewrite !tf_eqb_eq. split; auto. Qed.

Lemma tf_eqb_trans : forall a b c, tf_eqb a b = true -> tf_eqb b c = true -> tf_eqb a c = true.
Proof. intros a b c. rewrite !tf_eqb_eq. congruence. Qed.

(** Canonical form of a row identifier. *)
Definition rid_canon (r : rowid) : rowid :=
  match r with RPk k => RPk (map canon k) | RIdx i => RIdx i end.

Lemma rowid_pyeq_iff : forall a b, rowid_pyeq a b = true <-> rid_canon a = rid_canon b.
Proof.
  intros [k | i] [k' | j]; simpl; split; intros H; try discriminate.
  - apply key_pyeq_iff in H. now rewrite H.
  - injection H as H. now apply key_pyeq_iff.
  - apply Nat.eqb_eq in H. now subst.
  - injection H as ->. apply Nat.eqb_refl.
Qed.

Lemma rowid_pyeq_refl : forall a, rowid_pyeq a a = true.
Proof. intros a. now apply rowid_pyeq_iff. Qed.

Lemma keys_distinct_NoDup {K} (eqb : K -> K -> bool) :
  (forall a b, eqb a b = true <-> a = b) ->
  forall l, keys_distinct eqb l <-> NoDup l.
Proof.
  intros Heq. induction l as [| x l IH]; simpl.
  - split; [constructor | auto].
  - split.
    + intros [H1 H2]. constructor; [| now apply IH].
      intros Hin. specialize (H1 x Hin). rewrite (proj2 (Heq x x) eq_refl) in H1. discriminate.
    + intros H. inversion H; subst. split; [| now apply IH].
      intros k' Hin. destruct (eqb x k') eqn:E; auto. apply Heq in E. now subst.
Qed.

(** ** [dadd] folds group events by key *)

Section Group.
  Context {Ev K A : Type}.
  Variable keqb : K -> K -> bool.
  Hypothesis keqb_eq : forall a b, keqb a b = true <-> a = b.
  Variable aeqb : A -> A -> bool.
  Variable kf : Ev -> K.
  Variable xf : Ev -> A.

  Definition group_acc (evs : list Ev) (d : list (K * list A)) :=
    fold_left (fun d e => dadd keqb aeqb d (kf e) (xf e)) evs d.

  Lemma keqb_refl' : forall a, keqb a a = true.
  Proof. intros. now apply keqb_eq. Qed.
  Lemma keqb_sym' : forall a b, keqb a b = keqb b a.
  Proof. intros. apply eq_true_iff_eq. rewrite !keqb_eq. split; auto. Qed.
  Lemma keqb_trans' : forall a b c, keqb a b = true -> keqb b c = true -> keqb a c = true.
  Proof. intros a b c. rewrite !keqb_eq. congruence. Qed.

  Lemma group_get : forall evs d k,
    dget keqb (group_acc evs d) k =
    match map xf (filter (fun e => keqb (kf e) k) evs) with
    | [] => dget keqb d k
    | l => Some (fold_left (sadd aeqb) l (dget_or keqb d k []))
    end.
  Proof.
    unfold group_acc. induction evs as [| e evs IH]; intros d k; simpl; auto.
    rewrite IH. unfold dadd, dget_or.
    rewrite (dget_dset keqb keqb_refl' keqb_sym' keqb_trans').
    destruct (keqb (kf e) k) eqn:E.
    - apply keqb_eq in E. subst k. simpl.
      destruct (map xf (filter (fun e0 => keqb (kf e0) (kf e)) evs)) eqn:Em; auto.
    - destruct (map xf (filter (fun e0 => keqb (kf e0) k) evs)); auto.
  Qed.

  Lemma group_keys_NoDup : forall evs d,
    NoDup (map fst d) -> NoDup (map fst (group_acc evs d)).
  Proof.
    unfold group_acc. induction evs as [| e evs IH]; intros d H; simpl; auto.
    apply IH. unfold dadd. apply (keys_distinct_NoDup keqb keqb_eq).
    apply (keys_distinct_dset keqb). now apply (keys_distinct_NoDup keqb keqb_eq).
  Qed.

  Lemma group_In : forall evs k l,
    In (k, l) (group_acc evs []) <->
    (map xf (filter (fun e => keqb (kf e) k) evs) <> [] /\
     l = set_of aeqb (map xf (filter (fun e => keqb (kf e) k) evs))).
  Proof.
    intros evs k l.
    assert (keys_distinct keqb (map fst (group_acc evs []))) as Hd.
    { apply (keys_distinct_NoDup keqb keqb_eq). apply group_keys_NoDup. constructor. }
    split.
    - intros Hin. apply (In_dget keqb keqb_refl') in Hin; auto.
      rewrite group_get in Hin. simpl in Hin.
      destruct (map xf (filter (fun e => keqb (kf e) k) evs)) as [| x xs] eqn:E; try discriminate.
      split; [discriminate |]. injection Hin as <-. reflexivity.
    - intros [Hne ->].
      assert (dget keqb (group_acc evs []) k =
              Some (set_of aeqb (map xf (filter (fun e => keqb (kf e) k) evs)))) as H.
      { rewrite group_get. simpl.
        destruct (map xf (filter (fun e => keqb (kf e) k) evs)) as [| x xs]; [congruence | reflexivity]. }
      apply (dget_In keqb) in H as (k' & E & Hin). apply keqb_eq in E. now subst.
  Qed.
End Group.

(** A set built from pairwise distinct elements is the list itself. *)
Lemma set_of_distinct {A C} (aeqb : A -> A -> bool) (cf : A -> C) :
  (forall a b, aeqb a b = true <-> cf a = cf b) ->
  forall l, NoDup (map cf l) -> set_of aeqb l = l.
Proof.
  intros Heq l. unfold set_of.
  enough (forall acc, NoDup (map cf (acc ++ l)) -> fold_left (sadd aeqb) l acc = acc ++ l) as H.
  { intros Hnd. now rewrite (H []). }
  induction l as [| x l IH]; intros acc H; simpl.
  - now rewrite app_nil_r.
  - assert (smem aeqb acc x = false) as E.
    { destruct (smem aeqb acc x) eqn:E; auto. apply smem_iff in E as (y & Hy & E).
      apply Heq in E. exfalso. rewrite map_app in H. simpl in H.
      apply (NoDup_app_disj _ _ (cf y) H).
      - now apply in_map.
      - rewrite E. now left. }
    unfold sadd at 2. rewrite E. rewrite IH.
    + now rewrite <- app_assoc.
    + now rewrite <- app_assoc.
Qed.

(** ** Two-level dicts *)

Definition wf2 {V} (d : list (string * list (string * V))) : Prop :=
  NoDup (map fst d) /\ forall t fs, In (t, fs) d -> NoDup (map fst fs).

Lemma dget_In_NoDup {V} : forall (d : list (string * V)) k v,
  NoDup (map fst d) -> (dget String.eqb d k = Some v <-> In (k, v) d).
Proof.
  intros d k v H. split; intros H1.
  - apply (dget_In String.eqb) in H1 as (k' & E & Hin). apply String.eqb_eq in E. now subst.
  - apply (In_dget String.eqb String.eqb_refl); auto.
    now apply (keys_distinct_NoDup String.eqb String.eqb_eq).
Qed.

Lemma dget2_dset2 {V} : forall (d : list (string * list (string * V))) t f v t' f',
  dget2 (dset2 d t f v) t' f' =
  if String.eqb t t' && String.eqb f f' then Some v else dget2 d t' f'.
Proof.
  intros d t f v t' f'. unfold dget2, dset2, dget_or.
  rewrite (dget_dset String.eqb String.eqb_refl String.eqb_sym string_eqb_trans).
  destruct (String.eqb t t') eqn:E; simpl; auto.
  apply String.eqb_eq in E. subst t'.
  now rewrite (dget_dset String.eqb String.eqb_refl String.eqb_sym string_eqb_trans).
Qed.

Lemma dget_or_NoDup {V} : forall (d : list (string * list (string * V))) t,
  wf2 d -> NoDup (map fst (dget_or String.eqb d t [])).
Proof.
  intros d t [H1 H2]. unfold dget_or. destruct (dget String.eqb d t) eqn:E; [| constructor].
  apply dget_In_NoDup in E; eauto.
Qed.

Lemma dset_NoDup {V} : forall (d : list (string * V)) k v,
  NoDup (map fst d) -> NoDup (map fst (dset String.eqb d k v)).
Proof.
  intros d k v H. apply (keys_distinct_NoDup String.eqb String.eqb_eq).
  apply (keys_distinct_dset String.eqb). now apply (keys_distinct_NoDup String.eqb String.eqb_eq).
Qed.

Lemma dset_In {V} : forall (d : list (string * V)) k v k' v',
  In (k', v') (dset String.eqb d k v) -> (k' = k /\ v' = v) \/ In (k', v') d.
Proof.
  induction d as [| [k0 v0] d IH]; simpl; intros k v k' v' H.
  - destruct H as [H | []]. injection H as <- <-. auto.
  - destruct (String.eqb k0 k) eqn:E; simpl in H.
    + apply String.eqb_eq in E. subst k0. destruct H as [H | H]; auto.
      injection H as <- <-. auto.
    + destruct H as [H | H]; auto. apply IH in H as [H | H]; auto.
Qed.

Lemma wf2_dset2 {V} : forall (d : list (string * list (string * V))) t f v, wf2 d -> wf2 (dset2 d t f v).
Proof.
  intros d t f v H. pose proof H as [H1 H2]. unfold dset2. split.
  - now apply dset_NoDup.
  - intros t' fs Hin. apply dset_In in Hin as [[-> ->] | Hin]; eauto.
    apply dset_NoDup. now apply dget_or_NoDup.
Qed.

Lemma wf2_declared {V} : forall (d : list (string * list (string * V))) t f v,
  wf2 d -> ((exists fs, In (t, fs) d /\ In (f, v) fs) <-> dget2 d t f = Some v).
Proof.
  intros d t f v [H1 H2]. unfold dget2, dget_or. split.
  - intros (fs & Hin & Hf). pose proof (H2 _ _ Hin) as Hnd.
    apply dget_In_NoDup in Hin; auto. rewrite Hin. now apply dget_In_NoDup.
  - destruct (dget String.eqb d t) as [fs |] eqn:E; simpl; try discriminate.
    intros Hf. apply dget_In_NoDup in E; auto. apply dget_In_NoDup in Hf; eauto.
Qed.

(** ** The temporary types *)

Definition untyped_pks (sch : schema) (tys : types) : list (string * string) :=
  filter (fun tf => negb (dmem String.eqb (dget_or String.eqb tys (fst tf) []) (snd tf)))
    (flat_map (fun tts => map (pair (fst tts)) (tpk (snd tts))) sch).

Lemma tmp_types_fold : forall sch tys,
  tmp_types sch tys =
  fold_left (fun acc tf => dset2 acc (fst tf) (snd tf) nonnull_type) (untyped_pks sch tys) tys.
Proof.
  intros sch tys. unfold tmp_types, untyped_pks.
  rewrite <- fold_left_filter, <- fold_left_flat_map.
  apply fold_left_ext_in. intros acc tts _. rewrite fold_left_map. simpl.
  apply fold_left_ext_in. intros acc' pk _. now destruct (dmem _ _ _).
Qed.

Lemma fold_dset2_get {V} (v : V) : forall l d t f,
  dget2 (fold_left (fun acc tf => dset2 acc (fst tf) (snd tf) v) l d) t f =
  if existsb (fun tf => String.eqb (fst tf) t && String.eqb (snd tf) f) l
  then Some v else dget2 d t f.
Proof.
  induction l as [| [t0 f0] l IH]; intros d t f; simpl; auto.
  rewrite IH, dget2_dset2. simpl.
  destruct (existsb (fun tf => String.eqb (fst tf) t && String.eqb (snd tf) f) l);
    [now rewrite orb_true_r |]. rewrite orb_false_r. reflexivity.
Qed.

Lemma fold_dset2_wf2 {V} (v : V) : forall l d,
  wf2 d -> wf2 (fold_left (fun acc tf => dset2 acc (fst tf) (snd tf) v) l d).
Proof.
  induction l as [| [t0 f0] l IH]; intros d H; simpl; auto. apply IH. now apply wf2_dset2.
Qed.

Lemma wf_types_wf2 : forall sch tys, wf_types sch tys -> wf2 tys.
Proof.
  intros sch tys [H1 H2]. split; auto. intros t fs Hin. now apply H2 in Hin.
Qed.

Lemma tmp_types_wf2 : forall sch tys, wf_types sch tys -> wf2 (tmp_types sch tys).
Proof.
  intros sch tys H. rewrite tmp_types_fold. apply fold_dset2_wf2. eapply wf_types_wf2; eauto.
Qed.

Lemma declared_dget2 : forall sch tys t f dt, wf_types sch tys ->
  (declared tys t f dt <-> dget2 tys t f = Some dt).
Proof. intros. apply wf2_declared. eapply wf_types_wf2; eauto. Qed.

Lemma in_untyped : forall sch tys t f,
  existsb (fun tf => String.eqb (fst tf) t && String.eqb (snd tf) f) (untyped_pks sch tys) = true <->
  (exists ts, In (t, ts) sch /\ In f (tpk ts)) /\ dget2 tys t f = None.
Proof.
  intros sch tys t f. rewrite existsb_exists. split.
  - intros ([t0 f0] & Hin & E). simpl in E. apply andb_prop in E as [E1 E2].
    apply String.eqb_eq in E1, E2. subst t0 f0.
    unfold untyped_pks in Hin. apply filter_In in Hin as [Hin E].
    apply in_flat_map in Hin as ([t0 ts] & Hin & Hf). simpl in Hf.
    apply in_map_iff in Hf as (f0 & Hf & Hin'). injection Hf as -> ->.
    split; [now exists ts |].
    simpl in E. unfold dmem in E. unfold dget2.
    destruct (dget String.eqb (dget_or String.eqb tys t []) f); auto. discriminate.
  - intros [(ts & Hin & Hf) E]. exists (t, f). simpl. rewrite !String.eqb_refl. split; auto.
    unfold untyped_pks. apply filter_In. split.
    + apply in_flat_map. exists (t, ts). split; auto. simpl. now apply in_map.
    + simpl. unfold dmem. unfold dget2 in E. now rewrite E.
Qed.

Lemma tmp_types_get : forall sch tys t f dt, wf_types sch tys ->
  (dget2 (tmp_types sch tys) t f = Some dt <-> enforced sch tys t f dt).
Proof.
  intros sch tys t f dt Hwf. rewrite tmp_types_fold, fold_dset2_get. unfold enforced.
  rewrite (declared_dget2 _ _ _ _ _ Hwf).
  destruct (existsb _ (untyped_pks sch tys)) eqn:E.
  - apply in_untyped in E as [E1 E2]. rewrite E2. split.
    + intros H. injection H as <-. right. repeat split; auto.
      intros dt' H. rewrite (declared_dget2 _ _ _ _ _ Hwf) in H. congruence.
    + intros [H | (_ & _ & ->)]; [discriminate | reflexivity].
  - split; auto. intros [H | (H1 & H2 & ->)]; auto.
    exfalso. assert (existsb (fun tf => String.eqb (fst tf) t && String.eqb (snd tf) f)
      (untyped_pks sch tys) = true) as H3; [| congruence].
    apply in_untyped. split; auto. destruct (dget2 tys t f) as [dt' |] eqn:E2; auto.
    exfalso. apply (H1 dt'). now rewrite (declared_dget2 _ _ _ _ _ Hwf).
Qed.

Lemma tmp_types_In : forall sch tys t f dt, wf_types sch tys ->
  ((exists fs, In (t, fs) (tmp_types sch tys) /\ In (f, dt) fs) <-> enforced sch tys t f dt).
Proof.
  intros sch tys t f dt Hwf. rewrite <- (tmp_types_get sch tys t f dt Hwf).
  apply wf2_declared. now apply tmp_types_wf2.
Qed.

(** ** Cells *)

Lemma ts_of_In : forall sch t ts, wf_schema sch -> In (t, ts) sch -> ts_of sch t = ts.
Proof.
  intros sch t ts [H _] Hin. unfold ts_of, dget_or.
  apply dget_In_NoDup in Hin; auto. now rewrite Hin.
Qed.

Lemma dget_combine : forall (fs : list string) (vs : list value) i f v,
  NoDup fs -> nth_error fs i = Some f -> nth_error vs i = Some v ->
  dget String.eqb (combine fs vs) f = Some v.
Proof.
  induction fs as [| f0 fs IH]; intros [| v0 vs] [| i] f v Hnd H1 H2; simpl in *; try discriminate.
  - injection H1 as ->. injection H2 as ->. now rewrite String.eqb_refl.
  - inversion Hnd; subst. destruct (String.eqb f0 f) eqn:E.
    + apply String.eqb_eq in E. subst. apply nth_error_In in H1. contradiction.
    + eauto.
Qed.

Lemma dget_combine_None : forall (fs : list string) (vs : list value) f,
  ~ In f fs -> dget String.eqb (combine fs vs) f = None.
Proof.
  induction fs as [| f0 fs IH]; intros [| v0 vs] f H; simpl in *; auto.
  destruct (String.eqb f0 f) eqn:E.
  - apply String.eqb_eq in E. subst. exfalso. auto.
  - auto.
Qed.

Lemma combine_NoDup_fst {B} : forall (fs : list string) (vs : list B),
  NoDup fs -> NoDup (map fst (combine fs vs)).
Proof.
  induction fs as [| f fs IH]; intros [| v vs] H; simpl; try constructor; inversion H; subst; auto.
  intros Hin. apply H2. apply in_map_iff in Hin as ([f' v'] & <- & Hin).
  now apply in_combine_l in Hin.
Qed.

Lemma full_row_get : forall ts k r f,
  NoDup (tfields ts) -> List.length k = List.length (tpk ts) -> List.length r = List.length (tdf ts) ->
  dget String.eqb (full_row ts k r) f =
  match dget String.eqb (combine (tpk ts) k) f with
  | Some v => Some v
  | None => dget String.eqb (combine (tdf ts) r) f
  end.
Proof.
  intros [pk dfs] k r f Hnd Hk Hr. unfold tfields in Hnd. simpl in *.
  assert (NoDup pk) as Hpk by (eapply NoDup_app_l; eauto).
  assert (dget String.eqb (dupdate String.eqb (combine dfs r) (combine pk k)) f =
          match dget String.eqb (combine pk k) f with
          | Some v => Some v
          | None => dget String.eqb (combine dfs r) f
          end) as Hgen.
  { rewrite (dget_dupdate String.eqb String.eqb_refl String.eqb_sym string_eqb_trans).
    rewrite (last_bind_distinct String.eqb String.eqb_sym string_eqb_trans); auto.
    apply (keys_distinct_NoDup String.eqb String.eqb_eq). now apply combine_NoDup_fst. }
  unfold full_row. simpl. destruct pk as [| p [| p2 pk]]; auto.
  destruct k as [| v [| v2 k]]; simpl in *; try discriminate.
  rewrite (dget_dset String.eqb String.eqb_refl String.eqb_sym string_eqb_trans).
  destruct (String.eqb p f); auto.
Qed.

Lemma cell_in_row_cell : forall ts tb rid k r f v,
  wf_tschema ts -> wf_table ts tb -> row_in tb rid k r -> cell_in ts k r f v ->
  row_cell ts tb k r f = v.
Proof.
  intros ts tb rid k r f v Hts Hwf Hrow (i & Hf & Hv). unfold row_cell, dget_or.
  destruct tb as [l | l]; simpl in *.
  - destruct Hwf as (Hpk & Hdist & Hlen). destruct Hrow as [Hin ->].
    destruct (Hlen k r Hin) as [Hk Hr]. rewrite full_row_get by auto.
    destruct (lt_dec i (List.length (tpk ts))) as [Hi | Hi].
    + rewrite nth_error_app1 in Hf by lia. rewrite nth_error_app1 in Hv by lia.
      rewrite (dget_combine _ _ i f v); auto. eapply NoDup_app_l; eauto.
    + rewrite nth_error_app2 in Hf by lia. rewrite nth_error_app2 in Hv by lia.
      rewrite Hk in Hv.
      rewrite dget_combine_None.
      * rewrite (dget_combine _ _ (i - List.length (tpk ts)) f v); auto. eapply NoDup_app_r; eauto.
      * intros Hp. apply nth_error_In in Hf. eapply NoDup_app_disj; eauto.
  - destruct Hwf as (Hpk & Hlen). destruct Hrow as [-> (j & Hj & ->)].
    rewrite Hpk in Hf. simpl in *. unfold wf_tschema, tfields in Hts. rewrite Hpk in Hts. simpl in Hts.
    now rewrite (dget_combine _ _ i f v).
Qed.

Lemma cell_in_exists : forall ts tb rid k r f,
  wf_table ts tb -> row_in tb rid k r -> In f (tpk ts ++ tdf ts) ->
  exists v, cell_in ts k r f v.
Proof.
  intros ts tb rid k r f Hwf Hrow Hf.
  apply In_nth_error in Hf as (i & Hi). pose proof (nth_error_Some_lt _ _ _ Hi) as Hlt.
  assert (List.length (k ++ r) = List.length (tpk ts ++ tdf ts)) as Hlen.
  { rewrite !app_length. destruct tb as [l | l]; simpl in *.
    - destruct Hwf as (_ & _ & Hl). destruct Hrow as [Hin _]. apply Hl in Hin as [-> ->]. auto.
    - destruct Hwf as (Hpk & Hl). destruct Hrow as [-> (j & Hj & _)].
      apply nth_error_In in Hj. rewrite Hpk. simpl. auto. }
  destruct (nth_error_ex (k ++ r) i) as [v Hv]; [lia |].
  exists v, i. auto.
Qed.

(** ** Rows *)

Lemma In_enum_from {A} : forall (l : list A) i0 i x,
  In (i, x) (enum_from i0 l) <-> i0 <= i /\ nth_error l (i - i0) = Some x.
Proof.
  induction l as [| y l IH]; intros i0 i x; simpl; split.
  - intros [].
  - intros [_ H]. destruct (i - i0); discriminate.
  - intros [H | H].
    + injection H as -> ->. rewrite Nat.sub_diag. simpl. auto.
    + apply IH in H as [H1 H2]. split; [lia |].
      replace (i - i0) with (S (i - S i0)) by lia. auto.
  - intros [H1 H2]. destruct (Nat.eq_dec i i0) as [-> | Hne].
    + rewrite Nat.sub_diag in H2. simpl in H2. injection H2 as ->. auto.
    + right. apply IH. split; [lia |]. replace (i - i0) with (S (i - S i0)) in H2 by lia. auto.
Qed.

Lemma map_fst_enum {A} : forall (l : list A) i, map fst (enum_from i l) = seq i (List.length l).
Proof. induction l as [| x l IH]; intros i; simpl; auto. now rewrite IH. Qed.

Lemma rows_of_In : forall tb rid k r, In (rid, k, r) (rows_of tb) <-> row_in tb rid k r.
Proof.
  intros [l | l] rid k r; simpl; rewrite in_map_iff.
  - split.
    + intros ([k' r'] & E & Hin). injection E as <- <- <-. auto.
    + intros [Hin ->]. exists (k, r). auto.
  - split.
    + intros ([i r'] & E & Hin). injection E as <- <- <-. split; auto.
      apply In_enum_from in Hin as [_ Hin]. rewrite Nat.sub_0_r in Hin. eauto.
    + intros [-> (i & Hi & ->)]. exists (i, r). split; auto.
      apply In_enum_from. rewrite Nat.sub_0_r. split; auto. lia.
Qed.

Lemma rows_of_NoDup : forall ts tb, wf_table ts tb ->
  NoDup (map (fun x => rid_canon (fst (fst x))) (rows_of tb)).
Proof.
  intros ts [l | l] Hwf; simpl in *; rewrite map_map; simpl.
  - destruct Hwf as (_ & Hd & _). unfold distinct_keys in Hd. rewrite map_map in Hd.
    assert (map (fun x : key * row => RPk (map canon (fst x))) l =
            map RPk (map (fun x => map canon (fst x)) l)) as -> by now rewrite map_map.
    apply Injective_map_NoDup; auto. intros a b H. now injection H.
  - assert (map (fun x : nat * row => RIdx (fst x)) (enum_from 0 l) =
            map RIdx (map fst (enum_from 0 l))) as -> by now rewrite map_map.
    rewrite map_fst_enum. apply Injective_map_NoDup; [| apply seq_NoDup].
    intros a b H. now injection H.
Qed.

(** ** The candidate cells, in iteration order *)

Section Events.
  Variable parses : value -> bool.

  (** A candidate cell together with the type it is checked against. *)
  Definition candidate : Type := (cell_event * dtype)%type.

  Definition row_cands (sch : schema) (d : dat) (t : string) (fs : list (string * dtype))
    (rkr : rowid * key * row) : list candidate :=
    map (fun fdt => (mkEv t (fst fdt) (fst (fst rkr))
                       (row_cell (ts_of sch t) (d t) (snd (fst rkr)) (snd rkr) (fst fdt)),
                     snd fdt)) fs.

  Definition cands (sch : schema) (tys : types) (d : dat) : list candidate :=
    flat_map (fun ttr => flat_map (row_cands sch d (fst ttr) (snd ttr)) (rows_of (d (fst ttr))))
      (tmp_types sch tys).

  Definition bad (c : candidate) : bool := negb (valid_data parses (snd c) (ev_val (fst c))).

  Definition events (sch : schema) (tys : types) (d : dat) : list cell_event :=
    map fst (filter bad (cands sch tys d)).

  Lemma populate_flat : forall sch tys d mx,
    populate_types parses sch tys d mx =
    fst (fst (for_each (fun e (s : tacc * nat) =>
      let r' := trecord (fst s) e in let c' := S (snd s) in ((r', c'), trips mx c'))
      (events sch tys d) (([], []), 0))).
  Proof.
    intros sch tys d mx. unfold populate_types, events. do 2 f_equal.
    rewrite for_each_map.
    rewrite <- (for_each_filter bad
      (fun x s => let r' := trecord (fst s) (fst x) in let c' := S (snd s) in ((r', c'), trips mx c'))).
    unfold cands. rewrite <- for_each_flat. apply for_each_ext. intros [t fs] s _. simpl.
    rewrite <- for_each_flat. apply for_each_ext. intros [[rid k] r] s' _. simpl.
    unfold row_cands. rewrite for_each_map. apply for_each_ext. intros [f dt] s'' _.
    unfold bad. simpl. reflexivity.
  Qed.

  Lemma populate_all : forall sch tys d,
    populate_types parses sch tys d PInf = fold_left trecord (events sch tys d) ([], []).
  Proof.
    intros sch tys d. rewrite populate_flat.
    generalize (([], []) : tacc). generalize 0.
    induction (events sch tys d) as [| e l IH]; intros c a; simpl; auto.
  Qed.

  (** [k] is the bound [mx] rounded up. *)
  Definition rounds_up (mx : num) (n : nat) : Prop :=
    num_leb mx (of_int (Z.of_nat n)) = true /\
    forall m, num_leb mx (of_int (Z.of_nat m)) = true -> n <= m.

  Lemma num_leb_of_int_mono : forall mx m m',
    m <= m' -> num_leb mx (of_int (Z.of_nat m)) = true -> num_leb mx (of_int (Z.of_nat m')) = true.
  Proof.
    intros mx m m' H. unfold num_leb, of_int. destruct mx as [| z |]; simpl; auto.
    rewrite !negb_true_iff, !Z.ltb_ge. pose proof one_units_pos. nia.
  Qed.

  Lemma populate_bounded : forall sch tys d mx n,
    num_ltb (of_int 0) mx = true -> rounds_up mx n ->
    populate_types parses sch tys d mx =
    fold_left trecord (firstn n (events sch tys d)) ([], []).
  Proof.
    intros sch tys d mx n Hpos [Hr1 Hr2]. rewrite populate_flat.
    assert (0 < n) as Hn.
    { destruct n; [| lia]. exfalso. unfold num_leb in Hr1. simpl in *. now rewrite Hpos in Hr1. }
    rewrite (for_each_count trecord (trips mx) n).
    - now rewrite Nat.sub_0_r.
    - intros c. unfold trips.
      assert (num_ltb mx PInf = true) as ->.
      { destruct mx; auto. }
      destruct (n <=? c) eqn:E.
      + apply Nat.leb_le in E. eapply num_leb_of_int_mono; eauto.
      + apply Nat.leb_gt in E. destruct (num_leb mx (of_int (Z.of_nat c))) eqn:E2; auto.
        apply Hr2 in E2. lia.
    - lia.
  Qed.

  (** Every event is a failing cell and vice versa. *)
  Lemma events_failing : forall sch tys d e,
    wf_schema sch -> wf_types sch tys -> wf_dat sch d ->
    (In e (events sch tys d) <-> failing parses sch tys d (ev_t e) (ev_f e) (ev_row e) (ev_val e)).
  Proof.
    intros sch tys d [t f rid v] Hs Ht Hd. simpl. unfold events, failing.
    assert (forall f dt, enforced sch tys t f dt ->
              exists ts, In (t, ts) sch /\ In f (tpk ts ++ tdf ts)) as Henf.
    { intros f' dt' [(fs & H1 & H2) | (_ & (ts & H1 & H2) & _)].
      - destruct Ht as [_ Ht]. destruct (Ht _ _ H1) as (_ & ts & Hts & Hf). eauto.
      - exists ts. split; auto. apply in_app_iff. auto. }
    rewrite in_map_iff. split.
    - intros ([e dt] & E & Hin). simpl in E. subst e. apply filter_In in Hin as [Hin Hbad].
      unfold cands in Hin. apply in_flat_map in Hin as ([t0 fs] & Hfs & Hin). simpl in Hin.
      apply in_flat_map in Hin as ([[rid0 k] r] & Hrow & Hin). unfold row_cands in Hin.
      apply in_map_iff in Hin as ([f0 dt0] & E & Hf0). simpl in E.
      injection E as E1 E2 E3 E4 E5. subst t0 f0 rid0 dt0.
      assert (enforced sch tys t f dt) as He.
      { apply tmp_types_In; auto. eauto. }
      destruct (Henf _ _ He) as (ts & Hts & Hf). apply rows_of_In in Hrow.
      destruct (cell_in_exists ts (d t) rid k r f (Hd _ _ Hts) Hrow Hf) as [v' Hv'].
      exists ts, k, r, dt. repeat split; auto.
      + rewrite (ts_of_In _ _ _ Hs Hts) in E4.
        rewrite (cell_in_row_cell ts (d t) rid k r f v') in E4; auto.
        * now subst v'.
        * now apply (proj2 Hs) in Hts.
      + unfold bad in Hbad. simpl in Hbad. now apply negb_true_iff in Hbad.
    - intros (ts & k & r & dt & Hts & Hrow & Hc & He & Hv).
      exists (mkEv t f rid v, dt). split; auto. apply filter_In. split.
      + unfold cands. apply tmp_types_In in He as (fs & Hfs & Hf); auto.
        apply in_flat_map. exists (t, fs). split; auto. simpl.
        apply in_flat_map. exists (rid, k, r). split; [now apply rows_of_In |].
        unfold row_cands. apply in_map_iff. exists (f, dt). split; auto. simpl.
        rewrite (ts_of_In _ _ _ Hs Hts), (cell_in_row_cell ts (d t) rid k r f v); auto.
        now apply (proj2 Hs) in Hts.
      + unfold bad. simpl. now rewrite Hv.
  Qed.

  (** No cell is an event twice. *)
  Definition cell_id (e : cell_event) : string * string * rowid :=
    (ev_t e, ev_f e, rid_canon (ev_row e)).

  Lemma cands_NoDup : forall sch tys d,
    wf_schema sch -> wf_types sch tys -> wf_dat sch d ->
    NoDup (map (fun c => cell_id (fst c)) (cands sch tys d)).
  Proof.
    intros sch tys d Hs Ht Hd. pose proof (tmp_types_wf2 _ _ Ht) as [Hw1 Hw2].
    unfold cands. rewrite map_flat_map.
    apply (NoDup_flat_map _ fst (fun x => fst (fst x))); auto.
    - intros [t fs] Hin. simpl. rewrite map_flat_map.
      destruct fs as [| [f0 dt0] fs'] eqn:Efs.
      + clear. induction (rows_of (d t)); simpl; auto. constructor.
      + rewrite <- Efs in *.
        assert (exists ts, In (t, ts) sch) as [ts Hts].
        { assert (enforced sch tys t f0 dt0) as He.
          { apply tmp_types_In; auto. exists fs. subst fs. split; auto. now left. }
          destruct He as [(fs1 & H1 & H2) | (_ & (ts & H1 & H2) & _)]; eauto.
          destruct Ht as [_ Ht]. destruct (Ht _ _ H1) as (_ & ts & Hts & _). eauto. }
        apply (NoDup_flat_map _ (fun x => rid_canon (fst (fst x))) (fun x => snd x)).
        * apply (rows_of_NoDup ts). auto.
        * intros [[rid k] r] _. unfold row_cands. rewrite map_map. simpl. unfold cell_id. simpl.
          assert (map (fun x : string * dtype => (t, fst x, rid_canon rid)) fs =
                  map (fun f => (t, f, rid_canon rid)) (map fst fs)) as -> by now rewrite map_map.
          apply Injective_map_NoDup; eauto. intros a b H. now injection H.
        * intros [[rid k] r] y _ Hy. unfold row_cands in Hy. rewrite map_map in Hy. simpl in Hy.
          apply in_map_iff in Hy as ([f dt] & <- & _). reflexivity.
    - intros [t fs] y _ Hy. simpl in *. apply in_map_iff in Hy as (c & <- & Hc).
      apply in_flat_map in Hc as ([[rid k] r] & _ & Hc). unfold row_cands in Hc.
      apply in_map_iff in Hc as ([f dt] & <- & _). reflexivity.
  Qed.

  Lemma events_NoDup : forall sch tys d,
    wf_schema sch -> wf_types sch tys -> wf_dat sch d ->
    NoDup (map cell_id (events sch tys d)).
  Proof.
    intros sch tys d Hs Ht Hd. unfold events. rewrite map_map.
    now apply filter_NoDup_map, cands_NoDup.
  Qed.

  (** ** Reports built from a list of events *)

  Definition ekey (e : cell_event) : string * string := (ev_t e, ev_f e).

  Definition report_of (evs : list cell_event) : treport :=
    let a := fold_left trecord evs ([], []) in
    map (fun tv => (fst tv, (snd tv, dget_or tf_eqb (snd a) (fst tv) []))) (fst a).

  Lemma trecord_split : forall evs a,
    fold_left trecord evs a =
    (group_acc tf_eqb pyeq ekey ev_val evs (fst a), group_acc tf_eqb rowid_pyeq ekey ev_row evs (snd a)).
  Proof.
    unfold group_acc. induction evs as [| e evs IH]; intros [a1 a2]; simpl; auto.
    now rewrite IH.
  Qed.

  Definition at_tf (t f : string) (evs : list cell_event) : list cell_event :=
    filter (fun e => tf_eqb (ekey e) (t, f)) evs.

  Lemma at_tf_In : forall t f evs e, In e (at_tf t f evs) <-> In e evs /\ ev_t e = t /\ ev_f e = f.
  Proof.
    intros t f evs e. unfold at_tf. rewrite filter_In, tf_eqb_eq. unfold ekey.
    split; intros [H1 H2]; split; auto.
    - now injection H2.
    - destruct H2 as [-> ->]. reflexivity.
  Qed.

  Lemma at_tf_rows_NoDup : forall t f evs, NoDup (map cell_id evs) ->
    NoDup (map rid_canon (map ev_row (at_tf t f evs))).
  Proof.
    intros t f evs H. rewrite map_map.
    pose proof (filter_NoDup_map cell_id (fun e => tf_eqb (ekey e) (t, f)) evs H) as H1.
    fold (at_tf t f evs) in H1.
    assert (map cell_id (at_tf t f evs) =
            map (fun r => (t, f, r)) (map (fun e => rid_canon (ev_row e)) (at_tf t f evs))) as E.
    { rewrite map_map. apply map_ext_in. intros e He. apply at_tf_In in He as (_ & <- & <-).
      reflexivity. }
    rewrite E in H1. now apply NoDup_map_inv' in H1.
  Qed.

  (** The contents of the report, exactly. *)
  Lemma report_of_In : forall evs t f vals rids,
    NoDup (map cell_id evs) ->
    (In ((t, f), (vals, rids)) (report_of evs) <->
     at_tf t f evs <> [] /\ vals = set_of pyeq (map ev_val (at_tf t f evs)) /\
     rids = map ev_row (at_tf t f evs)).
  Proof.
    intros evs t f vals rids Hnd. unfold report_of. rewrite trecord_split. simpl.
    rewrite in_map_iff.
    assert (at_tf t f evs <> [] ->
      dget_or tf_eqb (group_acc tf_eqb rowid_pyeq ekey ev_row evs []) (t, f) [] =
      map ev_row (at_tf t f evs)) as Hr.
    { intros Hne. unfold dget_or. rewrite (group_get tf_eqb tf_eqb_eq). fold (at_tf t f evs).
      destruct (map ev_row (at_tf t f evs)) as [| x xs] eqn:E.
      - destruct (at_tf t f evs); [congruence | discriminate].
      - transitivity (set_of rowid_pyeq (map ev_row (at_tf t f evs))); [now rewrite E |].
        rewrite <- E. apply (set_of_distinct rowid_pyeq rid_canon rowid_pyeq_iff).
        now apply at_tf_rows_NoDup. }
    split.
    - intros ([k vs] & E & Hin). simpl in E. injection E as E1 E2 E3. subst k vs.
      apply (group_In tf_eqb tf_eqb_eq) in Hin as [Hne ->].
      fold (at_tf t f evs) in *. assert (at_tf t f evs <> []) as Hne'.
      { intros E. apply Hne. now rewrite E. }
      split; auto. split; auto. rewrite <- E3. auto.
    - intros (Hne & -> & ->). exists ((t, f), set_of pyeq (map ev_val (at_tf t f evs))).
      simpl. rewrite Hr by auto. split; auto.
      apply (group_In tf_eqb tf_eqb_eq). fold (at_tf t f evs). split; auto.
      intros E. apply map_eq_nil in E. auto.
  Qed.

  Lemma report_of_rows : forall evs t f rid, NoDup (map cell_id evs) ->
    (reports_row (report_of evs) t f rid <->
     exists e, In e evs /\ ev_t e = t /\ ev_f e = f /\ ev_row e = rid).
  Proof.
    intros evs t f rid Hnd. unfold reports_row. split.
    - intros (vals & rids & Hin & Hr). apply report_of_In in Hin as (_ & _ & ->); auto.
      apply in_map_iff in Hr as (e & <- & He). apply at_tf_In in He as (H1 & H2 & H3). eauto.
    - intros (e & H1 & H2 & H3 & H4). exists (set_of pyeq (map ev_val (at_tf t f evs))), (map ev_row (at_tf t f evs)).
      assert (In e (at_tf t f evs)) as He by (apply at_tf_In; auto). split.
      + apply report_of_In; auto. split; auto. intros E. rewrite E in He. destruct He.
      + rewrite <- H4. now apply in_map.
  Qed.

  Lemma report_of_values : forall evs t f v, NoDup (map cell_id evs) ->
    (reports_value (report_of evs) t f v ->
     exists e, In e evs /\ ev_t e = t /\ ev_f e = f /\ ev_val e = v) /\
    ((exists e, In e evs /\ ev_t e = t /\ ev_f e = f /\ ev_val e = v) ->
     exists v', reports_value (report_of evs) t f v' /\ pyeq v' v = true).
  Proof.
    intros evs t f v Hnd. unfold reports_value. split.
    - intros (vals & rids & Hin & Hr). apply report_of_In in Hin as (_ & -> & _); auto.
      apply set_of_In in Hr. apply in_map_iff in Hr as (e & <- & He).
      apply at_tf_In in He as (H1 & H2 & H3). eauto.
    - intros (e & H1 & H2 & H3 & H4).
      assert (In e (at_tf t f evs)) as He by (apply at_tf_In; auto).
      assert (smem pyeq (set_of pyeq (map ev_val (at_tf t f evs))) v = true) as Hm.
      { rewrite (smem_set_of pyeq pyeq_trans).
        apply existsb_exists. exists v. split; [| apply pyeq_refl]. rewrite <- H4. now apply in_map. }
      apply smem_iff in Hm as (v' & Hv' & E). exists v'. split; auto.
      exists (set_of pyeq (map ev_val (at_tf t f evs))), (map ev_row (at_tf t f evs)).
      split; auto. apply report_of_In; auto. split; auto. intros E'. rewrite E' in He. destruct He.
  Qed.

  Lemma report_of_keys_NoDup : forall evs, NoDup (map fst (report_of evs)).
  Proof.
    intros evs. unfold report_of. rewrite map_map. simpl. rewrite trecord_split. simpl.
    apply (group_keys_NoDup tf_eqb tf_eqb_eq). constructor.
  Qed.

  Lemma report_of_count : forall evs, NoDup (map cell_id evs) ->
    listed_cells (report_of evs) = List.length evs.
  Proof.
    intros evs Hnd. unfold listed_cells.
    rewrite <- (list_sum_partition ekey tf_eqb tf_eqb_eq (map fst (report_of evs)) evs).
    - f_equal. rewrite map_map. apply map_ext_in. intros [[t f] [vals rids]] Hin. simpl.
      apply report_of_In in Hin as (_ & _ & ->); auto. now rewrite map_length.
    - apply report_of_keys_NoDup.
    - intros e He. apply in_map_iff.
      exists (ekey e, (set_of pyeq (map ev_val (at_tf (ev_t e) (ev_f e) evs)),
                      map ev_row (at_tf (ev_t e) (ev_f e) evs))). split; auto.
      apply report_of_In; auto. split; auto. intros E.
      assert (In e (at_tf (ev_t e) (ev_f e) evs)) as H by (apply at_tf_In; auto).
      rewrite E in H. destruct H.
  Qed.

  (** ** find_data_type_failures *)

  Lemma find_all : forall sch tys d,
    find_data_type_failures parses sch tys d PInf = Some (report_of (events sch tys d)).
  Proof.
    intros sch tys d. unfold find_data_type_failures. simpl. rewrite populate_all. reflexivity.
  Qed.

  Lemma find_bounded : forall sch tys d mx n,
    num_ltb (of_int 0) mx = true -> rounds_up mx n ->
    find_data_type_failures parses sch tys d mx = Some (report_of (firstn n (events sch tys d))).
  Proof.
    intros sch tys d mx n H1 H2. unfold find_data_type_failures. rewrite H1.
    rewrite (populate_bounded _ _ _ _ n); auto.
  Qed.

  Theorem find_types_exact : forall sch tys d rep,
    wf_schema sch -> wf_types sch tys -> wf_dat sch d ->
    find_data_type_failures parses sch tys d PInf = Some rep ->
    (forall t f rid, reports_row rep t f rid <-> exists v, failing parses sch tys d t f rid v) /\
    (forall t f v, reports_value rep t f v -> exists rid, failing parses sch tys d t f rid v) /\
    (forall t f rid v, failing parses sch tys d t f rid v ->
       exists v', reports_value rep t f v' /\ pyeq v' v = true) /\
    (forall t f vals rids, In ((t, f), (vals, rids)) rep -> rids <> [] /\ vals <> []) /\
    NoDup (map fst rep).
  Proof.
    intros sch tys d rep Hs Ht Hd H. rewrite find_all in H. injection H as <-.
    pose proof (events_NoDup _ _ _ Hs Ht Hd) as Hnd. repeat split.
    - intros (e & He & <- & <- & <-)%report_of_rows; auto. exists (ev_val e).
      now apply events_failing.
    - intros (v & Hf). apply report_of_rows; auto.
      exists (mkEv t f rid v). split; auto. now apply events_failing.
    - intros t f v H. apply report_of_values in H as (e & He & <- & <- & <-); auto.
      exists (ev_row e). now apply events_failing.
    - intros t f rid v H. apply report_of_values; auto.
      exists (mkEv t f rid v). split; auto. now apply events_failing.
    - apply report_of_In in H as (Hne & _ & ->); auto. intros E. apply map_eq_nil in E. auto.
    - apply report_of_In in H as (Hne & -> & _); auto.
      destruct (at_tf t f (events sch tys d)) as [| e l]; [congruence |].
      intros E. assert (smem pyeq (set_of pyeq (map ev_val (e :: l))) (ev_val e) = true) as Hm.
      { rewrite (smem_set_of pyeq pyeq_trans). simpl. now rewrite pyeq_refl. }
      rewrite E in Hm. discriminate.
    - apply report_of_keys_NoDup.
  Qed.

  Theorem find_types_bounded : forall sch tys d mx n rep repm,
    wf_schema sch -> wf_types sch tys -> wf_dat sch d ->
    num_ltb (of_int 0) mx = true -> rounds_up mx n ->
    find_data_type_failures parses sch tys d PInf = Some rep ->
    find_data_type_failures parses sch tys d mx = Some repm ->
    listed_cells repm = Nat.min n (listed_cells rep) /\
    (forall t f rid, reports_row repm t f rid -> reports_row rep t f rid) /\
    (forall t f v, reports_value repm t f v ->
       exists v', reports_value rep t f v' /\ pyeq v' v = true).
  Proof.
    intros sch tys d mx n rep repm Hs Ht Hd Hpos Hn H1 H2.
    rewrite find_all in H1. injection H1 as <-.
    rewrite (find_bounded _ _ _ _ n) in H2 by auto. injection H2 as <-.
    pose proof (events_NoDup _ _ _ Hs Ht Hd) as Hnd.
    pose proof (firstn_NoDup_map cell_id n _ Hnd) as Hnd'.
    repeat split.
    - rewrite !report_of_count by auto. apply firstn_length.
    - intros t f rid H. apply report_of_rows in H as (e & He & H); auto.
      apply report_of_rows; auto. exists e. split; auto. eapply firstn_incl; eauto.
    - intros t f v H. apply report_of_values in H as (e & He & H); auto.
      apply report_of_values; auto. exists e. split; auto. eapply firstn_incl; eauto.
  Qed.

  Theorem find_types_nonpositive : forall sch tys d mx,
    num_ltb (of_int 0) mx = false -> find_data_type_failures parses sch tys d mx = None.
  Proof. intros sch tys d mx H. unfold find_data_type_failures. now rewrite H. Qed.
End Events.
