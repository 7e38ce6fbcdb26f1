(** * Specification of data types and correctness of the model. *)
From Coq Require Import ZArith Bool List String Lia.
From Verif Require Import PyVal PyValFacts TypeDict.
Import ListNotations.
Local Open Scope Z_scope.

(** ** Specification *)

(** Strict order on the extended number line. *)
Inductive below : num -> num -> Prop :=
| below_fin : forall x y, x < y -> below (Fin x) (Fin y)
| below_ninf_fin : forall x, below NInf (Fin x)
| below_fin_pinf : forall x, below (Fin x) PInf
| below_infs : below NInf PInf.

(** [n] is a Python integer value. *)
Definition integral (n : num) : Prop := exists k : Z, n = Fin (k * one_units).

(** What [set_data_type]'s documentation promises (ticdatfactory.py 195-229),
    stated on the *arguments* of the call. *)
Inductive documented (parses : value -> bool) (a : dtargs) : value -> Prop :=
| doc_none : a_nullable a = true -> documented parses a VNone
| doc_nan : a_nullable a = true -> documented parses a VNaN
| doc_date : forall z, a_datetime a = true -> documented parses a (VDate z)
| doc_parse : forall v, a_datetime a = true -> v <> VNone -> v <> VNaN ->
    parses v = true -> documented parses a v
| doc_num : forall n mn mx,
    a_datetime a = false -> a_number a = true ->
    a_min a = VNum mn -> a_max a = VNum mx ->
    (below mn n \/ (a_incl_min a = true /\ n = mn)) ->
    (below n mx \/ (a_incl_max a = true /\ n = mx)) ->
    (a_int a = true ->
       integral n \/ (n = PInf /\ mx = PInf /\ a_incl_max a = true)) ->
    documented parses a (VNum n)
| doc_any_string : forall s,
    a_datetime a = false -> a_strs a = AStar -> documented parses a (VStr s)
| doc_string : forall s l,
    a_datetime a = false -> a_strs a = AList l -> In s l -> documented parses a (VStr s).

(** ** Lemmas *)

Lemma below_iff : forall a b, below a b <-> num_ltb a b = true.
Proof.
  intros [| x |] [| y |]; simpl; split; intros H; try congruence; try (now inversion H);
    try constructor.
  - inversion H; subst. now apply Z.ltb_lt.
  - now apply Z.ltb_lt.
Qed.

Lemma py_int_integral : forall n,
  (match py_int n with Some m => num_eqb m n | None => false end) = true <-> integral n.
Proof.
  intros [| z |]; simpl; split; intros H; try discriminate; try (destruct H; discriminate).
  - apply Z.eqb_eq in H. exists (Z.quot z one_units). now rewrite H.
  - destruct H as (k & H). injection H as ->. apply Z.eqb_eq.
    rewrite Z.quot_mul; auto. pose proof one_units_pos. lia.
Qed.

Lemma num_range_lo : forall n mn b,
  num_ltb n mn = false -> negb b && num_eqb n mn = false ->
  below mn n \/ (b = true /\ n = mn).
Proof.
  intros n mn b H1 H2. destruct (num_ltb_total n mn) as [H | [H | H]].
  - congruence.
  - subst. right. rewrite num_eqb_refl, andb_true_r in H2. apply negb_false_iff in H2. auto.
  - left. now apply below_iff.
Qed.

Lemma num_range_hi : forall n mx b,
  num_ltb mx n = false -> negb b && num_eqb n mx = false ->
  below n mx \/ (b = true /\ n = mx).
Proof.
  intros n mx b H1 H2. destruct (num_ltb_total n mx) as [H | [H | H]].
  - left. now apply below_iff.
  - subst. right. rewrite num_eqb_refl, andb_true_r in H2. apply negb_false_iff in H2. auto.
  - congruence.
Qed.

Lemma num_range_lo_inv : forall n mn b,
  below mn n \/ (b = true /\ n = mn) ->
  num_ltb n mn = false /\ negb b && num_eqb n mn = false.
Proof.
  intros n mn b [H | [-> ->]].
  - apply below_iff in H. split.
    + destruct (num_ltb n mn) eqn:E; auto.
      pose proof (num_ltb_trans _ _ _ E H) as H1. now rewrite num_ltb_irrefl in H1.
    + destruct (num_eqb n mn) eqn:E; [| apply andb_false_r].
      apply num_eqb_eq in E. subst. now rewrite num_ltb_irrefl in H.
  - rewrite num_ltb_irrefl. auto.
Qed.

Lemma num_range_hi_inv : forall n mx b,
  below n mx \/ (b = true /\ n = mx) ->
  num_ltb mx n = false /\ negb b && num_eqb n mx = false.
Proof.
  intros n mx b [H | [-> ->]].
  - apply below_iff in H. split.
    + destruct (num_ltb mx n) eqn:E; auto.
      pose proof (num_ltb_trans _ _ _ E H) as H1. now rewrite num_ltb_irrefl in H1.
    + destruct (num_eqb n mx) eqn:E; [| apply andb_false_r].
      apply num_eqb_eq in E. subst. now rewrite num_ltb_irrefl in H.
  - rewrite num_ltb_irrefl. auto.
Qed.

Lemma existsb_string : forall s l, existsb (String.eqb s) l = true <-> In s l.
Proof.
  intros s l. rewrite existsb_exists. split.
  - intros (x & H1 & H2). apply String.eqb_eq in H2. now subst.
  - intros H. exists s. split; auto. apply String.eqb_refl.
Qed.

Lemma safe_creator_num : forall a d,
  safe_creator a = Some d -> a_datetime a = false -> a_number a = true ->
  exists mn mx ss, a_min a = VNum mn /\ a_max a = VNum mx /\ num_ltb mx mn = false /\
    (a_strs a = AStar /\ ss = SStar \/ exists l, a_strs a = AList l /\ ss = SList l) /\
    d = mkDtype true (a_incl_min a) (a_incl_max a) mn mx (a_int a) ss (a_nullable a) false.
Proof.
  intros a d H Hd Hn. unfold safe_creator in H. rewrite Hd, Hn in H.
  destruct (a_strs a) as [| l |] eqn:Es; try discriminate.
  - destruct (a_min a) as [| | | mn | |]; destruct (a_max a) as [| | | mx | |];
      simpl in H; try discriminate.
    unfold num_leb in H. destruct (num_ltb mx mn) eqn:E; simpl in H; try discriminate.
    injection H as <-. exists mn, mx, SStar. repeat split; auto.
  - destruct (a_min a) as [| | | mn | |]; destruct (a_max a) as [| | | mx | |];
      simpl in H; try discriminate.
    unfold num_leb in H. destruct (num_ltb mx mn) eqn:E; simpl in H; try discriminate.
    injection H as <-. exists mn, mx, (SList l). repeat split; auto. right. eauto.
Qed.

Lemma safe_creator_nonum : forall a d,
  safe_creator a = Some d -> a_datetime a = false -> a_number a = false ->
  exists ss, (a_strs a = AStar /\ ss = SStar \/ exists l, a_strs a = AList l /\ ss = SList l) /\
    d = mkDtype false true true (of_int 0) PInf false ss (a_nullable a) false.
Proof.
  intros a d H Hd Hn. unfold safe_creator in H. rewrite Hd, Hn in H.
  destruct (a_strs a) as [| l |] eqn:Es; try discriminate; injection H as <-.
  - exists SStar. auto.
  - exists (SList l). split; auto. right. eauto.
Qed.

Lemma valid_data_documented : forall parses a d v,
  safe_creator a = Some d ->
  (valid_data parses d v = true <-> documented parses a v).
Proof.
  intros parses a d v H. unfold valid_data.
  destruct (a_datetime a) eqn:Edt.
  - (* datetime *)
    unfold safe_creator in H. rewrite Edt in H. injection H as <-. simpl.
    split; intros Hv.
    + destruct v; simpl in Hv; try (constructor; now auto);
        (apply doc_parse; auto; discriminate).
    + inversion Hv; subst; simpl; auto; try congruence.
      destruct v; simpl; auto; congruence.
  - destruct (a_number a) eqn:En.
    + destruct (safe_creator_num _ _ H Edt En) as (mn & mx & ss & Hmn & Hmx & Hle & Hss & ->).
      simpl. split; intros Hv.
      * destruct v as [| | b | n | s | z]; simpl in Hv; try discriminate.
        -- now constructor.
        -- now constructor.
        -- destruct (num_ltb n mn) eqn:E1; simpl in Hv; try discriminate.
           destruct (num_ltb mx n) eqn:E2; simpl in Hv; try discriminate.
           destruct (negb (a_incl_min a) && num_eqb n mn) eqn:E3; try discriminate.
           destruct (negb (a_incl_max a) && num_eqb n mx) eqn:E4; try discriminate.
           apply doc_num with mn mx; auto using num_range_lo, num_range_hi.
           intros Hi. rewrite Hi in Hv. simpl in Hv.
           destruct (match py_int n with Some m => num_eqb m n | None => false end) eqn:E5.
           ++ left. now apply py_int_integral.
           ++ simpl in Hv. right.
              destruct (num_eqb n mx && num_eqb mx PInf && a_incl_max a) eqn:E6; try discriminate.
              apply andb_prop in E6 as [E6 E7]. apply andb_prop in E6 as [E6 E8].
              apply num_eqb_eq in E6, E8. subst. auto.
        -- destruct Hss as [[Hs ->] | (l & Hs & ->)]; simpl in Hv.
           ++ now apply doc_any_string.
           ++ apply doc_string with l; auto. now apply existsb_string.
      * inversion Hv as [| | | | n mn' mx' ? ? Hmn' Hmx' Hlo Hhi Hint | |]; subst; simpl; auto; try congruence.
        -- rewrite Hmn in Hmn'. injection Hmn' as <-. rewrite Hmx in Hmx'. injection Hmx' as <-.
           apply num_range_lo_inv in Hlo as [E1 E3]. apply num_range_hi_inv in Hhi as [E2 E4].
           rewrite E1, E2, E3, E4. simpl.
           destruct (a_int a); simpl; auto.
           destruct (Hint eq_refl) as [Hi | (-> & -> & Hi)].
           ++ apply py_int_integral in Hi. now rewrite Hi.
           ++ simpl. now rewrite Hi.
        -- destruct Hss as [[Hs ->] | (l & Hs & ->)]; auto. congruence.
        -- destruct Hss as [[Hs ->] | (l' & Hs & ->)]; auto.
           apply existsb_string. congruence.
    + destruct (safe_creator_nonum _ _ H Edt En) as (ss & Hss & ->). simpl.
      split; intros Hv.
      * destruct v as [| | b | n | s | z]; simpl in Hv; try discriminate.
        -- now constructor.
        -- now constructor.
        -- destruct Hss as [[Hs ->] | (l & Hs & ->)]; simpl in Hv.
           ++ now apply doc_any_string.
           ++ apply doc_string with l; auto. now apply existsb_string.
      * inversion Hv; subst; simpl; auto; try congruence.
        -- destruct Hss as [[Hs ->] | (l & Hs & ->)]; auto. congruence.
        -- destruct Hss as [[Hs ->] | (l' & Hs & ->)]; auto.
           apply existsb_string. congruence.
Qed.

Lemma safe_creator_idem : forall a d,
  safe_creator a = Some d -> safe_creator (args_of d) = Some d.
Proof.
  intros a d H. destruct (a_datetime a) eqn:Edt.
  - unfold safe_creator in H. rewrite Edt in H. now injection H as <-.
  - destruct (a_number a) eqn:En.
    + destruct (safe_creator_num _ _ H Edt En) as (mn & mx & ss & Hmn & Hmx & Hle & Hss & ->).
      unfold safe_creator, args_of. simpl. unfold num_leb. rewrite Hle.
      destruct ss; reflexivity.
    + destruct (safe_creator_nonum _ _ H Edt En) as (ss & Hss & ->).
      unfold safe_creator, args_of. simpl. destruct ss; reflexivity.
Qed.

Lemma safe_creator_minmax : forall a d,
  safe_creator a = Some d -> dmin d = dmax d \/ below (dmin d) (dmax d).
Proof.
  intros a d H. destruct (a_datetime a) eqn:Edt.
  - unfold safe_creator in H. rewrite Edt in H. injection H as <-. right. apply below_fin_pinf.
  - destruct (a_number a) eqn:En.
    + destruct (safe_creator_num _ _ H Edt En) as (mn & mx & ss & Hmn & Hmx & Hle & Hss & ->).
      simpl. destruct (num_ltb_total mn mx) as [E | [E | E]]; auto.
      * right. now apply below_iff.
      * congruence.
    + destruct (safe_creator_nonum _ _ H Edt En) as (ss & Hss & ->). right. apply below_fin_pinf.
Qed.

(** Arguments documented as ignored. *)
Lemma safe_creator_datetime_ignores : forall a b,
  a_datetime a = true -> a_datetime b = true -> a_nullable a = a_nullable b ->
  safe_creator a = safe_creator b.
Proof. intros a b Ha Hb Hn. unfold safe_creator. now rewrite Ha, Hb, Hn. Qed.

Lemma safe_creator_nonumber_ignores : forall a b,
  a_number a = false -> a_number b = false -> a_datetime a = a_datetime b ->
  a_strs a = a_strs b -> a_nullable a = a_nullable b ->
  safe_creator a = safe_creator b.
Proof. intros a b Ha Hb Hd Hs Hn. unfold safe_creator. now rewrite Ha, Hb, Hd, Hs, Hn. Qed.

(** [safe_creator] accepts exactly the sensible calls. *)
Definition sensible (a : dtargs) : Prop :=
  a_datetime a = true \/
  (a_strs a <> ABad /\
   (a_number a = true -> exists mn mx, a_min a = VNum mn /\ a_max a = VNum mx /\
      (mn = mx \/ below mn mx))).

Lemma safe_creator_accepts : forall a, (exists d, safe_creator a = Some d) <-> sensible a.
Proof.
  intros a. split.
  - intros (d & H). destruct (a_datetime a) eqn:Edt; [now left |]. right. split.
    + intros E. unfold safe_creator in H. rewrite Edt, E in H. discriminate.
    + intros En.
      destruct (safe_creator_num _ _ H Edt En) as (mn & mx & ss & Hmn & Hmx & Hle & Hss & _).
      exists mn, mx. repeat split; auto.
      destruct (num_ltb_total mn mx) as [E | [E | E]]; auto.
      * right. now apply below_iff.
      * congruence.
  - intros [Hd | [Hs Hn]]; unfold safe_creator.
    + rewrite Hd. eauto.
    + destruct (a_datetime a); eauto.
      destruct (a_number a).
      * destruct (Hn eq_refl) as (mn & mx & -> & -> & Hle).
        assert (num_ltb mx mn = false) as E.
        { destruct (num_ltb mx mn) eqn:E; auto. destruct Hle as [-> | Hle].
          - now rewrite num_ltb_irrefl in E.
          - apply below_iff in Hle. pose proof (num_ltb_trans _ _ _ E Hle) as H1.
            now rewrite num_ltb_irrefl in H1. }
        destruct (a_strs a); try congruence; simpl; unfold num_leb; rewrite E; simpl; eauto.
      * destruct (a_strs a); try congruence; eauto.
Qed.

(** The temporary type for untyped key fields accepts exactly numbers and
    strings that are not null (booleans and datetimes are rejected). *)
Lemma nonnull_valid : forall parses d v,
  safe_creator nonnull_args = Some d ->
  (valid_data parses d v = true <-> (exists n, v = VNum n) \/ (exists s, v = VStr s)).
Proof.
  intros parses d v H. rewrite (valid_data_documented parses _ _ v H). split.
  - intros Hv. inversion Hv; subst; simpl in *; try discriminate; eauto.
  - intros [(n & ->) | (s & ->)].
    + apply doc_num with NInf PInf; auto; simpl; try discriminate.
      * destruct n; auto; left; constructor.
      * destruct n; auto; left; constructor.
    + now apply doc_any_string.
Qed.
