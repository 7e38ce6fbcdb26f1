(** Facts about comparison within a tolerance. *)
From Coq Require Import ZArith Bool List String Arith Lia.
From Verif Require Import PyVal PyValFacts PyDict PyDictFacts Data FindTypes FK Obj ObjFacts ObjMore Factory InfIO Json Frames Near.
Import ListNotations.
Local Open Scope list_scope.
Local Open Scope Z_scope.

(** Two numbers are close: equal, or finite and both tiny, or finite with a difference of less
    than [eps] times the larger absolute value. *)
Inductive close (eps : num) : num -> num -> Prop :=
| close_same : forall n, close eps n n
| close_tiny : forall x y, Z.abs x <= small_not_zero -> Z.abs y <= small_not_zero -> close eps (Fin x) (Fin y)
| close_rel  : forall e x y, eps = Fin e -> Z.abs (x - y) * one_units < e * Z.max (Z.abs x) (Z.abs y) -> close eps (Fin x) (Fin y)
| close_any  : forall x y, eps = PInf -> close eps (Fin x) (Fin y).

Lemma small_pos : 0 < small_not_zero.
Proof. reflexivity. Qed.
Lemma units_pos : 0 < one_units.
Proof. reflexivity. Qed.
Opaque small_not_zero one_units.

Lemma fl_max_fin : forall x y, fl_max (FNum (Fin x)) (FNum (Fin y)) = FNum (Fin (Z.max x y)).
Proof. intros x y. unfold fl_max. simpl. destruct (Z.ltb_spec x y); f_equal; f_equal; lia. Qed.
Lemma fl_min_fin : forall x y, fl_min (FNum (Fin x)) (FNum (Fin y)) = FNum (Fin (Z.min x y)).
Proof. intros x y. unfold fl_min. simpl. destruct (Z.ltb_spec y x); f_equal; f_equal; lia. Qed.

Lemma body_fin : forall x y, per_error_body (FNum (Fin x)) (FNum (Fin y)) =
  if Z.ltb small_not_zero (Z.max (Z.abs x) (Z.abs y)) then QFrac (Z.abs (x - y)) (Z.max (Z.abs x) (Z.abs y)) else QFrac 0 1.
Proof.
  intros x y. unfold per_error_body. cbn [fl_abs num_abs]. rewrite !fl_max_fin, fl_min_fin.
  cbn [fl_ltb num_ltb fl_sub fl_div]. destruct (Z.ltb _ _); auto. f_equal. lia.
Qed.

Lemma of_int_0 : of_int 0 = Fin 0.
Proof. reflexivity. Qed.

Lemma error_fin : forall x y, per_error (FNum (Fin x)) (FNum (Fin y)) =
  if Z.ltb small_not_zero (Z.max (Z.abs x) (Z.abs y)) then QFrac (Z.abs (x - y)) (Z.max (Z.abs x) (Z.abs y)) else QFrac 0 1.
Proof.
  intros x y. unfold per_error. rewrite of_int_0. cbn [fl_ltb num_ltb]. destruct (Z.ltb x 0 && Z.ltb y 0)%bool eqn:E; [| apply body_fin].
  cbn [fl_neg num_neg]. rewrite body_fin, !Z.abs_opp. now replace (- x - - y) with (- (x - y)) by lia; rewrite Z.abs_opp.
Qed.

Lemma zero_near : forall eps, num_ltb (of_int 0) eps = true -> quot_ltb (QFrac 0 1) eps = true.
Proof. intros [| e |]; rewrite of_int_0; simpl; auto. rewrite Z.mul_1_r. auto. Qed.

Lemma near_fin : forall eps x y, num_ltb (of_int 0) eps = true ->
  (quot_ltb (per_error (FNum (Fin x)) (FNum (Fin y))) eps = true <-> close eps (Fin x) (Fin y)).
Proof.
  intros eps x y He. rewrite error_fin. pose proof units_pos. pose proof small_pos. destruct (Z.ltb_spec small_not_zero (Z.max (Z.abs x) (Z.abs y))) as [L | L].
  - split.
    + intros H1. destruct eps as [| e |]; cbn [quot_ltb] in H1; [discriminate | | now apply close_any]. apply Z.ltb_lt in H1. eapply close_rel; eauto.
    + inversion 1; subst.
      * rewrite of_int_0 in He. destruct eps as [| e |]; cbn [quot_ltb num_ltb] in *; auto; try discriminate. apply Z.ltb_lt. apply Z.ltb_lt in He.
        replace (y - y) with 0 by lia. change (Z.abs 0) with 0. rewrite Z.mul_0_l. apply Z.mul_pos_pos; lia.
      * lia.
      * cbn [quot_ltb]. now apply Z.ltb_lt.
      * reflexivity.
  - split; [intros _; apply close_tiny; lia | intros _; now apply zero_near].
Qed.

Lemma error_inf : forall eps x y, num_ltb (of_int 0) eps = true -> (forall a b, x = Fin a -> y = Fin b -> False) ->
  (quot_ltb (per_error (FNum x) (FNum y)) eps = true <-> x = y).
Proof.
  intros eps x y He Hf. pose proof small_pos as Hs. assert (Z.ltb 0 0 = false) as Z0 by reflexivity.
  destruct x as [| a |], y as [| b |]; try (exfalso; eapply Hf; reflexivity); unfold per_error; rewrite of_int_0;
    cbn [fl_ltb num_ltb andb fl_neg num_neg per_error_body fl_abs num_abs fl_max fl_min fl_sub fl_div].
  - split; auto. intros _. now apply zero_near.
  - destruct (Z.ltb b 0); cbn [andb]; cbn; destruct eps; split; intros; try discriminate.
  - cbn. destruct eps; split; discriminate.
  - rewrite andb_false_r || rewrite andb_true_r. destruct (Z.ltb a 0); cbn; destruct eps; split; intros; try discriminate.
  - rewrite andb_false_r. cbn. destruct eps; split; discriminate.
  - cbn. destruct eps; split; discriminate.
  - cbn. destruct eps; split; discriminate.
  - split; auto. intros _. now apply zero_near.
Qed.

Lemma near_num : forall eps x y, num_ltb (of_int 0) eps = true ->
  (quot_ltb (per_error (FNum x) (FNum y)) eps = true <-> close eps x y).
Proof.
  intros eps x y He. destruct x as [| a |], y as [| b |]; try now apply near_fin.
  all: rewrite error_inf by (auto; intros; discriminate); split; [intros E; try discriminate; apply close_same | inversion 1; auto].
Qed.

Lemma close_sym : forall eps x y, close eps x y -> close eps y x.
Proof.
  intros eps x y [n | a b H1 H2 | e a b H1 H2 | a b H]; [apply close_same | now apply close_tiny | | now apply close_any].
  eapply close_rel; eauto. rewrite Z.max_comm. now replace (Z.abs (b - a)) with (Z.abs (a - b)) by lia.
Qed.

Lemma close_mono : forall eps eps' x y, num_ltb eps' eps = false -> close eps x y -> close eps' x y.
Proof.
  intros eps eps' x y Hle [n | a b H1 H2 | e a b H1 H2 | a b H]; [apply close_same | now apply close_tiny | |].
  - subst eps. destruct eps' as [| e' |]; cbn [num_ltb] in Hle; [discriminate | | now apply close_any]. apply Z.ltb_ge in Hle.
    eapply close_rel; eauto. eapply Z.lt_le_trans; [exact H2 |]. apply Z.mul_le_mono_nonneg_r; lia.
  - subst eps. destruct eps'; try discriminate. now apply close_any.
Qed.

(** The number a cell is, if any. *)
Definition number_of (v : value) : option num :=
  match v with VNum n => Some n | VBool b => Some (of_int (if b then 1 else 0)) | _ => None end.

Lemma nearly_same_iff : forall eps a b, num_ltb (of_int 0) eps = true -> a <> VNaN -> b <> VNaN ->
  (nearly_same eps a b = true <-> exists x y, number_of a = Some x /\ number_of b = Some y /\ close eps x y).
Proof.
  intros eps a b He Ha Hb. unfold nearly_same.
  destruct a; try congruence; destruct b; try congruence; cbn [to_fl number_of];
    try (split; [discriminate | intros (? & ? & ? & ? & ?); discriminate]);
    rewrite near_num by auto; (split; [intros H; eexists _, _; split; [reflexivity |]; split; [reflexivity | exact H] | intros (x & y & E1 & E2 & H); injection E1 as <-; injection E2 as <-; exact H]).
Qed.

(** NaN is near every finite number, on either side. *)
Lemma nan_near : forall eps z, num_ltb (of_int 0) eps = true ->
  nearly_same eps VNaN (VNum (Fin z)) = true /\ nearly_same eps (VNum (Fin z)) VNaN = true.
Proof.
  intros eps z He. assert (per_error FNaN (FNum (Fin z)) = QFrac 0 1) as E1 by (unfold per_error; cbn; reflexivity).
  split; unfold nearly_same; cbn [to_fl].
  - rewrite E1. now apply zero_near.
  - unfold per_error. cbn [fl_ltb]. rewrite andb_false_r. unfold per_error_body. cbn [fl_abs num_abs].
    unfold fl_max, fl_min. cbn [fl_ltb fl_sub fl_div]. pose proof small_pos as Hs. destruct (num_ltb (Fin small_not_zero) _) eqn:E; [| now apply zero_near].
    cbn [num_ltb] in E. apply Z.ltb_lt in E. rewrite Z.sub_diag. destruct eps as [| e |]; cbn [quot_ltb]; auto; rewrite of_int_0 in He; try discriminate. cbn [num_ltb] in He.
    rewrite Z.mul_0_l. apply Z.ltb_lt in He. apply Z.ltb_lt. apply Z.mul_pos_pos; lia.
Qed.

(** ** Tables and objects *)

(** The cells of an object satisfy [P]. *)
Definition obj_cells (P : value -> Prop) (sch : schema) (d : obj) : Prop := forall t ts, In (t, ts) sch ->
  match d t with
  | OKeyed l => forall k r, In (k, r) l -> Forall P r
  | OListed l => forall r, In r l -> Forall P r
  end.

(** Tables agree up to [R]: the same keys, and cells in the relation [R] under each; as many rows, and for each one of
    the first table a row of the second with cells in the relation [R]. *)
Definition keyed_alike (R : value -> value -> Prop) (l m : list (pkey * row)) : Prop :=
  (forall k, (exists r, dget pkey_eqb l k = Some r) <-> (exists r, dget pkey_eqb m k = Some r)) /\
  (forall k r r', dget pkey_eqb l k = Some r -> dget pkey_eqb m k = Some r' -> Forall2 R r r').
Definition listed_alike (R : value -> value -> Prop) (l m : list row) : Prop :=
  List.length l = List.length m /\ forall r, In r l -> exists r', In r' m /\ Forall2 R r r'.
Definition objects_alike (R : value -> value -> Prop) (sch : schema) (d e : obj) : Prop := forall t ts, In (t, ts) sch ->
  match d t, e t with
  | OKeyed l, OKeyed m => keyed_alike R l m
  | OListed l, OListed m => listed_alike R l m
  | _, _ => False
  end.

Section Reflect.
  Variable same : value -> value -> bool.
  Variable R : value -> value -> Prop.
  Variable P : value -> Prop.
  Hypothesis same_R : forall a b, P a -> P b -> (same a b = true <-> R a b).

  Lemma row_by_iff : forall a b, List.length a = List.length b -> Forall P a -> Forall P b ->
    (same_row_by same a b = true <-> Forall2 R a b).
  Proof.
    unfold same_row_by. induction a as [| x a IH]; intros [| y b] H Ha Hb; simpl in *; try discriminate.
    - split; auto.
    - inversion Ha; inversion Hb; subst. rewrite andb_true_iff, same_R, IH by (auto; lia). split.
      + intros [X1 X2]. now constructor.
      + inversion 1; auto.
  Qed.

  Lemma table_by_keyed : forall ts l m, tpk ts <> [] -> table_ok ts (OKeyed l) -> table_ok ts (OKeyed m) ->
    (forall k r, In (k, r) l -> Forall P r) -> (forall k r, In (k, r) m -> Forall P r) -> no_equal_keys (map fst l) ->
    (same_table_by same (OKeyed l) (OKeyed m) = true <-> keyed_alike R l m).
  Proof.
    intros ts l m Hne Hl Hm Pl Pm Hk. unfold table_ok in *. destruct (tpk ts) as [| p pk]; [congruence |].
    apply no_equal_keys_iff in Hk.
    assert (forall k r, dget pkey_eqb l k = Some r -> List.length r = List.length (tdf ts) /\ Forall P r) as Ll.
    { intros k r H. apply dget_In in H as (k' & _ & Hin). split; [eapply Hl; eauto | eauto]. }
    assert (forall k r, dget pkey_eqb m k = Some r -> List.length r = List.length (tdf ts) /\ Forall P r) as Lm.
    { intros k r H. apply dget_In in H as (k' & _ & Hin). split; [eapply Hm; eauto | eauto]. }
    unfold same_table_by, same_keys, keyed_alike. rewrite !andb_true_iff, !forallb_forall. split.
    - intros [[H1 H2] H3]. split.
      + intros k. rewrite <- !dget_some_iff. split; intros H.
        * apply existsb_exists in H as (k' & Hin & E). apply H1 in Hin.
          apply dget_some_iff in Hin as [r Hr]. apply dget_some_iff. exists r.
          now rewrite <- (dget_keq m _ _ E).
        * apply existsb_exists in H as (k' & Hin & E). apply H2 in Hin.
          apply dget_some_iff in Hin as [r Hr]. apply dget_some_iff. exists r.
          now rewrite <- (dget_keq l _ _ E).
      + intros k r r' Hr Hr'. pose proof (dget_In _ _ _ _ Hr) as (k' & E & Hin). specialize (H3 _ Hin).
        cbn [fst snd] in H3. rewrite (dget_keq m _ _ E), Hr' in H3. destruct (Ll _ _ Hr) as [A1 A2], (Lm _ _ Hr') as [B1 B2].
        apply row_by_iff in H3; auto. congruence.
    - intros [H1 H2]. repeat split.
      + intros k Hin. apply dget_some_iff. apply H1. apply dget_some_iff. apply existsb_exists. exists k.
        split; auto. apply pkey_eqb_refl.
      + intros k Hin. apply dget_some_iff. apply H1. apply dget_some_iff. apply existsb_exists. exists k.
        split; auto. apply pkey_eqb_refl.
      + intros [k r] Hin. cbn [fst snd].
        assert (dget pkey_eqb l k = Some r) as Hr by (apply (In_dget pkey_eqb pkey_eqb_refl); auto).
        destruct (proj1 (H1 k) (ex_intro _ r Hr)) as [r' Hr']. rewrite Hr'. destruct (Ll _ _ Hr) as [A1 A2], (Lm _ _ Hr') as [B1 B2].
        apply row_by_iff; eauto. congruence.
  Qed.

  Lemma table_by_listed : forall ts l m, tpk ts = [] -> table_ok ts (OListed l) -> table_ok ts (OListed m) ->
    (forall r, In r l -> Forall P r) -> (forall r, In r m -> Forall P r) ->
    (same_table_by same (OListed l) (OListed m) = true <-> listed_alike R l m).
  Proof.
    intros ts l m E Hl Hm Pl Pm. unfold table_ok in *. rewrite E in *. unfold same_table_by, listed_alike.
    rewrite andb_true_iff, Nat.eqb_eq, forallb_forall. split; intros [H1 H2]; split; auto; intros r Hr.
    - specialize (H2 r Hr). apply existsb_exists in H2 as (r' & Hin & Hs). exists r'. split; auto.
      apply row_by_iff; auto. rewrite (Hl _ Hr), (Hm _ Hin). reflexivity.
    - destruct (H2 r Hr) as (r' & Hin & Hs). apply existsb_exists. exists r'. split; auto.
      apply row_by_iff; auto. rewrite (Hl _ Hr), (Hm _ Hin). reflexivity.
  Qed.

  Theorem data_by_iff : forall sch d e, obj_ok sch d -> obj_ok sch e -> obj_keys sch d -> obj_cells P sch d -> obj_cells P sch e ->
    (same_data_by same sch d e = true <-> objects_alike R sch d e).
  Proof.
    intros sch d e Hd He Hk Pd Pe. unfold same_data_by, objects_alike. rewrite forallb_forall. split.
    - intros H t ts Hs. pose proof (H _ Hs) as Ht. cbn [fst] in Ht. specialize (Hd _ _ Hs). specialize (He _ _ Hs).
      specialize (Hk _ _ Hs). specialize (Pd _ _ Hs). specialize (Pe _ _ Hs). destruct (d t) as [l | l] eqn:E1, (e t) as [m | m] eqn:E2; try discriminate.
      + eapply table_by_keyed; eauto. intros Hc. unfold table_ok in Hd. now rewrite Hc in Hd.
      + eapply table_by_listed; eauto. unfold table_ok in Hd. destruct (tpk ts); auto. contradiction.
    - intros H [t ts] Hs. cbn [fst]. specialize (H _ _ Hs). specialize (Hd _ _ Hs). specialize (He _ _ Hs).
      specialize (Hk _ _ Hs). specialize (Pd _ _ Hs). specialize (Pe _ _ Hs). destruct (d t) as [l | l] eqn:E1, (e t) as [m | m] eqn:E2; try contradiction.
      + eapply table_by_keyed; eauto. intros Hc. unfold table_ok in Hd. now rewrite Hc in Hd.
      + eapply table_by_listed; eauto. unfold table_ok in Hd. destruct (tpk ts); auto. contradiction.
  Qed.
End Reflect.

Lemma alike_mono : forall (R R' : value -> value -> Prop) sch d e, (forall a b, R a b -> R' a b) -> objects_alike R sch d e -> objects_alike R' sch d e.
Proof.
  intros R R' sch d e HR H t ts Hs. specialize (H t ts Hs).
  assert (forall r r', Forall2 R r r' -> Forall2 R' r r') as F by (induction 1; constructor; auto).
  destruct (d t), (e t); auto; destruct H as [H1 H2]; split; auto.
  - intros k r r' A B. eauto.
  - intros r Hr. destruct (H2 r Hr) as (r' & A & B). eauto.
Qed.

(** Two cells count as the same. *)
Inductive alike (eps : num) (nans empties : bool) (a b : value) : Prop :=
| alike_equal : same_cell a b -> alike eps nans empties a b
| alike_close : forall x y, num_ltb (of_int 0) eps = true -> number_of a = Some x -> number_of b = Some y -> close eps x y -> alike eps nans empties a b
| alike_missing : nans = true -> (a = VNone \/ a = VNaN \/ empties = true /\ a = VStr "") -> (b = VNone \/ b = VNaN \/ empties = true /\ b = VStr "") ->
    alike eps nans empties a b.

Lemma counts_iff : forall em v, counts_as_nan em v = true <-> v = VNone \/ v = VNaN \/ em = true /\ v = VStr "".
Proof.
  intros em v. unfold counts_as_nan. rewrite orb_true_iff, andb_true_iff. destruct v; simpl; split; intros H; auto;
    try (destruct H as [H | [H1 H2]]; discriminate); try (destruct H as [H | [H | [H1 H2]]]; discriminate).
  - destruct H as [H | [-> H]]; [discriminate |]. apply String.eqb_eq in H. subst. auto.
  - destruct H as [H | [H | [-> H]]]; try discriminate. injection H as ->. auto.
Qed.

Lemma cell_same_iff : forall eps nans em a b, (num_ltb (of_int 0) eps = true -> a <> VNaN) -> (num_ltb (of_int 0) eps = true -> b <> VNaN) ->
  (cell_same eps nans em a b = true <-> alike eps nans em a b).
Proof.
  intros eps nans em a b Ha Hb. unfold cell_same. rewrite !orb_true_iff, !andb_true_iff, cell_neq_iff, !counts_iff. split.
  - intros [[H | [H1 H2]] | (-> & H2 & H3)]; [now apply alike_equal | | now apply alike_missing].
    apply nearly_same_iff in H2 as (x & y & A & B & C); auto. eapply alike_close; eauto.
  - intros [H | x y H1 H2 H3 H4 | H1 H2 H3]; [auto | | auto]. left. right. split; auto. apply nearly_same_iff; eauto.
Qed.

Lemma alike_sym : forall eps nans em a b, alike eps nans em a b -> alike eps nans em b a.
Proof.
  intros eps nans em a b [H | x y H1 H2 H3 H4 | H1 H2 H3]; [apply alike_equal; now apply same_cell_sym | eapply alike_close; eauto; now apply close_sym | now apply alike_missing].
Qed.

(** With tolerance 0 this is the comparison of Obj.v. *)
Lemma same_data_zero : forall sch d e, same_data_tol (of_int 0) false false sch d e = Some (same_data sch d e).
Proof.
  intros sch d e. unfold same_data_tol. rewrite of_int_0. cbn [num_ltb]. rewrite Z.ltb_irrefl. f_equal.
  unfold same_data_by, same_data. assert (forall a b, cell_same (Fin 0) false false a b = negb (cell_neq a b)) as C.
  { intros a b. unfold cell_same. rewrite of_int_0. cbn [num_ltb]. rewrite Z.ltb_irrefl. cbn [andb]. now rewrite !orb_false_r. }
  assert (forall r r', same_row_by (cell_same (Fin 0) false false) r r' = same_row r r') as Rw.
  { intros r r'. unfold same_row_by, same_row. induction (combine r r') as [| ab l IH]; auto. cbn [forallb]. now rewrite C, IH. }
  induction sch as [| tts sch IH]; auto. cbn [forallb]. rewrite IH. f_equal. unfold same_table_by, same_table.
  destruct (d (fst tts)) as [l | l], (e (fst tts)) as [m | m]; auto; f_equal.
  - induction l as [| kr l IHl]; auto. cbn [forallb]. rewrite IHl. f_equal. destruct (dget pkey_eqb m (fst kr)); auto.
  - induction l as [| r l IHl]; auto. cbn [forallb]. rewrite IHl. f_equal. clear IHl. induction m as [| r' m IHm]; auto. cbn [existsb]. now rewrite Rw, IHm.
Qed.
