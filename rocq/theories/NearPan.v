(** Facts about the comparison of PanDat objects. *)
From Coq Require Import ZArith Bool List String Arith Lia.
From Verif Require Import PyVal PyValFacts PyDict PyDictFacts Data FindTypes FK Obj ObjFacts ObjMore Factory InfIO Json Csv CsvTrip Frames FramesFacts FramesTrip P_Frames Near NearFacts.
Import ListNotations.
Local Open Scope string_scope.
Local Open Scope list_scope.

(** As many rows, and for each row of the first table one of the second with an equal key and data cells in the
    relation [R]. *)
Definition rows_alike (R : value -> value -> Prop) (ts : tschema) (rs rs' : list (list value)) : Prop :=
  List.length rs = List.length rs' /\
  forall r, In r rs -> exists r', In r' rs' /\ pkey_eqb (key_of ts r) (key_of ts r') = true /\
    Forall2 R (skipn (List.length (tpk ts)) r) (skipn (List.length (tpk ts)) r').

(** The same for generic tables, which have no key and no fixed columns. *)
Definition frames_alike (R : value -> value -> Prop) (x y : frame) : Prop :=
  (forall c, In c (fr_cols x) <-> In c (fr_cols y)) /\
  List.length (fr_rows x) = List.length (fr_rows y) /\
  forall r, In r (fr_rows x) -> exists r', In r' (fr_rows y) /\
    forall f a b, In (CName f) (fr_cols x) -> reads x r f a -> reads y r' f b -> R a b.

Lemma reads_unique : forall fr r f v w, NoDup (fr_cols fr) -> In (CName f) (fr_cols fr) -> reads fr r f v -> reads fr r f w -> v = w.
Proof.
  intros fr r f v w N Hin [(i & A & B) | [A _]] [(j & C & D) | [C _]]; try contradiction.
  assert (i = j) as <-; [| congruence]. apply (proj1 (NoDup_nth_error (fr_cols fr)) N); [| congruence]. apply nth_error_Some. congruence.
Qed.

Lemma reads_rows_unique : forall ts fr rs rs', rect fr -> (forall f, In f (tfields ts) -> In (CName f) (fr_cols fr)) ->
  reads_rows ts fr rs -> reads_rows ts fr rs' -> rs = rs'.
Proof.
  intros ts fr rs rs' [N _] C H. unfold reads_rows in *. revert rs'. induction H as [| r x l m F _ IH]; intros rs' H'; inversion H' as [| ? y ? m' G T]; subst; auto.
  f_equal; auto. clear - N C F G. revert y G. induction F as [| f v fs x Hv F IH]; intros y G; inversion G as [| ? w ? y' Hw G']; subst; auto. f_equal.
  - eapply reads_unique; eauto. apply C. simpl; auto.
  - apply IH; auto. intros; apply C; simpl; auto.
Qed.

Section Tables.
  Variable sch : schema.
  Variable x : string -> frame.
  Hypothesis W : wf_schema sch.
  Hypothesis Hf : forall t ts, In (t, ts) sch -> frameable ts.
  Hypothesis Hx : forall t ts, In (t, ts) sch -> rect (x t) /\ forall f, In f (tfields ts) -> In (CName f) (fr_cols (x t)).

  Lemma as_tic_exact : forall mode rs, (forall t ts, In (t, ts) sch -> reads_rows ts (x t) (rs t)) ->
    (forall t ts, In (t, ts) sch -> tpk ts <> [] -> no_equal_keys (map (key_of ts) (rs t))) ->
    exists d, pan_as_tic sch mode x = Some d /\ forall t ts, In (t, ts) sch -> d t = rows_table ts (rs t).
  Proof.
    intros mode rs Hr Hk. set (px := fun t : string => Some (PFrame (x t))).
    assert (pan_object sch [] px x) as PO.
    { split; auto. split; [constructor |]. split; [intros t [] |]. split; [reflexivity |]. exact Hx. }
    destruct (copies_exact sch [] px x PO Hf mode) as (rs0 & A & _ & C).
    assert (forall t ts, In (t, ts) sch -> rs0 t = rs t) as E.
    { intros t ts Hin. destruct (Hx t ts Hin) as [H1 H2]. eapply reads_rows_unique; eauto. }
    destruct C as (e & gs & E1 & E2 & _).
    { intros (_ & t & ts & Hin & Hp & Hn). apply Hn. rewrite (E t ts Hin). eauto. }
    exists e. split; [| intros t ts Hin; rewrite (E2 t ts Hin), (E t ts Hin); reflexivity].
    unfold copy_to_tic_dat in E1. destruct (good_pan sch [] px); [| discriminate]. unfold pan_as_tic.
    replace (map (fun tts : string * tschema => (fst tts, PFrame (x (fst tts)))) sch)
      with (flat_map (fun t => match px t with Some a => [(t, a)] | None => [] end) (map fst sch ++ [])).
    { now rewrite E1. }
    rewrite app_nil_r. clear. unfold px. induction sch as [| tts s IH]; auto. simpl. f_equal. exact IH.
  Qed.
End Tables.

Lemma rows_table_shape : forall ts rs, (forall r, In r rs -> List.length r = List.length (tfields ts)) -> table_ok ts (rows_table ts rs).
Proof.
  intros ts rs L. unfold rows_table, table_ok. destruct (tpk ts) as [| p pk] eqn:Ep.
  - intros r Hr. rewrite (L r Hr). unfold tfields. now rewrite Ep.
  - intros k r Hin. apply dict_of_In in Hin as [H1 H2]. rewrite map_map in H1, H2. cbn [fst snd] in H1, H2.
    apply in_map_iff in H1 as (r1 & <- & H1). apply in_map_iff in H2 as (r2 & <- & H2). split.
    + apply key_of_shape; auto. congruence.
    + rewrite skipn_length, (L r2 H2). unfold tfields. rewrite app_length, Ep. simpl. lia.
Qed.

Lemma rows_table_cells : forall P ts rs, (forall r, In r rs -> Forall P (skipn (List.length (tpk ts)) r)) ->
  match rows_table ts rs with
  | OKeyed l => forall k r, In (k, r) l -> Forall P r
  | OListed l => forall r, In r l -> Forall P r
  end.
Proof.
  intros P ts rs H. unfold rows_table. destruct (tpk ts) as [| p pk] eqn:Ep; [exact H |]. intros k r Hin.
  apply dict_of_In in Hin as [_ H2]. rewrite map_map in H2. apply in_map_iff in H2 as (r2 & <- & H2). cbn [snd]. now apply H.
Qed.

Lemma keyed_rows_alike : forall R ts rs rs', tpk ts <> [] -> no_equal_keys (map (key_of ts) rs) -> no_equal_keys (map (key_of ts) rs') ->
  List.length rs = List.length rs' ->
  let tb u : list (pkey * row) := map (fun r => (key_of ts r, skipn (List.length (tpk ts)) r)) u in
  (keyed_alike R (tb rs) (tb rs') <-> rows_alike R ts rs rs').
Proof.
  intros R ts rs rs' Hp Nx Ny L tb.
  assert (forall u, no_equal_keys (map (key_of ts) u) -> forall k v, dget pkey_eqb (tb u) k = Some v <->
            exists r, In r u /\ pkey_eqb (key_of ts r) k = true /\ v = skipn (List.length (tpk ts)) r) as G.
  { intros u N k v. assert (keys_distinct pkey_eqb (map fst (tb u))) as D.
    { unfold tb. rewrite map_map. cbn [fst]. now apply no_equal_keys_iff. }
    split.
    - intros H. apply dget_In in H as (k' & E & Hin). unfold tb in Hin. apply in_map_iff in Hin as (r & E2 & Hin). injection E2 as <- <-. eauto.
    - intros (r & Hin & E & ->). rewrite <- (dget_keq (tb u) (key_of ts r) k E).
      apply (In_dget pkey_eqb pkey_eqb_refl); auto. unfold tb. apply in_map_iff. eauto. }
  split.
  - intros [H1 H2]. split; auto. intros r Hr.
    assert (dget pkey_eqb (tb rs) (key_of ts r) = Some (skipn (List.length (tpk ts)) r)) as Hg.
    { apply G; auto. exists r. split; auto. split; auto. apply pkey_eqb_refl. }
    destruct (proj1 (H1 (key_of ts r)) (ex_intro _ _ Hg)) as [v Hv]. pose proof (H2 _ _ _ Hg Hv) as F.
    apply G in Hv as (r' & Hr' & E & ->); auto. exists r'. split; auto. split; auto. now rewrite pkey_eqb_sym.
  - intros [_ H].
    assert (incl (map canon_key (map (key_of ts) rs)) (map canon_key (map (key_of ts) rs'))) as I1.
    { intros c Hc. apply in_map_iff in Hc as (k & <- & Hk). apply in_map_iff in Hk as (r & <- & Hr).
      destruct (H r Hr) as (r' & Hr' & E & _). apply pkey_eqb_iff in E. rewrite E. apply in_map, in_map. auto. }
    assert (incl (map canon_key (map (key_of ts) rs')) (map canon_key (map (key_of ts) rs))) as I2.
    { apply NoDup_length_incl; auto. rewrite !map_length. lia. }
    assert (forall r r0, In r rs' -> In r0 rs' -> pkey_eqb (key_of ts r) (key_of ts r0) = true -> r = r0) as U.
    { clear - Ny. unfold no_equal_keys in Ny. induction rs' as [| s rs' IH]; intros r r0 H1 H2 E; [destruct H1 |]. cbn [map] in Ny. inversion Ny as [| ? ? N1 N2]; subst.
      apply pkey_eqb_iff in E. destruct H1 as [<- | H1], H2 as [<- | H2]; auto.
      - exfalso. apply N1. rewrite E. apply in_map, in_map. auto.
      - exfalso. apply N1. rewrite <- E. apply in_map, in_map. auto.
      - apply IH; auto. now apply pkey_eqb_iff. }
    split.
    + intros k. split; intros [v Hv]; apply G in Hv as (r & Hr & E & ->); auto.
      * destruct (H r Hr) as (r' & Hr' & E' & _). exists (skipn (List.length (tpk ts)) r'). apply G; auto. exists r'. split; auto. split; auto.
        rewrite pkey_eqb_sym in E'. eapply pkey_eqb_trans; eauto.
      * assert (In (canon_key (key_of ts r)) (map canon_key (map (key_of ts) rs))) as Hc by (apply I2; apply in_map, in_map; auto).
        apply in_map_iff in Hc as (k0 & E0 & Hk). apply in_map_iff in Hk as (r0 & <- & Hr0). exists (skipn (List.length (tpk ts)) r0).
        apply G; auto. exists r0. split; auto. split; auto. apply pkey_eqb_iff in E. apply pkey_eqb_iff. congruence.
    + intros k v v' Hv Hv'. apply G in Hv as (r & Hr & E & ->); auto. apply G in Hv' as (r' & Hr' & E' & ->); auto.
      destruct (H r Hr) as (r0 & Hr0 & E0 & F). assert (r0 = r') as <-; auto. apply U; auto. apply pkey_eqb_iff in E, E', E0. apply pkey_eqb_iff. congruence.
Qed.

Lemma table_rows_alike : forall R ts rs rs', (tpk ts <> [] -> no_equal_keys (map (key_of ts) rs)) -> (tpk ts <> [] -> no_equal_keys (map (key_of ts) rs')) ->
  List.length rs = List.length rs' ->
  (match rows_table ts rs, rows_table ts rs' with
   | OKeyed l, OKeyed m => keyed_alike R l m
   | OListed l, OListed m => listed_alike R l m
   | _, _ => False
   end <-> rows_alike R ts rs rs').
Proof.
  intros R ts rs rs' Nx Ny L. unfold rows_table. destruct (tpk ts) as [| p pk] eqn:Ep.
  - unfold listed_alike, rows_alike. rewrite Ep. cbn [List.length skipn]. assert (forall r, key_of ts r = KTup []) as K by (intros r; unfold key_of; rewrite Ep; reflexivity).
    split; intros [H1 H2]; split; auto; intros r Hr; destruct (H2 r Hr) as (r' & H3).
    + exists r'. destruct H3 as [A B]. split; auto. split; auto. now rewrite !K.
    + exists r'. destruct H3 as (A & _ & B). auto.
  - rewrite <- Ep. assert (tpk ts <> []) as Hp by congruence.
    rewrite !dict_of_distinct by (rewrite map_map; cbn [fst]; apply no_equal_keys_iff; apply Nx || apply Ny; congruence).
    apply keyed_rows_alike; auto; [apply Nx | apply Ny]; congruence.
Qed.

(** ** Generic tables *)

Lemma same_columns_iff : forall x y, same_columns x y = true <-> forall c, In c (fr_cols x) <-> In c (fr_cols y).
Proof.
  intros x y. unfold same_columns. rewrite andb_true_iff, !forallb_forall.
  assert (forall c l, existsb (col_eqb c) l = true <-> In c l) as E.
  { intros c l. rewrite existsb_exists. split; [intros (d & A & B); apply col_eqb_eq in B; now subst | intros H; exists c; split; auto; now apply col_eqb_eq]. }
  split.
  - intros [A B] c. split; intros H; [apply A in H | apply B in H]; now apply E in H.
  - intros H. split; intros c Hc; apply E; now apply H.
Qed.

(** A generic table that can be compared: columns with different names, all strings, and cells in [P]. *)
Definition generic_ok (P : value -> Prop) (fr : frame) : Prop :=
  rect fr /\ (forall c, In c (fr_cols fr) -> exists f, c = CName f) /\ forall r, In r (fr_rows fr) -> Forall P (snd r).

Lemma cell_of_reads : forall fr r f v, rect fr -> In r (fr_rows fr) -> In (CName f) (fr_cols fr) ->
  (cell_of (fr_cols fr) (snd r) f = Some v <-> reads fr r f v).
Proof.
  intros fr r f v [N L] Hr Hc. rewrite cell_of_nth by (auto; apply L; auto). unfold reads. split; [auto |]. intros [H | [H _]]; auto. contradiction.
Qed.

Lemma generic_reads : forall fr r f, rect fr -> In r (fr_rows fr) -> In (CName f) (fr_cols fr) -> exists v, reads fr r f v.
Proof.
  intros fr r f [N L] Hr Hc. destruct (L r Hr) as [_ L2]. apply In_nth_error in Hc as [i Hi].
  destruct (nth_error (snd r) i) as [v |] eqn:E; [exists v; left; eauto |]. apply nth_error_None in E.
  assert (i < List.length (fr_cols fr)) by (apply nth_error_Some; congruence). lia.
Qed.

Section Generic.
  Variable same : value -> value -> bool.
  Variable R : value -> value -> Prop.
  Variable P : value -> Prop.
  Hypothesis same_R : forall a b, P a -> P b -> (same a b = true <-> R a b).

  Lemma same_generic_iff : forall x y, generic_ok P x -> generic_ok P y -> (forall c, In c (fr_cols x) <-> In c (fr_cols y)) ->
    List.length (fr_rows x) = List.length (fr_rows y) -> (same_generic same x y = true <-> frames_alike R x y).
  Proof.
    intros x y (Rx & Cx & Px) (Ry & Cy & Py) Hc Hl.
    assert (forall fr r f v, (forall r, In r (fr_rows fr) -> Forall P (snd r)) -> In r (fr_rows fr) -> In (CName f) (fr_cols fr) -> reads fr r f v -> P v) as PV.
    { intros fr r f v Hp Hr Hf [(i & A & B) | [A _]]; [| contradiction]. apply nth_error_In in B. exact (proj1 (Forall_forall _ _) (Hp r Hr) v B). }
    assert (forall r r', In r (fr_rows x) -> In r' (fr_rows y) ->
              (same_generic_row same (fr_cols x) (snd r) (fr_cols y) (snd r') = true <->
               forall f a b, In (CName f) (fr_cols x) -> reads x r f a -> reads y r' f b -> R a b)) as Row.
    { intros r r' Hr Hr'. unfold same_generic_row. rewrite forallb_forall. split.
      - intros H f a b Hf Ha Hb. specialize (H (CName f) Hf). cbv beta iota in H.
        pose proof (proj1 (Hc _) Hf) as Hf'. apply cell_of_reads in Ha as Ha'; auto. apply cell_of_reads in Hb as Hb'; auto.
        rewrite Ha', Hb' in H. apply (same_R a b (PV x r f a Px Hr Hf Ha) (PV y r' f b Py Hr' Hf' Hb)). exact H.
      - intros H c Hin. destruct (Cx c Hin) as [f ->]. pose proof (proj1 (Hc _) Hin) as Hin'.
        destruct (generic_reads x r f Rx Hr Hin) as [a Ha]. destruct (generic_reads y r' f Ry Hr' Hin') as [b Hb].
        rewrite (proj2 (cell_of_reads x r f a Rx Hr Hin) Ha), (proj2 (cell_of_reads y r' f b Ry Hr' Hin') Hb).
        apply same_R; eauto. }
    unfold same_generic, frames_alike. rewrite forallb_forall. split.
    - intros H. split; auto. split; auto. intros r Hr. specialize (H r Hr). apply existsb_exists in H as (r' & Hr' & H). exists r'. split; auto. now apply Row.
    - intros (_ & _ & H) r Hr. destruct (H r Hr) as (r' & Hr' & H'). apply existsb_exists. exists r'. split; auto. now apply Row.
  Qed.
End Generic.

(** ** The comparison *)

Section Compare.
  Variables (eps : num) (nans : bool) (sch : schema) (generics : list string) (mode : string) (x y : string -> frame).
  Variables rx ry : string -> list (list value).

  (** A cell for which the tolerance works: no NaN unless the tolerance is 0. *)
  Definition tolerable (v : value) : Prop := num_ltb (of_int 0) eps = true -> v <> VNaN.

  (** The PanDat object has the columns its schema asks for, [rs] are its rows, keys are different and cells tolerable. *)
  Definition comparable (z : string -> frame) (rs : string -> list (list value)) : Prop :=
    (forall t ts, In (t, ts) sch -> rect (z t) /\ (forall f, In f (tfields ts) -> In (CName f) (fr_cols (z t))) /\
       reads_rows ts (z t) (rs t) /\ (tpk ts <> [] -> no_equal_keys (map (key_of ts) (rs t))) /\
       forall r, In r (rs t) -> Forall tolerable (skipn (List.length (tpk ts)) r)) /\
    (forall t, In t generics -> generic_ok tolerable (z t)).

  Hypothesis W : wf_schema sch.
  Hypothesis Hf : forall t ts, In (t, ts) sch -> frameable ts.
  Hypothesis Hx : comparable x rx.
  Hypothesis Hy : comparable y ry.
  Hypothesis He : num_ltb eps (of_int 0) = false.

  Theorem pan_same_exact : exists b, pan_same_data eps nans sch generics mode x y = Some b /\
    (b = true <->
     (forall t ts, In (t, ts) sch -> rows_alike (alike eps nans false) ts (rx t) (ry t)) /\
     (forall t, In t generics -> frames_alike (alike eps nans false) (x t) (y t))).
  Proof.
    destruct Hx as [Hx1 Hx2], Hy as [Hy1 Hy2]. unfold pan_same_data.
    assert (forall t ts, In (t, ts) sch -> List.length (rx t) = List.length (fr_rows (x t)) /\ List.length (ry t) = List.length (fr_rows (y t))) as Ls.
    { intros t ts Hin. destruct (Hx1 t ts Hin) as (_ & _ & A & _), (Hy1 t ts Hin) as (_ & _ & B & _). split; eapply reads_length; eauto. }
    destruct (forallb (fun t => Nat.eqb _ _) (map fst sch ++ generics)) eqn:El; cbn [negb].
    2: { exists false. split; auto. split; [discriminate |]. intros [A B]. exfalso.
         apply not_true_iff_false in El. apply El. apply forallb_forall. intros t Ht. apply Nat.eqb_eq. apply in_app_or in Ht as [Ht | Ht].
         - apply in_map_iff in Ht as ([t' ts] & E & Hin). cbn [fst] in E. subst t'. destruct (Ls t ts Hin) as [L1 L2]. rewrite <- L1, <- L2. apply (A t ts Hin).
         - apply (B t Ht). }
    rewrite forallb_forall in El.
    destruct (forallb (fun t => same_columns (x t) (y t)) generics) eqn:Ec; cbn [negb].
    2: { exists false. split; auto. split; [discriminate |]. intros [A B]. exfalso.
         apply not_true_iff_false in Ec. apply Ec. apply forallb_forall. intros t Ht. apply same_columns_iff. apply (B t Ht). }
    rewrite forallb_forall in Ec.
    destruct (as_tic_exact sch x W Hf) with (mode := mode) (rs := rx) as (d & Ed & Dd).
    { intros t ts Hin. destruct (Hx1 t ts Hin) as (A & B & _). auto. }
    { intros t ts Hin. apply (Hx1 t ts Hin). }
    { intros t ts Hin. apply (Hx1 t ts Hin). }
    destruct (as_tic_exact sch y W Hf) with (mode := mode) (rs := ry) as (e & Ee & De).
    { intros t ts Hin. destruct (Hy1 t ts Hin) as (A & B & _). auto. }
    { intros t ts Hin. apply (Hy1 t ts Hin). }
    { intros t ts Hin. apply (Hy1 t ts Hin). }
    rewrite Ed, Ee. unfold same_data_tol. rewrite He. cbn [option_map]. eexists. split; [reflexivity |].
    assert (forall a b, tolerable a -> tolerable b -> (cell_same eps nans false a b = true <-> alike eps nans false a b)) as SR.
    { intros a b Ha Hb. now apply cell_same_iff. }
    assert (forall z rs, comparable z rs -> forall t ts, In (t, ts) sch -> forall r, In r (rs t) -> List.length r = List.length (tfields ts)) as Lr.
    { intros z rs [Z1 _] t ts Hin r Hr. destruct (Z1 t ts Hin) as (_ & _ & A & _). destruct (reads_length ts (z t) (rs t) A) as [_ L]. auto. }
    rewrite andb_true_iff, (data_by_iff _ (alike eps nans false) tolerable SR).
    - rewrite forallb_forall. split; intros [A B]; split.
      + intros t ts Hin. specialize (A t ts Hin). rewrite (Dd t ts Hin), (De t ts Hin) in A.
        apply table_rows_alike in A; auto; [apply (Hx1 t ts Hin) | apply (Hy1 t ts Hin) |]. destruct (Ls t ts Hin) as [-> ->]. apply Nat.eqb_eq. apply El. apply in_or_app. left. now apply (in_map fst) in Hin.
      + intros t Ht. specialize (B t Ht). eapply same_generic_iff in B; eauto; [apply same_columns_iff; auto |]. apply Nat.eqb_eq. apply El. apply in_or_app. auto.
      + intros t ts Hin. specialize (A t ts Hin). rewrite (Dd t ts Hin), (De t ts Hin).
        apply table_rows_alike; auto; [apply (Hx1 t ts Hin) | apply (Hy1 t ts Hin) |]. destruct (Ls t ts Hin) as [-> ->]. apply Nat.eqb_eq. apply El. apply in_or_app. left. now apply (in_map fst) in Hin.
      + intros t Ht. specialize (B t Ht). eapply same_generic_iff; eauto; [apply same_columns_iff; auto |]. apply Nat.eqb_eq. apply El. apply in_or_app. auto.
    - intros t ts Hin. rewrite (Dd t ts Hin). apply rows_table_shape. eapply Lr; eauto.
    - intros t ts Hin. rewrite (De t ts Hin). apply rows_table_shape. eapply Lr; eauto.
    - intros t ts Hin. rewrite (Dd t ts Hin). destruct (Hx1 t ts Hin) as (_ & _ & _ & N & _). unfold rows_table. destruct (tpk ts) as [| p pk] eqn:Ep; auto.
      rewrite dict_of_distinct; [| rewrite map_map; cbn [fst]; apply no_equal_keys_iff; apply N; discriminate]. rewrite map_map. cbn [fst]. apply N. discriminate.
    - intros t ts Hin. rewrite (Dd t ts Hin). apply rows_table_cells. apply (Hx1 t ts Hin).
    - intros t ts Hin. rewrite (De t ts Hin). apply rows_table_cells. apply (Hy1 t ts Hin).
  Qed.
End Compare.
