(** * Property theorems: C89, C90, C91 (DataFrames). *)
From Coq Require Import ZArith Bool List String Arith Lia.
From Verif Require Import PyVal PyDict PyDictFacts ListFacts Data FindTypes FindTypesFacts FK Obj ObjFacts ObjMore Factory GraphFacts InfIO Json ObjRows Csv CsvTrip
  Frames FramesFacts FramesTrip FramesPan JsonWitness.
Import ListNotations.
Local Open Scope string_scope.
Local Open Scope list_scope.

(** ** C89 copy_to_pandas *)

(** A generic table is replaced by its name. *)
Theorem C89_refuted : exists sch generics d l, (forall settle, copy_to_pandas settle sch generics [] None true d = Some l) /\
  sch = [("items", mkT ["Name"] ["Cost"])] /\ generics = ["notes"] /\ In ("notes", PText "notes") l /\
  good_pan sch generics (dget String.eqb l) = false /\ from_frames sch generics [] "assert" l = None.
Proof.
  exists [("items", mkT ["Name"] ["Cost"])], ["notes"], (fun _ => OKeyed []), [("items", PFrame (mkFr [] [CName "Name"; CName "Cost"] [])); ("notes", PText "notes")].
  split; [| split; [| split; [| split; [| split]]]]; try reflexivity. simpl. auto.
Qed.
Print Assumptions C89_refuted.

(** An empty table keeps its key columns and has no index, whatever [drop_pk_columns] says. *)
Theorem C89_empty_refuted : exists ts tb, ts = mkT ["Name"] ["Cost"] /\ tb = OKeyed [] /\
  forall settle, copy_frame settle (Some true) false ts tb = Some (mkFr [] [CName "Name"; CName "Cost"] []).
Proof. exists (mkT ["Name"] ["Cost"]), (OKeyed []). repeat split. Qed.
Print Assumptions C89_empty_refuted.

(** The other tables: one row of the frame per row of the table, in order, with all of its
    cells; key fields are columns, index or both as [drop_pk_columns] and [reset_index] say. *)
Theorem C89_frames : forall settle sch generics restrict drop reset d, wf_schema sch -> obj_ok sch d -> obj_settled settle sch d ->
  (forall t, In t generics -> ~ In t (map fst sch)) -> (forall t, In t restrict -> In t (map fst sch ++ generics)) ->
  exists l, copy_to_pandas settle sch generics restrict drop reset d = Some l /\
    (forall t, In t (map fst l) <-> match restrict with [] => In t (map fst sch ++ generics) | _ => In t restrict end) /\
    forall t ts a, In (t, ts) sch -> In (t, a) l -> exists fr, a = PFrame fr /\ rect fr /\ reads_rows ts fr (full_rows (d t)) /\
      (reset = true \/ tpk ts = [] -> fr_index fr = [] /\ fr_cols fr = map CName (tpk ts ++ tdf ts)) /\
      (reset = false -> tpk ts <> [] -> full_rows (d t) <> [] -> fr_index fr = map CName (tpk ts) /\
         (drop = Some true \/ (drop = None /\ tdf ts <> []) -> fr_cols fr = map CName (tdf ts)) /\
         (drop = Some false \/ (drop = None /\ tdf ts = []) -> fr_cols fr = map CName (tpk ts ++ tdf ts))).
Proof.
  intros settle sch generics restrict drop reset d W Ok St Hd Hr. destruct (copied settle sch generics restrict drop reset d W Ok Hd Hr) as (l & E & F & G).
  exists l. split; auto. split; [intros t; rewrite F; destruct restrict; tauto |]. intros t ts a Hin Ha.
  destruct (G t a Ha) as [[Hg _] | (ts' & fr & Hin' & -> & Ef)]; [exfalso; apply (Hd t Hg); now apply (in_map fst) in Hin |].
  assert (ts' = ts) as -> by (apply (schema_get sch t ts (proj1 W)) in Hin; apply (schema_get sch t ts' (proj1 W)) in Hin'; congruence).
  exists fr. split; auto. destruct (copy_reads settle sch drop reset t ts d fr W Ok Hin (St _ _ Hin) Ef) as (A & B & _). split; auto. split; auto.
  rewrite copy_frame_exact in Ef by (eapply Ok; eauto). split.
  - intros Hc. destruct (full_rows (d t)); [injection Ef as <-; auto |]. destruct (tpk ts) eqn:Ep; [injection Ef as <-; simpl; unfold tfields; rewrite Ep; auto |].
    destruct Hc as [-> | Hc]; [| discriminate]. injection Ef as <-. simpl. unfold tfields. rewrite Ep. auto.
  - intros -> Hp Hne. pose proof (full_rows_length ts (d t) (Ok _ _ Hin)) as L. pose proof (settled_id settle _ _ L (St _ _ Hin)) as Sd.
    destruct (full_rows (d t)) as [| r0 rows]; [contradiction |]. destruct (tpk ts) as [| p pk] eqn:Ep; [contradiction |]. rewrite <- Ep in *. cbv zeta in Ef. rewrite Sd in Ef.
    destruct (indexed_reads ts (r0 :: rows) (drops drop ts) (proj2 W _ _ Hin) L) as (_ & _ & I1 & C1). cbv zeta in I1, C1.
    assert (fr = set_index (List.length (tpk ts)) (drops drop ts) (plain_frame ts (r0 :: rows))) as -> by (unfold plain_frame; congruence).
    rewrite I1, C1. split; auto. unfold drops. split; (intros [-> | [-> Hx]]; [reflexivity |]).
    + destruct (tdf ts); [contradiction | reflexivity].
    + rewrite Hx. unfold tfields. now rewrite Hx.
Qed.
Print Assumptions C89_frames.

(** Without generic tables, the constructor of the same factory makes an equal object of the copy. *)
Theorem C89_back : forall settle sch dv mode drop reset d, wf_schema sch -> obj_ok sch d -> obj_keys sch d -> proper_keys sch d -> obj_settled settle sch d ->
  (forall t ts, In (t, ts) sch -> frameable ts /\ defaults_on_data ts (defaults_of dv t)) ->
  exists l e, copy_to_pandas settle sch [] [] drop reset d = Some l /\ from_frames sch [] dv mode l = Some (e, []) /\
    forall t ts, In (t, ts) sch -> e t = d t.
Proof.
  intros settle sch dv mode drop reset d W Ok Ok2 Pk St Hf.
  destruct (copied settle sch [] [] drop reset d W Ok) as (l & E & F & G); [simpl; tauto | simpl; tauto |].
  rewrite app_nil_r in F.
  assert (forall t a, In (t, a) l -> exists ts fr, In (t, ts) sch /\ a = PFrame fr /\ frame_table dv t ts fr = Some (d t) /\ List.length (fr_rows fr) = out_length (d t)) as H.
  { intros t a Ha. destruct (G t a Ha) as [[[] _] | (ts & fr & Hin & -> & Ef)]. exists ts, fr. split; auto. split; auto.
    destruct (copy_reads settle sch drop reset t ts d fr W Ok Hin (St _ _ Hin) Ef) as (A & B & C & D). destruct (Hf t ts Hin) as [H1 H2]. split.
    - rewrite (frame_table_ok dv t ts fr (full_rows (d t)) (proj2 W _ _ Hin) H1 H2 A D C B). f_equal. apply rows_table_back; [eapply Ok; eauto |].
      specialize (Ok2 t ts Hin). specialize (Pk t ts Hin). destruct (d t); auto.
    - apply reads_length in B as [B _]. rewrite <- B. destruct (d t); simpl; auto. apply map_length. }
  destruct (from_frames_exact sch [] dv mode d l W) as [_ X].
  - rewrite F. apply W.
  - intros t [].
  - intros t a Ha. right. split; [auto |]. destruct (H t a Ha) as (ts & fr & A & B & C & _). exists ts, fr. auto.
  - intros t ts Hin Hn. exfalso. apply Hn. rewrite F. now apply (in_map fst) in Hin.
  - destruct X as (e & gs & A & B & C).
    { intros (_ & t & a & Ha & _ & L). destruct (H t a Ha) as (ts & fr & _ & -> & _ & L2). simpl in L. lia. }
    exists l, e. split; auto. assert (gs = []) as ->; [| auto]. destruct gs as [| [t fr] gs]; auto. exfalso. destruct (proj1 (C t fr) (or_introl eq_refl)) as [[] _].
Qed.
Print Assumptions C89_back.

(** As documented, keeping the key columns gives a good PanDat object (no generic tables). *)
Theorem C89_pan : forall settle sch drop reset d, wf_schema sch -> obj_ok sch d -> reset = true \/ drop = Some false ->
  exists l, copy_to_pandas settle sch [] [] drop reset d = Some l /\ good_pan sch [] (dget String.eqb l) = true.
Proof.
  intros settle sch drop reset d W Ok Hc. destruct (copied settle sch [] [] drop reset d W Ok) as (l & E & F & G); [simpl; tauto | simpl; tauto |].
  rewrite app_nil_r in F. exists l. split; auto.
  assert (forall t ts, In (t, ts) sch -> exists fr, dget String.eqb l t = Some (PFrame fr) /\ fr_cols fr = map CName (tfields ts)) as H.
  { intros t ts Hin. assert (In t (map fst l)) as Ht by (rewrite F; now apply (in_map fst) in Hin). apply in_map_iff in Ht as ([t' a] & Et & Ha). cbn [fst] in Et. subst t'.
    destruct (G t a Ha) as [[[] _] | (ts' & fr & Hin' & -> & Ef)].
    assert (ts' = ts) as -> by (apply (schema_get sch t ts (proj1 W)) in Hin; apply (schema_get sch t ts' (proj1 W)) in Hin'; congruence).
    exists fr. split; [apply dget_In_NoDup; auto; rewrite F; apply W |]. rewrite copy_frame_exact in Ef by (eapply Ok; eauto).
    destruct (full_rows (d t)); [injection Ef as <-; auto |]. destruct (tpk ts); [injection Ef as <-; auto |]. destruct reset; [injection Ef as <-; auto |].
    destruct Hc as [Hc | ->]; [discriminate |]. injection Ef as <-. reflexivity. }
  unfold good_pan. rewrite app_nil_r. apply andb_true_iff. split; apply forallb_forall.
  - intros t Ht. apply in_map_iff in Ht as ([t' ts] & Et & Hin). cbn [fst] in Et. subst t'. destruct (H t ts Hin) as (fr & -> & _). auto.
  - intros [t ts] Hin. cbn [fst snd]. destruct (H t ts Hin) as (fr & -> & Ec). apply forallb_forall. intros f Hf. apply has_col_iff. rewrite Ec. now apply in_map.
Qed.
Print Assumptions C89_pan.

Definition w89_sch : schema := [("items", mkT ["Name"; "Size"] ["Cost"]); ("log", mkT [] ["What"]); ("kinds", mkT ["Kind"] [])].
Definition w89_dat : obj := fun t =>
  if String.eqb t "items" then OKeyed [(KTup [VStr "b"; int 2], [int 7]); (KTup [VStr "a"; int 1], [int 3])]
  else if String.eqb t "log" then OListed [[VStr "x"]; [VStr "x"]] else OKeyed [(KAtom (VStr "k"), [])].
(** None becomes NaN in a column with numbers. *)
Definition w89_settle (l : list value) : list value :=
  if existsb (fun v => match v with VNum _ => true | _ => false end) l then map (fun v => match v with VNone => VNaN | _ => v end) l else l.
Definition w89_frame : frame :=
  mkFr [CName "Name"; CName "Size"] [CName "Cost"] [([VStr "b"; int 2], [int 7]); ([VStr "a"; int 1], [int 3])].

Lemma w89_wf : wf_schema w89_sch.
Proof.
  split; [| intros t ts [H | [H | [H | []]]]; injection H as <- <-]; cbv [w89_sch map fst wf_tschema tfields tpk tdf app];
    repeat (constructor; [simpl; intuition discriminate |]); constructor.
Qed.
Lemma w89_ok : obj_ok w89_sch w89_dat.
Proof.
  intros t ts [H | [H | [H | []]]]; injection H as <- <-; cbv [w89_dat String.eqb Ascii.eqb Bool.eqb]; simpl.
  - intros k r [H | [H | []]]; injection H as <- <-; split; reflexivity.
  - intros r [<- | [<- | []]]; auto.
  - intros k r [H | []]; injection H as <- <-; split; reflexivity.
Qed.
Lemma w89_keys : obj_keys w89_sch w89_dat /\ proper_keys w89_sch w89_dat /\ obj_settled w89_settle w89_sch w89_dat.
Proof.
  split; [| split].
  - intros t ts [H | [H | [H | []]]]; injection H as <- <-; cbv [w89_dat String.eqb Ascii.eqb Bool.eqb]; [| exact I |].
    + apply no_equal_keys_iff. simpl. split; [| split; [intros k [] | exact I]]. intros k [<- | []]. reflexivity.
    + apply no_equal_keys_iff. simpl. split; [intros k [] | exact I].
  - intros t ts [H | [H | [H | []]]]; injection H as <- <-; cbv [w89_dat String.eqb Ascii.eqb Bool.eqb]; [| exact I |].
    + intros k r [H | [H | []]]; injection H as <- <-; reflexivity.
    + intros k r [H | []]; injection H as <- <-; reflexivity.
  - intros t ts [H | [H | [H | []]]]; injection H as <- <-; intros k Hk; cbn [tfields tpk tdf app List.length] in Hk.
    + destruct k as [| [| [| k]]]; [reflexivity | reflexivity | reflexivity | lia].
    + destruct k as [| k]; [reflexivity | lia].
    + destruct k as [| k]; [reflexivity | lia].
Qed.
Lemma w89_frameable : forall t ts, In (t, ts) w89_sch -> frameable ts /\ defaults_on_data ts (defaults_of [("items", [("Cost", int 1)])] t).
Proof.
  intros t ts [H | [H | [H | []]]]; injection H as <- <-; (split; [split; simpl; intuition discriminate |]); intros f; simpl; tauto.
Qed.

Example C89_ex : wf_schema w89_sch /\ obj_ok w89_sch w89_dat /\ obj_keys w89_sch w89_dat /\ proper_keys w89_sch w89_dat /\ obj_settled w89_settle w89_sch w89_dat /\
  (forall t ts, In (t, ts) w89_sch -> frameable ts /\ defaults_on_data ts (defaults_of [("items", [("Cost", int 1)])] t)) /\
  copy_to_pandas w89_settle w89_sch [] [] None false w89_dat = Some [("items", PFrame w89_frame);
    ("log", PFrame (mkFr [] [CName "What"] [([], [VStr "x"]); ([], [VStr "x"])])); ("kinds", PFrame (mkFr [CName "Kind"] [CName "Kind"] [([VStr "k"], [VStr "k"])]))] /\
  frame_table [] "items" (mkT ["Name"; "Size"] ["Cost"]) w89_frame = Some (w89_dat "items").
Proof.
  refine (conj w89_wf (conj w89_ok (conj (proj1 w89_keys) (conj (proj1 (proj2 w89_keys)) (conj (proj2 (proj2 w89_keys)) (conj w89_frameable (conj _ _))))))); vm_compute; reflexivity.
Qed.

(** None next to numbers is not kept, as documented. *)
Example C89_none_ex : copy_to_pandas w89_settle [("log", mkT [] ["Cost"])] [] [] None false (fun _ => OListed [[int 1]; [VNone]]) =
  Some [("log", PFrame (mkFr [] [CName "Cost"] [([], [int 1]); ([], [VNaN])]))].
Proof. vm_compute; reflexivity. Qed.

(** ** C90 copy_to_tic_dat *)

(** A PanDat object of a schema with a data field "name" cannot be copied. *)
Theorem C90_refuted : exists sch x, sch = [("people", mkT ["Id"] ["name"])] /\
  x = (fun t => if String.eqb t "people" then Some (PFrame (mkFr [] [CName "Id"; CName "name"] [([], [int 1; VStr "Ann"])])) else None) /\
  good_pan sch [] x = true /\ forall mode, copy_to_tic_dat sch [] mode x = None.
Proof. eexists _, _. split; [reflexivity |]. split; [reflexivity |]. split; reflexivity. Qed.
Print Assumptions C90_refuted.

Section Copies.
  Variable sch : schema.
  Variable generics : list string.
  Variable x : string -> option pattr.
  Variable frs : string -> frame.

  (** [x] has the frames [frs], with columns for all fields. *)
  Definition pan_object : Prop :=
    wf_schema sch /\ NoDup generics /\ (forall t, In t generics -> ~ In t (map fst sch)) /\
    (forall t, In t (map fst sch ++ generics) -> x t = Some (PFrame (frs t))) /\
    (forall t ts, In (t, ts) sch -> rect (frs t) /\ forall f, In f (tfields ts) -> In (CName f) (fr_cols (frs t))).

  Lemma pan_object_good : pan_object -> good_pan sch generics x = true.
  Proof.
    intros (W & Ng & Hd & Hx & Hf). unfold good_pan. apply andb_true_iff. split; apply forallb_forall.
    - intros t Ht. now rewrite Hx.
    - intros [t ts] Hin. cbn [fst snd]. rewrite Hx by (apply in_or_app; left; now apply (in_map fst) in Hin). apply forallb_forall. intros f Hff. apply has_col_iff. eapply Hf; eauto.
  Qed.

  Theorem copies_exact : pan_object -> (forall t ts, In (t, ts) sch -> frameable ts) -> forall mode,
    exists rs : string -> list (list value), (forall t ts, In (t, ts) sch -> reads_rows ts (frs t) (rs t)) /\
      (mode = "assert" /\ (exists t ts, In (t, ts) sch /\ tpk ts <> [] /\ ~ no_equal_keys (map (key_of ts) (rs t))) -> copy_to_tic_dat sch generics mode x = None) /\
      (~ (mode = "assert" /\ (exists t ts, In (t, ts) sch /\ tpk ts <> [] /\ ~ no_equal_keys (map (key_of ts) (rs t)))) ->
       exists e gs, copy_to_tic_dat sch generics mode x = Some (e, gs) /\ (forall t ts, In (t, ts) sch -> e t = rows_table ts (rs t)) /\
         (forall t fr, In (t, fr) gs <-> In t generics /\ fr = frs t)).
  Proof.
    intros P Hfr mode. pose proof (pan_object_good P) as Hg. destruct P as (W & Ng & Hd & Hx & Hf).
    assert (exists rs : string -> list (list value), forall t ts, In (t, ts) sch -> reads_rows ts (frs t) (rs t)) as [rs Hrs].
    { assert (forall s : schema, NoDup (map fst s) -> (forall t ts, In (t, ts) s -> In (t, ts) sch) -> exists rs : string -> list (list value), forall t ts, In (t, ts) s -> reads_rows ts (frs t) (rs t)) as X.
      { induction s as [| [t ts] s IH]; intros N Hs; [exists (fun _ => []); intros ? ? [] |]. cbn [map fst] in N. inversion N as [| ? ? N1 N2]; subst.
        destruct IH as [rs H]; auto; [intros; apply Hs; simpl; auto |]. destruct (Hf t ts) as [R C]; [apply Hs; simpl; auto |].
        destruct (reads_exist ts (frs t) R C) as [rt Hrt]. exists (fun u => if String.eqb u t then rt else rs u). intros u us [E | Hu].
        - injection E as <- <-. now rewrite String.eqb_refl.
        - destruct (String.eqb u t) eqn:E; [| auto]. apply String.eqb_eq in E. subst u. exfalso. apply N1. now apply (in_map fst) in Hu. }
      apply X; auto. apply W. }
    exists rs. split; auto. unfold copy_to_tic_dat. rewrite Hg.
    set (inputs := flat_map (fun t => match x t with Some a => [(t, a)] | None => [] end) (map fst sch ++ generics)).
    assert (inputs = map (fun t => (t, PFrame (frs t))) (map fst sch ++ generics)) as Ei.
    { unfold inputs. assert (forall l, (forall t, In t l -> In t (map fst sch ++ generics)) -> flat_map (fun t => match x t with Some a => [(t, a)] | None => [] end) l = map (fun t => (t, PFrame (frs t))) l) as X; [| apply X; auto].
      induction l as [| t l IH]; intros Hs; auto. cbn [flat_map map]. rewrite Hx by (apply Hs; simpl; auto). rewrite IH; auto. intros; apply Hs; simpl; auto. }
    assert (map fst inputs = map fst sch ++ generics) as Em by (rewrite Ei, map_map; apply map_id).
    set (d0 := fun t => match dget String.eqb sch t with Some ts => rows_table ts (rs t) | None => OListed [] end).
    assert (forall t ts, In (t, ts) sch -> d0 t = rows_table ts (rs t)) as Hd0.
    { intros t ts Hin. unfold d0. now rewrite (proj2 (schema_get sch t ts (proj1 W)) Hin). }
    destruct (from_frames_exact sch generics [] mode d0 inputs W) as [X Y].
    - rewrite Em. apply NoDup_app_intro; auto; [apply W |]. intros t H1 H2. eapply Hd; eauto.
    - auto.
    - intros t a Ha. rewrite Ei in Ha. apply in_map_iff in Ha as (t' & E & Ht). injection E as -> <-. destruct (in_dec string_dec t generics) as [Hgt | Hgt]; [left; eauto |].
      right. split; auto. apply in_app_or in Ht as [Ht | Ht]; [| contradiction]. apply in_map_iff in Ht as ([t' ts] & Et & Hin). cbn [fst] in Et. subst t'.
      exists ts, (frs t). split; auto. split; auto. rewrite (Hd0 t ts Hin). destruct (Hf t ts Hin) as [R C]. apply frame_table_ok; auto.
      + apply (proj2 W _ _ Hin).
      + eapply Hfr; eauto.
      + intros f [].
      + intros f Hff. apply C. apply in_or_app. auto.
      + left. intros p Hp. apply C. apply in_or_app. auto.
    - intros t ts Hin Hn. exfalso. apply Hn. rewrite Em. apply in_or_app. left. now apply (in_map fst) in Hin.
    - assert ((exists t a, In (t, a) inputs /\ ~ In t generics /\ out_length (d0 t) < arg_rows a) <-> exists t ts, In (t, ts) sch /\ tpk ts <> [] /\ ~ no_equal_keys (map (key_of ts) (rs t))) as Hiff.
      { split.
        - intros (t & a & Ha & Hgt & L). rewrite Ei in Ha. apply in_map_iff in Ha as (t' & E & Ht). injection E as -> <-. apply in_app_or in Ht as [Ht | Ht]; [| contradiction].
          apply in_map_iff in Ht as ([t' ts] & Et & Hin). cbn [fst] in Et. subst t'. exists t, ts. split; auto. rewrite (Hd0 t ts Hin) in L. simpl in L.
          destruct (reads_length ts (frs t) (rs t) (Hrs t ts Hin)) as [El _]. rewrite <- El in L. now apply rows_table_lost in L.
        - intros (t & ts & Hin & H). exists t, (PFrame (frs t)). split; [rewrite Ei; apply in_map_iff; exists t; split; auto; apply in_or_app; left; now apply (in_map fst) in Hin |].
          split; [intros Hgt; apply (Hd t Hgt); now apply (in_map fst) in Hin |]. rewrite (Hd0 t ts Hin). simpl.
          destruct (reads_length ts (frs t) (rs t) (Hrs t ts Hin)) as [El _]. rewrite <- El. now apply rows_table_lost. }
      split.
      + intros [H1 H2]. apply X. split; auto. now apply Hiff.
      + intros H. destruct Y as (e & gs & A & B & C); [rewrite Hiff; exact H |]. exists e, gs. split; auto. split; [intros t ts Hin; rewrite B with (ts := ts); auto |].
        intros t fr. rewrite C, Ei. split; intros [Hgt Hi]; split; auto.
        * apply in_map_iff in Hi as (t' & E & _). injection E as -> <-. auto.
        * subst fr. apply in_map_iff. exists t. split; auto. apply in_or_app. auto.
  Qed.
End Copies.

(** Otherwise a good PanDat object is copied cell by cell; of rows with equal keys the last one is kept, and
    in mode "assert" (the default) they are an error. *)
Theorem C90_copies : forall sch generics x frs, pan_object sch generics x frs -> (forall t ts, In (t, ts) sch -> frameable ts) -> forall mode,
  exists rs : string -> list (list value), (forall t ts, In (t, ts) sch -> reads_rows ts (frs t) (rs t)) /\
    (copy_to_tic_dat sch generics mode x = None <-> mode = "assert" /\ exists t ts, In (t, ts) sch /\ tpk ts <> [] /\ ~ no_equal_keys (map (key_of ts) (rs t))) /\
    forall e gs, copy_to_tic_dat sch generics mode x = Some (e, gs) ->
      (forall t ts, In (t, ts) sch -> tpk ts = [] -> e t = OListed (rs t)) /\
      (forall t ts, In (t, ts) sch -> tpk ts <> [] -> exists l, e t = OKeyed l /\ no_equal_keys (map fst l) /\
         (forall i r, nth_error (rs t) i = Some r ->
            (forall j r', i < j -> nth_error (rs t) j = Some r' -> pkey_eqb (key_of ts r) (key_of ts r') = false) ->
            exists k, In (k, skipn (List.length (tpk ts)) r) l /\ pkey_eqb k (key_of ts r) = true) /\
         (forall k r, In (k, r) l -> exists i r0, nth_error (rs t) i = Some r0 /\ r = skipn (List.length (tpk ts)) r0 /\ pkey_eqb k (key_of ts r0) = true)) /\
      (forall t fr, In (t, fr) gs <-> In t generics /\ fr = frs t).
Proof.
  intros sch generics x frs P Hf mode. destruct (copies_exact sch generics x frs P Hf mode) as (rs & A & B & C). exists rs. split; auto.
  set (Q := mode = "assert" /\ _) in *.
  assert (Q \/ ~ Q) as Dec.
  { unfold Q. destruct (string_dec mode "assert") as [-> |]; [| tauto].
    assert (forall s : schema, (exists t ts, In (t, ts) s /\ tpk ts <> [] /\ ~ no_equal_keys (map (key_of ts) (rs t))) \/
              ~ (exists t ts, In (t, ts) s /\ tpk ts <> [] /\ ~ no_equal_keys (map (key_of ts) (rs t)))) as D; [| destruct (D sch); tauto].
    induction s as [| [t ts] s IH]; [right; intros (? & ? & [] & _) |]. destruct IH as [(u & us & H1 & H2) | H]; [left; exists u, us; simpl; auto |].
    destruct (no_equal_keys_dec (map (key_of ts) (rs t))) as [N | N].
    - right. intros (u & us & [E | Hu] & Hp & Hn); [injection E as <- <-; auto | apply H; eauto].
    - destruct (tpk ts) eqn:Ep; [right | left; exists t, ts; simpl; rewrite Ep; repeat split; auto; discriminate].
      intros (u & us & [E | Hu] & Hp & Hn); [injection E as <- <-; auto | apply H; eauto]. }
  split.
  - split; [| exact B]. intros E. destruct Dec as [D | D]; auto. destruct (C D) as (e & gs & E' & _). congruence.
  - intros e gs E. destruct Dec as [D | D]; [rewrite (B D) in E; discriminate |]. destruct (C D) as (e' & gs' & E' & F & G). rewrite E in E'. injection E' as <- <-.
    split; [| split; [| exact G]].
    + intros t ts Hin Hp. rewrite (F t ts Hin). unfold rows_table. now rewrite Hp.
    + intros t ts Hin Hp. destruct (rows_table_keyed ts (rs t) Hp) as (l & E1 & E2 & E3 & E4 & _). exists l. rewrite (F t ts Hin). split; auto. split; auto. split; auto.
      intros k r Hk. destruct (E4 k r Hk) as (i & r0 & X1 & X2 & X3 & _). eauto.
Qed.
Print Assumptions C90_copies.

Definition w90_frame : frame := mkFr [] [CName "Note"; CName "Name"; CName "Cost"; CName "Size"] [([], [VNone; VStr "a"; int 5; int 1]); ([], [VStr "!"; VStr "b"; VNaN; int 2])].
Definition w90_dup : frame := mkFr [] [CName "Name"; CName "Size"; CName "Cost"] [([], [VStr "a"; int 1; int 5]); ([], [VStr "a"; int 1; int 6])].
Definition w90_sch : schema := [("items", mkT ["Name"; "Size"] ["Cost"])].
Definition w90_pan (fr : frame) (t : string) : option pattr := if String.eqb t "items" then Some (PFrame fr) else None.
Lemma w90_rect : rect w90_frame.
Proof.
  split; [repeat (constructor; [simpl; intuition discriminate |]); constructor |]. intros r [<- | [<- | []]]; auto.
Qed.
Example C90_ex : pan_object w90_sch [] (w90_pan w90_frame) (fun _ => w90_frame) /\ (forall t ts, In (t, ts) w90_sch -> frameable ts) /\
  option_map (fun eg => fst eg "items") (copy_to_tic_dat w90_sch [] "assert" (w90_pan w90_frame)) =
    Some (OKeyed [(KTup [VStr "a"; int 1], [int 5]); (KTup [VStr "b"; int 2], [VNaN])]) /\
  copy_to_tic_dat w90_sch [] "assert" (w90_pan w90_dup) = None /\
  option_map (fun eg => fst eg "items") (copy_to_tic_dat w90_sch [] "warn" (w90_pan w90_dup)) = Some (OKeyed [(KTup [VStr "a"; int 1], [int 6])]).
Proof.
  refine (conj _ (conj _ (conj _ (conj _ _)))); [| | vm_compute; reflexivity | vm_compute; reflexivity | vm_compute; reflexivity].
  - refine (conj _ (conj _ (conj _ (conj _ _)))).
    + split; [repeat (constructor; [simpl; intuition discriminate |]); constructor |]. intros t ts [H | []]. injection H as <- <-.
      cbv [wf_tschema tfields tpk tdf app]. repeat (constructor; [simpl; intuition discriminate |]); constructor.
    + constructor.
    + intros t [].
    + intros t [<- | []]. reflexivity.
    + intros t ts [H | []]. injection H as <- <-. split; [exact w90_rect |]. intros f [<- | [<- | [<- | []]]]; simpl; auto.
  - intros t ts [H | []]. injection H as <- <-. split; simpl; intuition discriminate.
Qed.

(** ** C91 The PanDat constructor *)

(** A DataFrame is accepted exactly if every field is a column, a level of an index that holds the key, or has a default. *)
Theorem C91_accepts : forall settle dv t ts fr, wf_tschema ts -> rect fr -> NoDup (fr_index fr) ->
  ((exists f, In (CName f) (fr_cols fr)) \/ indexed ts fr) ->
  (pan_table settle dv t ts (PFrame fr) <> None <->
   forall f, In f (tfields ts) -> known ts fr (CName f) \/ In f (map fst (defaults_of dv t))).
Proof.
  intros settle dv t ts fr W R Ni Hn. destruct (pan_frame settle dv t ts fr W R Ni Hn) as [A _]. split.
  - intros H f Hf. destruct (in_dec string_dec f (map fst (defaults_of dv t))) as [D | D]; auto. left.
    assert (forall a b : colname, {a = b} + {a <> b}) as Cd by (decide equality; [apply string_dec | apply Nat.eq_dec]).
    destruct (in_dec Cd (CName f) (fr_cols fr)) as [C | C]; [left; auto |].
    destruct (in_dec Cd (CName f) (fr_index fr)) as [I | I].
    + pose proof (indexed_test ts fr) as T. destruct (match tpk ts with [] => false | _ => _ end).
      * right. split; auto. now apply T.
      * exfalso. apply H. apply A. exists f. split; auto. split; auto. intros [X | [X _]]; [auto |]. apply T in X. discriminate.
    + exfalso. apply H. apply A. exists f. split; auto. split; auto. intros [X | [_ X]]; auto.
  - intros H E. apply A in E as (f & X & Y & Z). destruct (H f X); auto.
Qed.
Print Assumptions C91_accepts.

(** The table then has the fields first, all other columns too, and in every row the cells given, or the defaults. *)
Theorem C91_cells : forall settle dv t ts fr fr', wf_tschema ts -> rect fr -> NoDup (fr_index fr) ->
  ((exists f, In (CName f) (fr_cols fr)) \/ indexed ts fr) -> pan_table settle dv t ts (PFrame fr) = Some fr' ->
  rect fr' /\ firstn (List.length (tfields ts)) (fr_cols fr') = map CName (tfields ts) /\
  (forall c, In c (fr_cols fr') <-> known ts fr c \/ exists f, c = CName f /\ In f (map fst (defaults_of dv t))) /\
  Forall2 (fun r r' => forall c v, in_col fr' r' c v <-> source ts fr r c v \/
     (~ known ts fr c /\ exists f, c = CName f /\ dget String.eqb (defaults_of dv t) f = Some v)) (fr_rows fr) (fr_rows fr').
Proof. intros settle dv t ts fr fr' W R Ni Hn E. destruct (pan_frame settle dv t ts fr W R Ni Hn) as [_ B]. auto. Qed.
Print Assumptions C91_cells.

(** Rows given as lists: cells by position; short rows are refused, even if the fields that are missing have defaults. *)
Theorem C91_rows : forall settle dv t ts n rows, tfields ts <> [] -> defaults_on_data ts (defaults_of dv t) -> (forall r, In r rows -> List.length r = n) -> rows_settled settle n rows ->
  (n < List.length (tfields ts) -> pan_table settle dv t ts (PRows n rows) = None) /\
  (List.length (tfields ts) <= n -> exists extra, pan_table settle dv t ts (PRows n rows) = Some (mkFr [] (map CName (tfields ts) ++ map CPos extra) (map (fun r => ([], r)) rows))).
Proof.
  intros settle dv t ts n rows Hne D L St. rewrite pan_rows by auto. rewrite (settled_id settle) by auto. split; intros H.
  - destruct (Nat.leb _ _) eqn:E; auto. apply Nat.leb_le in E. lia.
  - apply Nat.leb_le in H. rewrite H. eauto.
Qed.
Print Assumptions C91_rows.

(** All tables: an argument for no table is refused, tables not given are empty. *)
Theorem C91_tables : forall settle sch dv inputs, wf_schema sch -> NoDup (map fst inputs) ->
  match pan_dat settle sch dv inputs with
  | None => exists t a, In (t, a) inputs /\ falsy a = false /\ (~ In t (map fst sch) \/ exists ts, In (t, ts) sch /\ pan_table settle dv t ts a = None)
  | Some d => forall t ts, In (t, ts) sch ->
      (forall a, In (t, a) inputs -> falsy a = false -> pan_table settle dv t ts a = Some (d t)) /\
      ((forall a, In (t, a) inputs -> falsy a = true) -> d t = mkFr [] (map CName (tfields ts)) [])
  end.
Proof. exact pan_dat_tables. Qed.
Print Assumptions C91_tables.

Definition w91_ts : tschema := mkT ["Name"] ["Cost"; "Cap"].
Definition w91_dv : defaults := [("items", [("Cost", int 0); ("Cap", int 9)])].
Definition w91_in : frame := mkFr [CName "Name"] [CName "Note"; CName "Cost"] [([VStr "a"], [VStr "!"; int 5])].
Example C91_ex : wf_tschema w91_ts /\ rect w91_in /\ indexed w91_ts w91_in /\
  pan_table (fun l => l) w91_dv "items" w91_ts (PFrame w91_in) =
    Some (mkFr [] [CName "Name"; CName "Cost"; CName "Cap"; CName "Note"] [([], [VStr "a"; int 5; int 9; VStr "!"])]) /\
  pan_table (fun l => l) [] "items" w91_ts (PFrame w91_in) = None /\
  pan_table (fun l => l) w91_dv "items" w91_ts (PRows 4 [[VStr "a"; int 5; int 6; int 7]]) =
    Some (mkFr [] [CName "Name"; CName "Cost"; CName "Cap"; CPos 3] [([], [VStr "a"; int 5; int 6; int 7])]) /\
  pan_table (fun l => l) w91_dv "items" w91_ts (PRows 2 [[VStr "a"; int 5]]) = None.
Proof.
  refine (conj _ (conj _ (conj _ (conj _ (conj _ (conj _ _)))))); [| | | vm_compute; reflexivity | vm_compute; reflexivity | vm_compute; reflexivity | vm_compute; reflexivity].
  - cbv [wf_tschema tfields w91_ts tpk tdf app]. repeat (constructor; [simpl; intuition discriminate |]); constructor.
  - split; [repeat (constructor; [simpl; intuition discriminate |]); constructor |]. intros r [<- | []]; auto.
  - refine (conj _ (conj _ _)); [discriminate | intros p [<- | []]; simpl; intuition discriminate |]. intros c. simpl. tauto.
Qed.
