(** * Further consequences: C06 and C64. *)
From Coq Require Import ZArith Bool List String.
From Verif Require Import PyVal PyValFacts PyDict TypeDict TypeDictFacts Data FindTypes FindTypesFacts
  ReplaceFacts.
Import ListNotations.
Local Open Scope string_scope.

Lemma replace_types_atomic : forall parses sch tys dv rv d,
  wf_schema sch -> wf_types sch tys -> wf_dat sch d ->
  let o := replace_data_type_failures parses sch tys dv d rv in
  (raised o = true <-> ~ replaceable parses sch tys dv rv d) /\
  (raised o = true -> out_dat o = d).
Proof.
  intros parses sch tys dv rv d Hs Ht Hd o.
  destruct (replace_types_exact parses sch tys dv rv d Hs Ht Hd) as (H1 & H2 & _).
  fold o in H1, H2. split; auto. rewrite <- H1. destruct (raised o); split; congruence.
Qed.

Lemma untyped_key_cells : forall parses sch tys d rep t ts f rid,
  wf_schema sch -> wf_types sch tys -> wf_dat sch d ->
  find_data_type_failures parses sch tys d PInf = Some rep ->
  In (t, ts) sch -> In f (tpk ts) -> (forall dt, ~ declared tys t f dt) ->
  (reports_row rep t f rid <->
   exists k r v, row_in (d t) rid k r /\ cell_in ts k r f v /\
     (forall n, v <> VNum n) /\ (forall s, v <> VStr s)).
Proof.
  intros parses sch tys d rep t ts f rid Hs Ht Hd Hf Hin Hpk Hnd.
  destruct (find_types_exact parses sch tys d rep Hs Ht Hd Hf) as (Hr & _).
  rewrite Hr. clear Hr.
  assert (forall v, valid_data parses nonnull_type v = true <->
            (exists n, v = VNum n) \/ (exists s, v = VStr s)) as Hv.
  { intros v. apply nonnull_valid. reflexivity. }
  split.
  - intros (v & ts' & k & r & dt & H1 & H2 & H3 & H4 & H5).
    assert (ts' = ts) as -> by (rewrite <- (ts_of_In _ _ _ Hs H1); now apply ts_of_In).
    destruct H4 as [H4 | (_ & _ & ->)]; [exfalso; eapply Hnd; eauto |].
    exists k, r, v. repeat split; auto; intros x E;
      rewrite (proj2 (Hv v)) in H5 by eauto; discriminate.
  - intros (k & r & v & H1 & H2 & H3 & H4). exists v, ts, k, r, nonnull_type.
    repeat split; auto.
    + right. eauto.
    + destruct (valid_data parses nonnull_type v) eqn:E; auto.
      apply Hv in E as [[n ->] | [s ->]]; [now destruct (H3 n) | now destruct (H4 s)].
Qed.

Definition visits_sch : schema := [("visits", mkT ["when"] ["who"])].
Definition visits_dat : dat := fun _ =>
  Keyed [([VDate 7], [VStr "x"]); ([VBool true], [VStr "y"]); ([VStr "z"], [VNone])].

Lemma untyped_key_not_only_null : exists sch d rep,
  wf_schema sch /\ wf_dat sch d /\
  (forall parses, find_data_type_failures parses sch [] d PInf = Some rep) /\
  reports_row rep "visits" "when" (RPk [VDate 7]) /\
  reports_row rep "visits" "when" (RPk [VBool true]).
Proof.
  exists visits_sch, visits_dat,
    [(("visits", "when"), ([VDate 7; VBool true], [RPk [VDate 7]; RPk [VBool true]]))].
  split; [| split; [| split; [| split]]].
  - split; [repeat constructor; simpl; tauto |].
    intros t ts [E | []]. injection E as <- <-.
    repeat constructor; simpl; intros H; repeat destruct H as [H | H]; try discriminate; auto.
  - intros t ts [E | []]. injection E as <- <-. simpl. split; [discriminate |]. split.
    + unfold distinct_keys. simpl.
      repeat constructor; simpl; intros H; repeat destruct H as [H | H]; try discriminate; auto.
    + intros k r [E | [E | [E | []]]]; injection E as <- <-; auto.
  - intros parses. reflexivity.
  - do 2 eexists. split; [left; reflexivity |]. simpl. auto.
  - do 2 eexists. split; [left; reflexivity |]. simpl. auto.
Qed.
