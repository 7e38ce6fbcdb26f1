(** * Decision procedures for the well-formedness hypotheses, used only to
    discharge them in examples and refutations. *)
From Coq Require Import ZArith Bool List String Arith Lia.
From Verif Require Import PyVal PyValFacts PyDict Data FindTypes FindTypesFacts FK FKFacts RemoveFacts
  PanFKFacts ImpliedFacts.
Import ListNotations.

Fixpoint nodup_b {A} (eqb : A -> A -> bool) (l : list A) : bool :=
  match l with
  | [] => true
  | x :: l' => negb (existsb (eqb x) l') && nodup_b eqb l'
  end.

Lemma nodup_b_ok {A} (eqb : A -> A -> bool) : (forall a b, eqb a b = true <-> a = b) ->
  forall l, nodup_b eqb l = true -> NoDup l.
Proof.
  intros Heq. induction l as [| x l IH]; simpl; intros H; constructor.
  - intros Hin. apply andb_prop in H as [H _]. apply negb_true_iff in H.
    assert (existsb (eqb x) l = true) as E; [| congruence].
    apply existsb_exists. exists x. split; auto. now apply Heq.
  - apply andb_prop in H as [_ H]. auto.
Qed.

Definition wf_schema_b (sch : schema) : bool :=
  nodup_b String.eqb (map fst sch) &&
  forallb (fun tts => nodup_b String.eqb (tfields (snd tts))) sch.

Lemma wf_schema_ok : forall sch, wf_schema_b sch = true -> wf_schema sch.
Proof.
  intros sch H. apply andb_prop in H as [H1 H2]. rewrite forallb_forall in H2. split.
  - now apply (nodup_b_ok String.eqb String.eqb_eq).
  - intros t ts Hin. apply H2 in Hin. now apply (nodup_b_ok String.eqb String.eqb_eq).
Qed.

Definition wf_table_b (ts : tschema) (tb : table) : bool :=
  match tb with
  | Keyed l => negb (Nat.eqb (List.length (tpk ts)) 0) &&
      nodup_b (list_eqb value_eqb) (map (map canon) (map fst l)) &&
      forallb (fun kr => Nat.eqb (List.length (fst kr)) (List.length (tpk ts)) &&
                         Nat.eqb (List.length (snd kr)) (List.length (tdf ts))) l
  | Listed l => Nat.eqb (List.length (tpk ts)) 0 &&
      forallb (fun r : row => Nat.eqb (List.length r) (List.length (tdf ts))) l
  end.

Lemma wf_table_ok : forall ts tb, wf_table_b ts tb = true -> wf_table ts tb.
Proof.
  intros ts [l | l] H; simpl in *.
  - apply andb_prop in H as [H H3]. apply andb_prop in H as [H1 H2].
    split; [| split].
    + intros E. now rewrite E in H1.
    + unfold distinct_keys. apply (nodup_b_ok (list_eqb value_eqb)); auto.
      intros a b. apply FKFacts.list_eqb_eq. apply value_eqb_eq.
    + intros k r Hin. rewrite forallb_forall in H3. apply H3 in Hin. simpl in Hin.
      apply andb_prop in Hin as [E1 E2]. apply Nat.eqb_eq in E1, E2. auto.
  - apply andb_prop in H as [H1 H2]. apply Nat.eqb_eq in H1. split.
    + now destruct (tpk ts).
    + intros r Hin. rewrite forallb_forall in H2. apply H2 in Hin. now apply Nat.eqb_eq in Hin.
Qed.

Definition wf_dat_b (sch : schema) (d : dat) : bool :=
  forallb (fun tts => wf_table_b (snd tts) (d (fst tts))) sch.

Lemma wf_dat_ok : forall sch d, wf_dat_b sch d = true -> wf_dat sch d.
Proof.
  intros sch d H t ts Hin. unfold wf_dat_b in H. rewrite forallb_forall in H. apply H in Hin.
  now apply wf_table_ok.
Qed.

Definition wf_pdat_b (sch : schema) (d : pdat) : bool :=
  forallb (fun tts => forallb (fun r : row => Nat.eqb (List.length r) (List.length (tfields (snd tts))))
                        (d (fst tts))) sch.

Lemma wf_pdat_ok : forall sch d, wf_pdat_b sch d = true -> wf_pdat sch d.
Proof.
  intros sch d H t ts r Hin Hr. unfold wf_pdat_b in H. rewrite forallb_forall in H. apply H in Hin.
  simpl in Hin. rewrite forallb_forall in Hin. apply Hin in Hr. now apply Nat.eqb_eq in Hr.
Qed.

Lemma mem_str_In : forall x l, mem_str x l = true -> In x l.
Proof.
  intros x l H. unfold mem_str in H. apply existsb_exists in H as (y & Hy & E).
  apply String.eqb_eq in E. now subst.
Qed.

Definition wf_fk_b (sch : schema) (f : fk) : bool :=
  match dget String.eqb sch (fk_native f), dget String.eqb sch (fk_foreign f) with
  | Some nts, Some fts =>
      negb (Nat.eqb (List.length (fk_map f)) 0) &&
      forallb (fun nf => mem_str (fst nf) (tfields nts) && mem_str (snd nf) (tfields fts)) (fk_map f) &&
      nodup_b String.eqb (map fst (fk_map f))
  | _, _ => false
  end.

Lemma dget_str_In : forall {V} (l : list (string * V)) k v, dget String.eqb l k = Some v -> In (k, v) l.
Proof.
  intros V l k v H. apply PyDictFacts.dget_In in H as (k' & E & Hin). apply String.eqb_eq in E. now subst.
Qed.

Lemma wf_fk_ok : forall sch f, wf_fk_b sch f = true -> wf_fk sch f.
Proof.
  intros sch f H. unfold wf_fk_b in H.
  destruct (dget String.eqb sch (fk_native f)) as [nts |] eqn:E1; [| discriminate].
  destruct (dget String.eqb sch (fk_foreign f)) as [fts |] eqn:E2; [| discriminate].
  apply andb_prop in H as [H H3]. apply andb_prop in H as [H1 H2].
  apply dget_str_In in E1, E2. exists nts, fts. split; auto. split; auto. split; [| split].
  - intros E. now rewrite E in H1.
  - intros nf ff Hin. rewrite forallb_forall in H2. apply H2 in Hin. simpl in Hin.
    apply andb_prop in Hin as [A B]. split; now apply mem_str_In.
  - now apply (nodup_b_ok String.eqb String.eqb_eq).
Qed.

Definition good_fks_b (sch : schema) (fks : list fk) : bool :=
  nodup_b fk_eqb fks &&
  forallb (fun f => wf_fk_b sch f && nodup_b String.eqb (map snd (fk_map f))) fks.

Lemma good_fks_ok : forall sch fks, good_fks_b sch fks = true -> good_fks sch fks.
Proof.
  intros sch fks H. apply andb_prop in H as [H1 H2]. split.
  - now apply (nodup_b_ok fk_eqb fk_eqb_eq).
  - intros f Hf. rewrite forallb_forall in H2. apply H2 in Hf. apply andb_prop in Hf as [A B].
    split; [now apply wf_fk_ok | now apply (nodup_b_ok String.eqb String.eqb_eq)].
Qed.

(** A sufficient test for [no_overwrite]: no native name is a foreign name. *)
Definition apart_b (m : list (string * string)) : bool :=
  forallb (fun nf => negb (mem_str (fst nf) (map snd m))) m.

Lemma apart_ok : forall m, apart_b m = true -> no_overwrite m.
Proof.
  intros m H i j ni fi nj fj _ Hi Hj E. subst fj. exfalso. unfold apart_b in H. rewrite forallb_forall in H.
  apply nth_error_In in Hi, Hj. apply H in Hi. simpl in Hi. apply negb_true_iff in Hi.
  assert (mem_str ni (map snd m) = true) as Ht; [| congruence].
  unfold mem_str. apply existsb_exists. exists ni. split; [| apply String.eqb_refl].
  apply in_map_iff. exists (nj, ni). auto.
Qed.

Definition good_pan_fks_b (sch : schema) (fks : list fk) : bool :=
  forallb (fun f => wf_fk_b sch f && apart_b (fk_map f)) fks.

Lemma good_pan_fks_ok : forall sch fks, good_pan_fks_b sch fks = true -> good_pan_fks sch fks.
Proof.
  intros sch fks H f Hf. unfold good_pan_fks_b in H. rewrite forallb_forall in H. apply H in Hf.
  apply andb_prop in Hf as [A B]. split; [now apply wf_fk_ok | now apply apart_ok].
Qed.

Definition keyed_parents_b (sch : schema) (fks : list fk) : bool :=
  forallb (fun f => forallb (fun tts => negb (String.eqb (fst tts) (fk_foreign f) &&
                                               Nat.eqb (List.length (tpk (snd tts))) 0)) sch) fks.

Lemma keyed_parents_ok : forall sch fks, keyed_parents_b sch fks = true -> keyed_parents sch fks.
Proof.
  intros sch fks H f fts Hf Hin E. unfold keyed_parents_b in H. rewrite forallb_forall in H.
  apply H in Hf. rewrite forallb_forall in Hf. apply Hf in Hin. simpl in Hin.
  rewrite String.eqb_refl, E in Hin. discriminate.
Qed.

(** Decides whether a native row has a parent (straight from the definition of
    agreement, cell by cell). *)
Definition cell_of (ts : tschema) (k : key) (r : row) (f : string) : option value :=
  dget String.eqb (combine (tfields ts) (k ++ r)) f.
