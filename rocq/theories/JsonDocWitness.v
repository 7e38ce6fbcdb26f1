(** * Concrete factories and documents for the json reader and writer. *)
From Coq Require Import ZArith Bool List String Ascii Arith Lia Permutation.
From Verif Require Import PyVal PyValFacts PyDict PyDictFacts PyStr TypeDict Data FindTypes FindTypesFacts FK Obj ObjFacts ObjMore ObjRows
  Factory FactoryFacts FactoryMore InfIO InfIOFacts Params Names Utils Json JsonFacts JsonDups JsonMore InfWitness JsonWitness Frames FramesFacts P_Frames
  Csv CsvTrip PanIO PanIOFacts PanRead PanJson PanIOWitness PanFiles PanFilesFacts PanFilesTrip PanFilesWitness PgPanWitness PanFac JsonDoc JsonDocFacts JsonDocMore.
Import ListNotations.
Local Open Scope string_scope.
Local Open Scope list_scope.

Definition wd_none (v : value) : bool := false.
Definition wd_records (l : list rowin) : pattr := PText "rows".
Definition wd_parts : tschema := mkT ["id"] ["size"; "day"; "note"].
Definition wd_log : tschema := mkT [] ["x"; "y"].
Definition wd_decl : list (string * tdecl) := [("parts", Fields wd_parts); ("log", Fields wd_log)].
Definition wd_f0 : factory := match init wd_decl with Some f => f | None => wi_f0 end.
(** Sizes are numbers from 0, days are dates; infinity is written as 1000. *)
Definition wd_fac : factory := run wd_none wd_f0 [OSetType "parts" "size" wi_cap; OSetType "parts" "day" wi_day; OFlag wi_big].
Definition wd_tables : list (string * tdecl) := rev (f_decl wd_fac).
Definition wd_pan : factory := match pan_create wd_none (schema_in_order wd_fac wd_tables) with Some g => g | None => wi_f0 end.

Definition wd_obj : obj := fun t =>
  if String.eqb t "parts" then OKeyed [(KAtom (VStr "p"), [VNum PInf; VDate 5; VNone]); (KAtom (VStr "q"), [int 3; VNone; VStr "hi"])]
  else if String.eqb t "log" then OListed [[VStr "a"; int 1]; [VNaN; int 2]; [VStr "a"; int 1]]
  else OListed [].

Lemma wd_reach : reachable wd_none wd_fac.
Proof. exists wd_decl, wd_f0. eexists. split; reflexivity. Qed.

Lemma wd_plain : plain_schema wd_fac = [("parts", wd_parts); ("log", wd_log)].
Proof. vm_compute. reflexivity. Qed.

Lemma wd_params : string_params wd_fac /\ no_empty_fk wd_fac.
Proof. split; intros ? ?; vm_compute; tauto. Qed.

Lemma wd_perm : Permutation (f_decl wd_fac) wd_tables.
Proof. apply Permutation_rev. Qed.

Lemma wd_frameable : forall t ts, In (t, ts) (plain_schema wd_fac) -> frameable ts.
Proof. intros t ts H. rewrite wd_plain in H. destruct H as [E | [E | []]]; injection E as <- <-; split; simpl; intuition discriminate. Qed.

Lemma wd_shape : params_shape wd_fac.
Proof. intros H. vm_compute in H. discriminate. Qed.

Lemma wd_factory : plain_factory wd_fac.
Proof.
  split; [reflexivity |]. split; [reflexivity |]. split; [apply wd_shape |]. split; [apply wd_frameable |].
  intros t ts x v H. rewrite wd_plain in H. destruct H as [E | [E | []]]; injection E as <- <-; intros H.
  - assert (In x (map fst (defaults_of (f_defaults wd_fac) "parts"))) as X.
    { unfold dget2, dget_or, defaults_of in *. destruct (dget String.eqb (f_defaults wd_fac) "parts") as [d |]; [| discriminate].
      apply dget_In in H as (k & Ek & H). apply String.eqb_eq in Ek. subst k. now apply (in_map fst) in H. }
    vm_compute in X. vm_compute. tauto.
  - assert (In x (map fst (defaults_of (f_defaults wd_fac) "log"))) as X.
    { unfold dget2, dget_or, defaults_of in *. destruct (dget String.eqb (f_defaults wd_fac) "log") as [d |]; [| discriminate].
      apply dget_In in H as (k & Ek & H). apply String.eqb_eq in Ek. subst k. now apply (in_map fst) in H. }
    vm_compute in X. vm_compute. tauto.
Qed.

Lemma wd_obj_ok : obj_ok (plain_schema wd_fac) wd_obj /\ obj_keys (plain_schema wd_fac) wd_obj /\ proper_keys (plain_schema wd_fac) wd_obj.
Proof.
  rewrite wd_plain. split; [| split].
  - intros t ts [E | [E | []]]; injection E as <- <-; simpl.
    + intros k r H; repeat destruct H as [H | H]; try contradiction; injection H as <- <-; simpl; auto.
    + intros r H; repeat destruct H as [H | H]; try contradiction; subst; reflexivity.
  - intros t ts [E | [E | []]]; injection E as <- <-; unfold no_equal_keys; simpl; auto.
    constructor; [simpl; intuition congruence |]. constructor; [intros [] | constructor].
  - intros t ts [E | [E | []]]; injection E as <- <-; simpl; auto; intros k r H;
      repeat destruct H as [H | H]; try contradiction; injection H as <- <-; reflexivity.
Qed.

(** ** Deciding whether cells survive *)
Definition surv_b (f : factory) (t x : string) (v : value) : bool :=
  match v with
  | VDate z => match field_type f t x with Some dt => datetime dt && match wi_date (VStr (wj_show z)) with Some z' => Z.eqb z z' | None => false end | None => false end
  | _ => kept_b f t x v
  end &&
  match f_flag f, v with
  | VNum m, VNum PInf | VNum m, VNum NInf => true
  | VNum m, VNum n => num_ltb (num_opp m) n && num_ltb n m
  | VNum _, _ => true
  | _, _ => false
  end && negb (none_text v).

Lemma surv_b_ok f t x v : surv_b f t x v = true -> survives wi_date wi_float wj_show f t x v.
Proof.
  intros H. unfold surv_b in H. apply andb_true_iff in H as [H H3]. apply andb_true_iff in H as [H1 H2]. apply negb_true_iff in H3. split; [| split; [| split]].
  - destruct v; try (now apply kept_b_ok). destruct (field_type f t x) as [dt |]; [| discriminate]. exists dt. apply andb_true_iff in H1 as [A B]. split; auto. split; auto.
    destruct (wi_date _) as [z' |]; [| discriminate]. apply Z.eqb_eq in B. now subst.
  - intros m n Em ->. rewrite Em in H2. destruct n; auto. right. right. apply andb_true_iff in H2. exact H2.
  - intros E. rewrite E in H2. discriminate.
  - intros X. congruence.
Qed.

Definition rows_b (f : factory) (t : string) (ts : tschema) (rows : list (list value)) : bool :=
  forallb (fun r => forallb (fun xv => surv_b f t (fst xv) (snd xv) && surv_b f t (fst xv) VNone && surv_b f t (fst xv) VNaN) (combine (tfields ts) r)) rows.

Lemma alike_combine : forall (fs : list string) r r' x v, Forall2 alike r r' -> In (x, v) (combine fs r') -> exists u, In (x, u) (combine fs r) /\ alike u v.
Proof.
  induction fs as [| a fs IH]; intros r r' x v F H; [contradiction |]. destruct F as [| u w r r' A F]; [contradiction |]. cbn [combine] in *. destruct H as [H | H].
  - injection H as <- <-. exists u. simpl. auto.
  - destruct (IH _ _ _ _ F H) as (u' & X & Y). exists u'. simpl. auto.
Qed.

Lemma rows_b_ok f t ts rows : rows_b f t ts rows = true -> String.eqb t "parameters" = false -> (forall r, In r rows -> List.length r = List.length (tfields ts)) ->
  forall r r', In r rows -> Forall2 alike r r' -> row_ok wi_date wi_float wj_show f t ts r'.
Proof.
  intros H Ht L r r' Hr F. split; [rewrite <- (L r Hr); symmetry; eapply Forall2_length; eauto |]. rewrite Ht. intros x v Hx.
  destruct (alike_combine _ _ _ _ _ F Hx) as (u & Hu & A). unfold rows_b in H. rewrite forallb_forall in H. specialize (H r Hr). rewrite forallb_forall in H. specialize (H _ Hu).
  cbn [fst snd] in H. apply andb_true_iff in H as [H H3]. apply andb_true_iff in H as [H1 H2]. apply surv_b_ok. destruct A as [<- | [_ A]]; auto. now destruct v.
Qed.

Lemma wd_rows : forall t ts r r', In (t, ts) (plain_schema wd_fac) -> In r (full_rows (wd_obj t)) -> Forall2 alike r r' -> row_ok wi_date wi_float wj_show wd_fac t ts r'.
Proof.
  intros t ts r r' Hin. destruct wd_obj_ok as [Ok _]. pose proof (full_rows_length ts (wd_obj t)) as L. specialize (Ok t ts Hin). rewrite wd_plain in Hin.
  destruct Hin as [E | [E | []]]; injection E as <- <-; apply rows_b_ok; auto; vm_compute; reflexivity.
Qed.

Lemma wd_full : forall t ts, In (t, ts) (plain_schema wd_fac) -> tpk ts <> [] -> keys_full ts (full_rows (wd_obj t)).
Proof.
  intros t ts Hin Hne. rewrite wd_plain in Hin. destruct Hin as [E | [E | []]]; injection E as <- <-; [| contradiction].
  intros r Hr. simpl in Hr. destruct Hr as [<- | [<- | []]]; repeat constructor.
Qed.

Lemma wd_gentle : forall l, gentle wq_settle l.
Proof.
  intros l. unfold gentle, wq_settle. destruct (forallb _ l).
  - induction l as [| v l IH]; constructor; auto. destruct v; try (now left). right. split; reflexivity.
  - induction l; constructor; auto. now left.
Qed.

Definition wd_doc : jfile := match make_pan_json wd_none wi_date wq_settle wj_show wd_fac wd_tables wd_obj with Ret d => d | Raise => [] end.

(** ** Documents of DataFrames *)
Definition wd_cell (v : value) : value := match v with VNone => VNaN | VDate z => VStr (wj_show z) | _ => v end.
Definition wd_load (text : string -> bool) (fr : frame) : frame := mkFr [] (fr_cols fr) (map (fun r => ([], map wd_cell (snd r))) (fr_rows fr)).

Lemma wd_loads : loads wj_show (fun _ => "") (fun _ _ => True) wd_load.
Proof.
  intros text ts w W R _. split; [reflexivity |]. split; [reflexivity |]. unfold wd_load, frame_of. cbn [fr_cols fr_rows]. rewrite map_map. cbn [snd].
  assert (forall r, In r w -> came_row wj_show (fun _ => "") text (tfields ts) r (map wd_cell r)) as G.
  { intros r Hr. unfold came_row. assert (List.length r = List.length (tfields ts)) as L by (now apply R). clear - L. revert r L. generalize (tfields ts) as xs.
    induction xs as [| x xs IH]; intros [| v r] L; try discriminate; simpl; constructor; auto. cbn [fst snd]. destruct v; try (left; left; reflexivity).
    - left. right. split; reflexivity.
    - right. left. eauto. }
  clear - G. induction w as [| r w IH]; simpl; constructor; [| apply IH; intros; apply G; simpl; auto]. split; [reflexivity |]. apply G. simpl. auto.
Qed.

Definition wd_rows_of (t : string) : list (list value) := full_rows (wd_obj t).
Definition wd_split : list (string * frame) := match pd_write wi_date wj_show wd_pan true wd_rows_of (fun _ => mkFr [] [] []) with Ret d => d | Raise => [] end.

Definition wd_types : types :=
  [("parts", [("size", mkDtype true true true (of_int 0) PInf false (SList []) false false); ("day", mkDtype false true true (of_int 0) PInf false (SList []) false true)])].

Lemma wd_pan_types : f_types wd_pan = wd_types.
Proof. vm_compute. reflexivity. Qed.

Lemma wd_text : forall t x, ~ text_field wd_pan t x.
Proof.
  intros t x [(dt & E & A & B & C) | [_ X]].
  - unfold field_type, dget2, dget_or in E. rewrite wd_pan_types in E. unfold wd_types in E.
    cbn [dget] in E. destruct (String.eqb "parts" t); [| discriminate]. cbn [dget] in E. destruct (String.eqb "size" x); [injection E as <-; discriminate |].
    destruct (String.eqb "day" x); [injection E as <-; discriminate | discriminate].
  - vm_compute in X. discriminate.
Qed.

Lemma wd_file_rows : forall t ts r, In (t, ts) (plain_schema wd_fac) -> In r (wd_rows_of t) -> file_row_ok wi_date wi_float wj_show (fun _ => "") true wd_pan t ts r.
Proof.
  intros t ts r Hin Hr. unfold wd_rows_of in Hr. destruct wd_obj_ok as [Ok _]. pose proof (full_rows_length ts (wd_obj t) (Ok t ts Hin) r Hr) as L. split; auto. rewrite wd_plain in Hin.
  assert (rows_b wd_pan t ts (full_rows (wd_obj t)) = true) as B by (destruct Hin as [E | [E | []]]; injection E as <- <-; vm_compute; reflexivity).
  assert (String.eqb t "parameters" = false) as -> by (destruct Hin as [E | [E | []]]; injection E as <- <-; reflexivity).
  intros x v Hx. unfold rows_b in B. rewrite forallb_forall in B. specialize (B r Hr). rewrite forallb_forall in B. specialize (B _ Hx). cbn [fst snd] in B.
  apply andb_true_iff in B as [B _]. apply andb_true_iff in B as [B _]. apply surv_b_ok in B as (A & C & D & E). split; [| split; [exact C | split; [exact D | intros _; exact E]]].
  destruct v; auto. split; auto. apply wd_text.
Qed.

Lemma wd_pan_made : pan_create wd_none (schema_in_order wd_fac wd_tables) = Some wd_pan.
Proof.
  unfold wd_pan. destruct (pan_create wd_none (schema_in_order wd_fac wd_tables)) eqn:E; auto. exfalso.
  assert (match pan_create wd_none (schema_in_order wd_fac wd_tables) with Some _ => true | None => false end = true) as X by (vm_compute; reflexivity). rewrite E in X. discriminate.
Qed.

Lemma wd_distinct : forall t ts, In (t, ts) (plain_schema wd_fac) -> tpk ts <> [] -> keys_full ts (wd_rows_of t) /\ no_equal_keys (map (key_of ts) (wd_rows_of t)).
Proof.
  intros t ts Hin Hne. split; [now apply wd_full |]. rewrite wd_plain in Hin. destruct Hin as [E | [E | []]]; injection E as <- <-; [| contradiction].
  unfold no_equal_keys. simpl. constructor; [simpl; intuition congruence |]. constructor; [intros [] | constructor].
Qed.

(** Two parts with the same name; the names of the cells do not matter. *)
Definition wd_twice : jfile :=
  [("Parts", JList [RSeq [VStr "p"; int 1; VNone; VNone]; RSeq [VStr "q"; int 1; VNone; VNone]; RSeq [VStr "p"; int 2; VNone; VNone]])].

(** ** A schema that hides the format *)
Definition we_decl : list (string * tdecl) := [("t", Fields (mkT ["columns"] ["data"]))].
Definition we_fac : factory := match init we_decl with Some f => f | None => wi_f0 end.
Definition we_other : list (string * tdecl) := [("t", Fields (mkT ["a"] ["b"]))].
Definition we_fac' : factory := match init we_other with Some f => f | None => wi_f0 end.
Definition we_frame (a b : string) (rows : list (list value)) : frame := mkFr [] [CName a; CName b] (map (fun r => ([], r)) rows).
