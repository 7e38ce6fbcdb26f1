(** * Facts about copy_to_ampl. *)
From Coq Require Import ZArith Bool List String Arith Lia.
From Verif Require Import PyVal PyDict PyDictFacts ListFacts Data FindTypes FindTypesFacts FK Obj ObjFacts ObjMore Factory GraphFacts InfIO Json ObjRows
  Csv CsvTrip Frames FramesFacts FramesTrip AmplData.
Import ListNotations.
Local Open Scope string_scope.
Local Open Scope list_scope.

(** The column of [f] is [col], row by row. *)
Definition holds_column (fr : frame) (f : string) (col : list value) : Prop :=
  Forall2 (fun r v => reads fr r f v) (fr_rows fr) col.

Lemma column_found : forall fr f col, rect fr -> In (CName f) (fr_cols fr) -> holds_column fr f col -> frame_column fr f = Some col.
Proof.
  intros fr f col R C H. unfold frame_column, holds_column in *.
  assert (forall r, In r (fr_rows fr) -> In r (fr_rows fr)) as S by auto. revert S H. generalize (fr_rows fr) at 1 3 4 as l. intros l. revert col.
  induction l as [| r l IH]; intros col S H; inversion H; subst; auto. cbn [map_opt].
  rewrite (reads_col fr r f y R (S r (or_introl eq_refl)) C) by auto. rewrite (IH l'); auto. intros; apply S; simpl; auto.
Qed.

Lemma column_exists : forall fr f, rect fr -> In (CName f) (fr_cols fr) -> exists col, holds_column fr f col.
Proof.
  intros fr f [Hn Hr] C. unfold holds_column.
  assert (forall l, (forall r, In r l -> In r (fr_rows fr)) -> exists col, Forall2 (fun r v => reads fr r f v) l col) as G; [| apply G; auto].
  induction l as [| r l IH]; intros S; [exists []; constructor |]. destruct IH as [col H]; [intros; apply S; simpl; auto |].
  destruct (In_nth_error (fr_cols fr) (CName f) C) as [i Hi]. destruct (Hr r) as [_ L]; [apply S; simpl; auto |].
  destruct (nth_error (snd r) i) as [v |] eqn:E; [| apply nth_error_None in E; rewrite L in E; apply nth_error_None in E; congruence].
  exists (v :: col). constructor; auto. left. eauto.
Qed.

Lemma rows_column : forall ts fr rs i f, reads_rows ts fr rs -> nth_error (tfields ts) i = Some f -> holds_column fr f (map (fun r => nth i r VNone) rs).
Proof.
  intros ts fr rs i f H Hi. unfold reads_rows, holds_column in *. induction H as [| r x l m A B IH]; simpl; constructor; auto.
  clear - A Hi. revert i Hi. induction A as [| g v fs vs A B IH]; intros [| i] Hi; simpl in *; try discriminate; auto. now injection Hi as ->.
Qed.

(** The fields that get a column. *)
Definition kept (ren : renamings) (t : string) (pk keep : list string) : list string :=
  pk ++ filter (fun f => negb (String.eqb (new_name ren t f) "")) keep.

Lemma kept_in : forall ren t pk keep f, In f (kept ren t pk keep) <-> In f pk \/ (In f keep /\ new_name ren t f <> "").
Proof. intros. unfold kept. rewrite in_app_iff, filter_In, negb_true_iff, String.eqb_neq. tauto. Qed.

Lemma ampl_frame_ok : forall ren t pk keep fr, rect fr -> (forall f, In f (kept ren t pk keep) -> In (CName f) (fr_cols fr)) ->
  exists a, ampl_frame ren t pk keep fr = Some a /\ a_index a = map (new_name ren t) pk /\ map fst (a_cols a) = map (new_name ren t) (kept ren t pk keep) /\
    forall f col, In f (kept ren t pk keep) -> holds_column fr f col -> In (new_name ren t f, col) (a_cols a).
Proof.
  intros ren t pk keep fr R C. unfold ampl_frame. fold (kept ren t pk keep).
  revert C. generalize (kept ren t pk keep) as fs.
  intros fs C.
  assert (exists l, map_opt (fun f => option_map (pair (new_name ren t f)) (frame_column fr f)) fs = Some l /\ map fst l = map (new_name ren t) fs /\
            forall f col, In f fs -> holds_column fr f col -> In (new_name ren t f, col) l) as (l & E & F & G).
  { induction fs as [| f fs IH]; [exists []; simpl; intuition |]. destruct IH as (l & E & F & G); [intros; apply C; simpl; auto |].
    destruct (column_exists fr f R (C f (or_introl eq_refl))) as [col Hc].
    exists ((new_name ren t f, col) :: l). cbn [map_opt]. rewrite (column_found fr f col R (C f (or_introl eq_refl)) Hc). cbn [option_map]. rewrite E.
    split; auto. split; [simpl; now rewrite F |]. intros g col' [<- | Hg] Hc'; [left | right; auto].
    pose proof (column_found fr f col R (C f (or_introl eq_refl)) Hc) as X. rewrite (column_found fr f col' R (C f (or_introl eq_refl)) Hc') in X. congruence. }
  rewrite E. cbn [option_map]. eexists. split; [reflexivity |]. simpl. auto.
Qed.

(** ** Which tables *)

Definition copied_table (sch : schema) (excluded : list string) (t : string) (ts : tschema) : Prop :=
  In (t, ts) sch /\ tpk ts <> [] /\ ~ In t excluded.

Lemma ampl_tables_ok : forall sch excluded, (forall t, In t excluded -> In t (map fst sch)) ->
  exists tables, ampl_tables sch [] excluded = Some tables /\ forall t ts, In (t, ts) tables <-> copied_table sch excluded t ts.
Proof.
  intros sch excluded H. unfold ampl_tables. rewrite app_nil_r.
  assert (forallb (fun t => mem_str t (map fst sch)) excluded = true) as -> by (apply forallb_forall; intros; apply mem_str_iff; auto).
  eexists. split; [reflexivity |]. intros t ts. rewrite filter_In. unfold copied_table. cbn [fst snd].
  rewrite andb_true_iff, !negb_true_iff, Nat.eqb_neq. rewrite <- (not_true_iff_false (mem_str t excluded)), mem_str_iff.
  split; intros [A [B D]]; (split; [auto | split; auto]); destruct (tpk ts); simpl in *; congruence.
Qed.

Lemma filter_fst_NoDup {A B} : forall (p : A * B -> bool) l, NoDup (map fst l) -> NoDup (map fst (filter p l)).
Proof.
  induction l as [| x l IH]; simpl; auto. intros H. inversion H; subst. destruct (p x); simpl; auto. constructor; auto.
  intros Hc. apply H2. apply in_map_iff in Hc as (y & E & Hy). apply filter_In in Hy as [Hy _]. rewrite <- E. now apply in_map.
Qed.

Lemma ampl_tables_names : forall sch generics excluded tables, NoDup (map fst sch) -> ampl_tables sch generics excluded = Some tables -> NoDup (map fst tables).
Proof.
  intros sch generics excluded tables H E. unfold ampl_tables in E. destruct (forallb _ excluded); [| discriminate]. destruct generics; [| discriminate].
  injection E as <-. now apply filter_fst_NoDup.
Qed.

Lemma tables_built {A} : forall (h : string * tschema -> option A) tables, (forall t ts, In (t, ts) tables -> exists a, h (t, ts) = Some a) -> NoDup (map fst tables) ->
  exists l, map_opt (fun tts => option_map (pair (fst tts)) (h tts)) tables = Some l /\ map fst l = map fst tables /\
    forall t ts, In (t, ts) tables -> dget String.eqb l t = h (t, ts).
Proof.
  intros h tables. induction tables as [| [t ts] tables IH]; intros H N; [exists []; split; [reflexivity | split; [reflexivity | intros ? ? []]] |].
  simpl in N. inversion N; subst. destruct IH as (l & E & F & G); auto; [intros; apply H; simpl; auto |].
  destruct (H t ts (or_introl eq_refl)) as [a Ha]. exists ((t, a) :: l). cbn [map_opt]. rewrite Ha, E. cbn [option_map fst]. split; auto. split; [simpl; now rewrite F |].
  intros t' ts' [X | X].
  - injection X as <- <-. simpl. now rewrite String.eqb_refl.
  - simpl. destruct (String.eqb t t') eqn:Et; auto. apply String.eqb_eq in Et. subst t'. exfalso. apply H2. now apply (in_map fst) in X.
Qed.

(** ** TicDat *)

(** Renamings that the function accepts: fields of copied tables; only data fields are dropped. *)
Definition good_renamings (sch : schema) (excluded : list string) (ren : renamings) : Prop :=
  forall t f new, In ((t, f), new) ren -> exists ts, copied_table sch excluded t ts /\ In f (tfields ts) /\ (new = "" -> In f (tdf ts)).

Theorem to_ampl : forall settle sch d ren excluded, wf_schema sch -> obj_ok sch d -> obj_settled settle sch d ->
  (forall t, In t excluded -> In t (map fst sch)) -> good_renamings sch excluded ren ->
  exists l, copy_to_ampl settle sch [] d ren excluded = Some l /\
    (forall t, In t (map fst l) <-> exists ts, copied_table sch excluded t ts) /\
    forall t ts, copied_table sch excluded t ts -> exists a, dget String.eqb l t = Some a /\
      a_index a = map (new_name ren t) (tpk ts) /\ map fst (a_cols a) = map (new_name ren t) (kept ren t (tpk ts) (tdf ts)) /\
      forall i f, nth_error (tfields ts) i = Some f -> In f (kept ren t (tpk ts) (tdf ts)) ->
        In (new_name ren t f, map (fun r => nth i r VNone) (full_rows (d t))) (a_cols a).
Proof.
  intros settle sch d ren excluded W Ok St He Hr. unfold copy_to_ampl.
  destruct (ampl_tables_ok sch excluded He) as (tables & Et & Ht). rewrite Et.
  pose proof (ampl_tables_names _ _ _ _ (proj1 W) Et) as Nt.
  assert (forallb (renaming_ok tables) ren = true) as ->.
  { apply forallb_forall. intros [[t f] new] Hin. destruct (Hr _ _ _ Hin) as (ts & Hc & Hf & Hn). unfold renaming_ok. cbn [fst snd].
    apply Ht in Hc. rewrite (proj2 (dget_In_NoDup tables t ts Nt) Hc).
    apply andb_true_iff. split; [now apply mem_str_iff |]. destruct (String.eqb new "") eqn:E; [| now rewrite orb_true_r].
    apply String.eqb_eq in E. apply orb_true_iff. left. apply mem_str_iff. auto. }
  set (h := fun tts : string * tschema => match copy_frame settle (Some false) false (snd tts) (d (fst tts)) with
                      | Some fr => ampl_frame ren (fst tts) (tpk (snd tts)) (tdf (snd tts)) fr | None => None end).
  assert (forall t ts, In (t, ts) tables -> exists fr, copy_frame settle (Some false) false ts (d t) = Some fr /\ rect fr /\ reads_rows ts fr (full_rows (d t)) /\
            forall f, In f (tfields ts) -> In (CName f) (fr_cols fr)) as Hf.
  { intros t ts Hin. apply Ht in Hin as (Hin & Hp & _). destruct (copy_frame_total settle (Some false) false ts (d t) (Ok _ _ Hin)) as [fr Ef]. exists fr. split; auto.
    destruct (copy_reads settle sch (Some false) false t ts d fr W Ok Hin (St _ _ Hin) Ef) as (A & B & K & D). split; auto. split; auto.
    assert (fr_cols fr = map CName (tfields ts)) as ->.
    { rewrite copy_frame_exact in Ef by (eapply Ok; eauto). pose proof (full_rows_length ts (d t) (Ok _ _ Hin)) as L. pose proof (settled_id settle _ _ L (St _ _ Hin)) as Sd.
      destruct (full_rows (d t)) as [| r0 rows]; [injection Ef as <-; auto |]. destruct (tpk ts) as [| p pk] eqn:Ep; [contradiction |]. rewrite <- Ep in *. cbv zeta in Ef. rewrite Sd in Ef.
      destruct (indexed_reads ts (r0 :: rows) (drops (Some false) ts) (proj2 W _ _ Hin) L) as (_ & _ & _ & C1). cbv zeta in C1.
      assert (fr = set_index (List.length (tpk ts)) (drops (Some false) ts) (plain_frame ts (r0 :: rows))) as -> by (unfold plain_frame; congruence).
      rewrite C1. reflexivity. }
    intros f. apply in_map. }
  assert (forall t ts, In (t, ts) tables -> exists a, h (t, ts) = Some a /\ a_index a = map (new_name ren t) (tpk ts) /\
     map fst (a_cols a) = map (new_name ren t) (kept ren t (tpk ts) (tdf ts)) /\
      forall i f, nth_error (tfields ts) i = Some f -> In f (kept ren t (tpk ts) (tdf ts)) ->
        In (new_name ren t f, map (fun r => nth i r VNone) (full_rows (d t))) (a_cols a)) as Hh.
  { intros t ts Hin. destruct (Hf _ _ Hin) as (fr & E & R & Rd & C). unfold h. cbn [fst snd]. rewrite E.
    destruct (ampl_frame_ok ren t (tpk ts) (tdf ts) fr R) as (a & A & I & N & G).
    { intros f Hk. apply C. apply kept_in in Hk. unfold tfields. apply in_or_app. tauto. }
    exists a. split; auto. split; auto. split; auto. intros i f Hi Hk. apply G; auto. eapply rows_column; eauto. }
  destruct (tables_built h tables) as (l & E & F & G); auto.
  { intros t ts Hin. destruct (Hh _ _ Hin) as (a & A & _). eauto. }
  exists l. split.
  - rewrite <- E. unfold h. clear. induction tables as [| x tables IH]; auto. cbn [map_opt]. rewrite IH. destruct (copy_frame _ _ _ _ _); reflexivity.
  - split.
    + intros t. rewrite F, in_map_iff. split; [intros ([t' ts] & <- & Hin); exists ts; now apply Ht | intros [ts Hin]; exists (t, ts); split; auto; now apply Ht].
    + intros t ts Hc. apply Ht in Hc. destruct (Hh _ _ Hc) as (a & A & B). exists a. split; auto. rewrite <- A. auto.
Qed.

(** ** PanDat *)

(** The fields of table [t] that are renamed. *)
Definition renamed (ren : renamings) (t f : string) : Prop := exists new, In ((t, f), new) ren.

Lemma pan_fields_in : forall ren t ts f, In f (pan_fields ren t ts) <-> renamed ren t f \/ In f (tdf ts).
Proof.
  intros ren t ts f. unfold pan_fields. rewrite in_app_iff, filter_In, negb_true_iff.
  rewrite <- (not_true_iff_false (mem_str f _)), mem_str_iff.
  assert (In f (map (fun kv : string * string * string => snd (fst kv)) (filter (fun kv => String.eqb (fst (fst kv)) t) ren)) <-> renamed ren t f) as ->.
  { rewrite in_map_iff. unfold renamed. split.
    - intros ([[t' f'] new] & <- & Hin). apply filter_In in Hin as [Hin Et]. cbn [fst snd] in *. apply String.eqb_eq in Et. subst. eauto.
    - intros [new Hin]. exists ((t, f), new). split; auto. apply filter_In. cbn [fst]. rewrite String.eqb_refl. auto. }
  destruct (in_dec string_dec f (map (fun kv : string * string * string => snd (fst kv)) (filter (fun kv => String.eqb (fst (fst kv)) t) ren))) as [H | H].
  - assert (renamed ren t f); [| tauto]. apply in_map_iff in H as ([[t' f'] new] & <- & Hin). apply filter_In in Hin as [Hin Et]. cbn [fst snd] in *. apply String.eqb_eq in Et. subst.
    exists new. auto.
  - assert (~ renamed ren t f); [| tauto]. intros [new Hin]. apply H. apply in_map_iff. exists ((t, f), new). split; auto. apply filter_In. cbn [fst]. rewrite String.eqb_refl. auto.
Qed.

Definition good_pan_renamings (sch : schema) (excluded : list string) (x : string -> frame) (ren : renamings) : Prop :=
  forall t f new, In ((t, f), new) ren -> exists ts, copied_table sch excluded t ts /\ In (CName f) (fr_cols (x t)) /\ (new = "" -> ~ In f (tpk ts)).

Theorem pan_to_ampl : forall sch x ren excluded, wf_schema sch ->
  (forall t ts, In (t, ts) sch -> rect (x t) /\ forall f, In f (tfields ts) -> In (CName f) (fr_cols (x t))) ->
  (forall t, In t excluded -> In t (map fst sch)) -> good_pan_renamings sch excluded x ren ->
  exists l, pan_copy_to_ampl sch [] x ren excluded = Some l /\
    (forall t, In t (map fst l) <-> exists ts, copied_table sch excluded t ts) /\
    forall t ts, copied_table sch excluded t ts -> exists a, dget String.eqb l t = Some a /\
      a_index a = map (new_name ren t) (tpk ts) /\
      map fst (a_cols a) = map (new_name ren t) (kept ren t (tpk ts) (pan_fields ren t ts)) /\
      forall f col, In f (tpk ts) \/ ((renamed ren t f \/ In f (tdf ts)) /\ new_name ren t f <> "") ->
        holds_column (x t) f col -> In (new_name ren t f, col) (a_cols a).
Proof.
  intros sch x ren excluded W Ok He Hr. unfold pan_copy_to_ampl.
  destruct (ampl_tables_ok sch excluded He) as (tables & Et & Ht). rewrite Et.
  pose proof (ampl_tables_names _ _ _ _ (proj1 W) Et) as Nt.
  assert (forallb (pan_renaming_ok tables x) ren = true) as ->.
  { apply forallb_forall. intros [[t f] new] Hin. destruct (Hr _ _ _ Hin) as (ts & Hc & Hf & Hn). unfold pan_renaming_ok. cbn [fst snd].
    apply Ht in Hc. rewrite (proj2 (dget_In_NoDup tables t ts Nt) Hc).
    apply andb_true_iff. split; [now apply has_col_iff |]. destruct (String.eqb new "") eqn:E; auto.
    apply String.eqb_eq in E. cbn [negb orb]. apply negb_true_iff, not_true_iff_false. rewrite mem_str_iff. auto. }
  set (h := fun tts : string * tschema => ampl_frame ren (fst tts) (tpk (snd tts)) (pan_fields ren (fst tts) (snd tts)) (x (fst tts))).
  assert (forall t ts, In (t, ts) tables -> exists a, h (t, ts) = Some a /\ a_index a = map (new_name ren t) (tpk ts) /\
     map fst (a_cols a) = map (new_name ren t) (kept ren t (tpk ts) (pan_fields ren t ts)) /\
      forall f col, In f (tpk ts) \/ ((renamed ren t f \/ In f (tdf ts)) /\ new_name ren t f <> "") ->
        holds_column (x t) f col -> In (new_name ren t f, col) (a_cols a)) as Hh.
  { intros t ts Hin. apply Ht in Hin. pose proof Hin as (Hs & _ & _). destruct (Ok _ _ Hs) as [R C]. unfold h. cbn [fst snd].
    destruct (ampl_frame_ok ren t (tpk ts) (pan_fields ren t ts) (x t) R) as (a & A & I & N & G).
    { intros f Hk. apply kept_in in Hk as [Hk | [Hk _]]; [apply C; apply in_or_app; auto |]. apply pan_fields_in in Hk as [[new Hk] | Hk]; [| apply C; apply in_or_app; auto].
      destruct (Hr _ _ _ Hk) as (_ & _ & B & _). auto. }
    exists a. split; auto. split; auto. split; auto. intros f col Hk Hc. apply G; auto. apply kept_in. rewrite pan_fields_in. tauto. }
  destruct (tables_built h tables) as (l & E & F & G); auto.
  { intros t ts Hin. destruct (Hh _ _ Hin) as (a & A & _). eauto. }
  exists l. split; [exact E |]. split.
  - intros t. rewrite F, in_map_iff. split; [intros ([t' ts] & <- & Hin); exists ts; now apply Ht | intros [ts Hin]; exists (t, ts); split; auto; now apply Ht].
  - intros t ts Hc. apply Ht in Hc. destruct (Hh _ _ Hc) as (a & A & B). exists a. split; auto. rewrite <- A. auto.
Qed.

(** Generic tables. *)
Theorem to_ampl_generic : forall settle sch generics d ren excluded, generics <> [] -> copy_to_ampl settle sch generics d ren excluded = None.
Proof. intros. unfold copy_to_ampl, ampl_tables. destruct generics; [contradiction |]. now destruct (forallb _ excluded). Qed.
Theorem pan_to_ampl_generic : forall sch generics x ren excluded, generics <> [] -> pan_copy_to_ampl sch generics x ren excluded = None.
Proof. intros. unfold pan_copy_to_ampl, ampl_tables. destruct generics; [contradiction |]. now destruct (forallb _ excluded). Qed.

(** Every column is set once. *)
Definition apart (ren : renamings) (t : string) (fs : list string) : Prop :=
  forall f g, In f fs -> In g fs -> new_name ren t f = new_name ren t g -> f = g.

Lemma map_inj_NoDup {A B} (h : A -> B) : forall l, NoDup l -> (forall x y, In x l -> In y l -> h x = h y -> x = y) -> NoDup (map h l).
Proof.
  induction l as [| x l IH]; intros N I; simpl; constructor; inversion N; subst.
  - intros Hc. apply in_map_iff in Hc as (y & E & Hy). assert (y = x) by (apply I; simpl; auto). congruence.
  - apply IH; auto. intros; apply I; simpl; auto.
Qed.

Lemma tic_once : forall ren t ts, wf_tschema ts -> apart ren t (tfields ts) -> NoDup (map (new_name ren t) (kept ren t (tpk ts) (tdf ts))).
Proof.
  intros ren t ts W Ap. unfold wf_tschema, tfields in *. apply map_inj_NoDup.
  - unfold kept. apply NoDup_app_intro; [eapply NoDup_app_l; eauto | apply NoDup_filter; eapply NoDup_app_r; eauto |].
    intros x Hx Hy. apply filter_In in Hy as [Hy _]. eapply NoDup_app_disj; eauto.
  - intros f g Hf Hg. apply Ap; apply in_or_app; [apply kept_in in Hf | apply kept_in in Hg]; tauto.
Qed.

Lemma pan_once : forall ren t ts, wf_tschema ts -> NoDup (map fst ren) -> (forall f, renamed ren t f -> ~ In f (tpk ts)) ->
  apart ren t (kept ren t (tpk ts) (pan_fields ren t ts)) -> NoDup (map (new_name ren t) (kept ren t (tpk ts) (pan_fields ren t ts))).
Proof.
  intros ren t ts W N Hp Ap. apply map_inj_NoDup; auto. unfold wf_tschema, tfields in *. unfold kept. apply NoDup_app_intro; [eapply NoDup_app_l; eauto | apply NoDup_filter |].
  - unfold pan_fields. apply NoDup_app_intro.
    + clear - N. induction ren as [| [[t' f] new] ren IH]; simpl; [constructor |]. simpl in N. inversion N; subst. destruct (String.eqb t' t) eqn:E; auto.
      apply String.eqb_eq in E. subst t'. simpl. constructor; auto. intros Hc. apply H1. apply in_map_iff in Hc as ([[t' f'] new'] & X & Y). apply filter_In in Y as [Y Z]. cbn [fst snd] in *. subst f'.
      apply String.eqb_eq in Z. subst t'. now apply (in_map fst) in Y.
    + apply NoDup_filter. eapply NoDup_app_r; eauto.
    + intros x Hx Hy. apply filter_In in Hy as [_ Hy]. apply negb_true_iff in Hy. apply mem_str_iff in Hx. congruence.
  - intros x Hx Hy. apply filter_In in Hy as [Hy _]. apply pan_fields_in in Hy as [Hy | Hy]; [eapply Hp; eauto | eapply NoDup_app_disj; eauto].
Qed.
