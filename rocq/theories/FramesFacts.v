(** * Facts about DataFrames. *)
From Coq Require Import ZArith Bool List String Arith Lia.
From Verif Require Import PyVal PyValFacts PyDict PyDictFacts ListFacts Data FindTypes FindTypesFacts FK Obj ObjFacts ObjMore
  Factory FactoryFacts GraphFacts InfIO Json ObjRows TripFacts Csv CsvTrip Frames.
Import ListNotations.
Local Open Scope string_scope.
Local Open Scope list_scope.

Lemma Forall2_length {A B} (P : A -> B -> Prop) : forall l m, Forall2 P l m -> List.length l = List.length m.
Proof. intros l m H. induction H; simpl; congruence. Qed.

Lemma nth_error_firstn_lt {A} : forall n (l : list A) i, i < n -> nth_error (firstn n l) i = nth_error l i.
Proof. induction n; intros [| a l] [| i] H; simpl; auto; try lia. apply IHn. lia. Qed.

Lemma nth_error_skipn_at {A} : forall n (l : list A) i, nth_error (skipn n l) i = nth_error l (n + i).
Proof. induction n; intros [| a l] i; simpl; auto. now destruct i. Qed.

Lemma col_eqb_eq : forall a b, col_eqb a b = true <-> a = b.
Proof.
  intros [x | x] [y | y]; simpl.
  - rewrite String.eqb_eq. split; [now intros -> | now injection 1].
  - split; discriminate.
  - split; discriminate.
  - rewrite Nat.eqb_eq. split; [now intros -> | now injection 1].
Qed.

Lemma col_in : forall c l, existsb (col_eqb c) l = true <-> In c l.
Proof.
  intros c l. rewrite existsb_exists. split.
  - intros (x & H & E). apply col_eqb_eq in E. now subst.
  - intros H. exists c. split; auto. now apply col_eqb_eq.
Qed.

Lemma has_col_iff : forall fr f, has_col fr f = true <-> In (CName f) (fr_cols fr).
Proof. intros. apply col_in. Qed.

Lemma cols_eq : forall a b, list_eqb col_eqb a b = true <-> a = b.
Proof. apply list_eqb_eq. apply col_eqb_eq. Qed.

(** ** Reading a row by the name of a field *)

(** Row [r] of [fr] has the value [v] for field [f]: in a column of that name or, if there is none,
    in a level of the index. *)
Definition reads (fr : frame) (r : list value * list value) (f : string) (v : value) : Prop :=
  (exists i, nth_error (fr_cols fr) i = Some (CName f) /\ nth_error (snd r) i = Some v) \/
  (~ In (CName f) (fr_cols fr) /\ exists i, nth_error (fr_index fr) i = Some (CName f) /\ nth_error (fst r) i = Some v).

(** The values of all fields, row by row. *)
Definition reads_rows (ts : tschema) (fr : frame) (rs : list (list value)) : Prop :=
  Forall2 (fun r x => Forall2 (reads fr r) (tfields ts) x) (fr_rows fr) rs.

(** Columns have different names and every row has all cells. *)
Definition rect (fr : frame) : Prop :=
  NoDup (fr_cols fr) /\ forall r, In r (fr_rows fr) -> List.length (fst r) = List.length (fr_index fr) /\ List.length (snd r) = List.length (fr_cols fr).

(** The key is found in the columns, or is the index. *)
Definition keys_found (ts : tschema) (fr : frame) : Prop :=
  (forall p, In p (tpk ts) -> In (CName p) (fr_cols fr)) \/
  (fr_index fr = map CName (tpk ts) /\ forall p, In p (tpk ts) -> ~ In (CName p) (fr_cols fr)).

(** The documented limits for tables given as DataFrames. *)
Definition frameable (ts : tschema) : Prop :=
  ~ In "name" (tdf ts) /\ (In "name" (tpk ts) -> List.length (tpk ts) = 1).

Lemma cell_of_nth : forall cols cells f v, NoDup cols -> List.length cells = List.length cols ->
  (cell_of cols cells f = Some v <-> exists i, nth_error cols i = Some (CName f) /\ nth_error cells i = Some v).
Proof.
  intros cols cells f v Hn Hl.
  assert (forall c w, In (c, w) (combine cols cells) <-> exists i, nth_error cols i = Some c /\ nth_error cells i = Some w) as Hc.
  { clear Hn. revert cells Hl. induction cols as [| a cols IH]; intros [| b cells] Hl c w; simpl in *; try discriminate.
    - split; [tauto |]. intros (i & H & _). destruct i; discriminate.
    - injection Hl as Hl. rewrite (IH cells Hl). split.
      + intros [E | (i & A & B)]; [injection E as <- <-; exists 0; auto | exists (S i); auto].
      + intros ([| i] & A & B); [simpl in A, B; left; congruence | right; eauto]. }
  unfold cell_of. split.
  - destruct (find _ _) as [[c w] |] eqn:E; [| discriminate]. intros Ev. injection Ev as ->.
    apply find_some in E as [A B]. cbn [fst] in B. apply col_eqb_eq in B. subst c. apply in_rev in A. now apply Hc in A.
  - intros (i & A & B). destruct (find _ _) as [[c w] |] eqn:E.
    + apply find_some in E as [C D]. cbn [fst] in D. apply col_eqb_eq in D. subst c. apply in_rev in C. apply Hc in C as (j & C1 & C2).
      simpl. f_equal. assert (i = j) as <-; [| congruence].
      apply (proj1 (NoDup_nth_error cols) Hn); [| congruence]. apply nth_error_Some. congruence.
    + exfalso. eapply find_none in E; [| apply -> in_rev; apply Hc; eauto]. cbn [fst] in E.
      assert (col_eqb (CName f) (CName f) = true) by now apply col_eqb_eq. congruence.
Qed.

Lemma row_factory_full : forall dv t ts r, NoDup (tdf ts) -> List.length r = List.length (tdf ts) ->
  row_factory dv t ts (RDict (combine (tdf ts) r)) = Some r.
Proof.
  intros dv t ts r Hn Hl. apply row_factory_iff; auto. apply describes_fits; auto. right. eauto.
Qed.

Lemma frame_entry_ok : forall dv t ts cols cells x, NoDup (tdf ts) -> Forall2 (fun f v => cell_of cols cells f = Some v) (tfields ts) x ->
  frame_entry dv t ts cols cells = Some (key_of ts x, skipn (List.length (tpk ts)) x).
Proof.
  intros dv t ts cols cells x Hn H. unfold tfields in H. apply Forall2_app_inv_l in H as (k & r & Hk & Hr & ->).
  pose proof (Forall2_length _ _ _ Hk) as Lk. pose proof (Forall2_length _ _ _ Hr) as Lr.
  unfold frame_entry. rewrite (proj2 (map_opt_Forall2 _ _ _) Hk), (proj2 (map_opt_Forall2 _ _ _) Hr).
  rewrite row_factory_full by auto. simpl. unfold key_of. rewrite Lk, firstn_app, Nat.sub_diag, firstn_O, app_nil_r, firstn_all.
  rewrite skipn_app, Nat.sub_diag, skipn_all. destruct k as [| a [| b k]]; reflexivity.
Qed.

Lemma fill_nothing : forall dv fr, (forall f, In f (map fst dv) -> In (CName f) (fr_cols fr)) -> fill dv fr = fr.
Proof.
  induction dv as [| [f d] dv IH]; intros fr H; auto. unfold fill in *. cbn [fold_left fst snd].
  rewrite (proj2 (has_col_iff fr f)) by (apply H; simpl; auto). apply IH. intros; apply H; simpl; auto.
Qed.

(** Defaults are set on data fields only. *)
Definition defaults_on_data (ts : tschema) (dv : list (string * value)) : Prop := forall f, In f (map fst dv) -> In f (tdf ts).

Lemma name_ok : forall ts, frameable ts ->
  negb (mem_str "name" (tdf ts)) = true /\ negb (mem_str "name" (tpk ts) && Nat.ltb 1 (List.length (tpk ts))) = true.
Proof.
  intros ts [A B]. split.
  - apply negb_true_iff. apply not_true_is_false. intros H. apply mem_str_iff in H. auto.
  - apply negb_true_iff. apply not_true_is_false. intros H. apply andb_true_iff in H as [H1 H2]. apply mem_str_iff in H1. apply Nat.ltb_lt in H2.
    specialize (B H1). lia.
Qed.

Lemma reads_col : forall fr r f v, rect fr -> In r (fr_rows fr) -> In (CName f) (fr_cols fr) -> reads fr r f v -> cell_of (fr_cols fr) (snd r) f = Some v.
Proof.
  intros fr r f v [Hn Hr] Hin Hf [H | [H _]]; [| contradiction]. apply cell_of_nth; auto. now apply Hr.
Qed.

Lemma Forall2_imp_in {A B} (P Q : A -> B -> Prop) : forall l m, (forall x y, In x l -> P x y -> Q x y) -> Forall2 P l m -> Forall2 Q l m.
Proof. intros l m H F. induction F; constructor; simpl in *; auto. Qed.

Lemma entries_ok : forall dv t ts fr rs, wf_tschema ts -> rect fr -> (forall f, In f (tfields ts) -> In (CName f) (fr_cols fr)) -> reads_rows ts fr rs ->
  map_opt (fun r => frame_entry dv t ts (fr_cols fr) (snd r)) (fr_rows fr) = Some (map (fun x => (key_of ts x, skipn (List.length (tpk ts)) x)) rs).
Proof.
  intros dv t ts fr rs W R C H. assert (NoDup (tdf ts)) as Nd by (unfold wf_tschema, tfields in W; eapply NoDup_app_r; eauto).
  apply map_opt_Forall2. unfold reads_rows in H. apply Forall2_map_r. eapply Forall2_imp_in; [| exact H]. cbv beta. intros r x Hr F.
  apply frame_entry_ok; auto. eapply Forall2_imp_in; [| exact F]. intros f v Hf. apply reads_col; auto.
Qed.

Lemma reset_reads : forall fr fr', rect fr -> reset_index fr = Some fr' -> NoDup (fr_index fr) ->
  rect fr' /\ fr_cols fr' = fr_index fr ++ fr_cols fr /\ fr_index fr' = [] /\
  Forall2 (fun r r' => forall f v, reads fr r f v -> reads fr' r' f v) (fr_rows fr) (fr_rows fr').
Proof.
  intros fr fr' [Hn Hr] E Ni. unfold reset_index in E. destruct (existsb _ (fr_index fr)) eqn:X; [discriminate |]. injection E as <-. simpl.
  assert (forall c, In c (fr_index fr) -> ~ In c (fr_cols fr)) as Hd.
  { intros c H H'. apply not_true_iff_false in X. apply X. apply existsb_exists. exists c. split; auto. now apply col_in. }
  split; [| split; [auto | split; [auto |]]].
  - split; simpl.
    + clear Hr X. induction (fr_index fr) as [| c l IH]; simpl in *; auto. inversion Ni as [| ? ? A B]; subst. constructor; [| apply IH; auto].
      intros H. apply in_app_or in H as [H | H]; [auto | eapply Hd; eauto].
    + intros r H. apply in_map_iff in H as (r0 & <- & H). simpl. rewrite !app_length. destruct (Hr _ H) as [-> ->]. auto.
  - apply Forall2_map_r. assert (forall l, (forall r, In r l -> In r (fr_rows fr)) -> Forall2 (fun x y => forall f v, reads fr x f v ->
      reads (mkFr [] (fr_index fr ++ fr_cols fr) (map (fun r => ([], fst r ++ snd r)) (fr_rows fr))) ([], fst y ++ snd y) f v) l l) as G; [| apply G; auto].
    induction l as [| r l IH]; intros Hs; constructor; [| apply IH; intros; apply Hs; simpl; auto].
    destruct (Hr r) as [L1 L2]; [apply Hs; simpl; auto |]. intros f v H. left. unfold reads in H. simpl.
    destruct H as [(i & A & B) | (_ & i & A & B)].
    + exists (List.length (fr_index fr) + i). rewrite nth_error_app2 by lia. rewrite <- L1 at 2. rewrite nth_error_app2 by lia.
      rewrite <- L1. replace (List.length (fst r) + i - List.length (fst r)) with i by lia. auto.
    + exists i. rewrite !nth_error_app1; auto; apply nth_error_Some; congruence.
Qed.

Theorem frame_table_ok : forall dv t ts fr rs, wf_tschema ts -> frameable ts -> defaults_on_data ts (defaults_of dv t) -> rect fr ->
  (forall f, In f (tdf ts) -> In (CName f) (fr_cols fr)) -> keys_found ts fr -> reads_rows ts fr rs ->
  frame_table dv t ts fr = Some (rows_table ts rs).
Proof.
  intros dv t ts fr rs W F D R C K H. unfold frame_table.
  assert (fill (defaults_of dv t) fr = fr) as -> by (apply fill_nothing; intros f Hf; apply C; apply D; auto).
  destruct (name_ok ts F) as [N1 N2]. unfold good_frame. rewrite N1, N2.
  assert (forallb (has_col fr) (tdf ts) = true) as -> by (apply forallb_forall; intros f Hf; apply has_col_iff; auto).
  assert (list_eqb col_eqb (map CName (tpk ts)) (fr_index fr) || forallb (has_col fr) (tpk ts) = true) as ->.
  { destruct K as [K | [K _]].
    - apply orb_true_intro. right. apply forallb_forall. intros p Hp. apply has_col_iff. auto.
    - rewrite K. apply orb_true_intro. left. now apply cols_eq. }
  cbn [andb]. unfold rows_table.
  destruct K as [K | [K1 K2]].
  - assert (forall f, In f (tfields ts) -> In (CName f) (fr_cols fr)) as C' by (intros f Hf; apply in_app_or in Hf as [Hf | Hf]; auto).
    rewrite (entries_ok dv t ts fr rs W R C' H).
    destruct (tpk ts) as [| p pk] eqn:Ep.
    + cbn [option_map]. do 2 f_equal. rewrite map_map. apply map_id.
    + rewrite <- Ep in *. assert (forallb (has_col fr) (tpk ts) = true) as -> by (apply forallb_forall; intros q Hq; apply has_col_iff; auto).
      rewrite (entries_ok dv t ts fr rs W R C' H). now rewrite Ep.
  - destruct (tpk ts) as [| p pk] eqn:Ep.
    + assert (forall f, In f (tfields ts) -> In (CName f) (fr_cols fr)) as C' by (intros f Hf; unfold tfields in Hf; rewrite Ep in Hf; auto).
      rewrite (entries_ok dv t ts fr rs W R C' H). simpl. rewrite Ep. cbn [option_map]. do 2 f_equal. rewrite map_map. apply map_id.
    + rewrite <- Ep in *. assert (forallb (has_col fr) (tpk ts) = false) as ->.
      { rewrite Ep. cbn [forallb]. destruct (has_col fr p) eqn:X; auto. exfalso. apply (K2 p); [rewrite Ep; simpl; auto | now apply has_col_iff]. }
      assert (exists fr', reset_index fr = Some fr') as [fr' E].
      { unfold reset_index. destruct (existsb _ (fr_index fr)) eqn:X; eauto. exfalso. apply existsb_exists in X as (c & A & B). apply col_in in B.
        rewrite K1 in A. apply in_map_iff in A as (q & <- & A). eapply K2; eauto. }
      rewrite E. assert (NoDup (fr_index fr)) as Ni.
      { rewrite K1. apply FinFun.Injective_map_NoDup; [intros a b X; now injection X |]. unfold wf_tschema, tfields in W. eapply NoDup_app_l; eauto. }
      destruct (reset_reads fr fr' R E Ni) as (R' & C1 & I1 & G).
      assert (reads_rows ts fr' rs) as H'.
      { unfold reads_rows in *. clear - G H. revert rs H. induction G as [| r r' l l' A B IH]; intros rs H; inversion H; subst; constructor; auto.
        eapply Forall2_imp_in; [| eassumption]. intros; auto. }
      rewrite (entries_ok dv t ts fr' rs W R'); [now rewrite Ep | | exact H'].
      intros f Hf. rewrite C1, K1. apply in_or_app. apply in_app_or in Hf as [Hf | Hf]; [left; now apply in_map | right; auto].
Qed.

(** A frame with the columns has values for the fields. *)
Lemma reads_exist : forall ts fr, rect fr -> (forall f, In f (tfields ts) -> In (CName f) (fr_cols fr)) -> exists rs, reads_rows ts fr rs.
Proof.
  intros ts fr [Hn Hr] C. unfold reads_rows.
  assert (forall l, (forall r, In r l -> In r (fr_rows fr)) -> exists rs, Forall2 (fun r x => Forall2 (reads fr r) (tfields ts) x) l rs) as G; [| apply G; auto].
  induction l as [| r l IH]; intros Hs; [exists []; constructor |]. destruct IH as [rs H]; [intros; apply Hs; simpl; auto |].
  assert (exists x, Forall2 (reads fr r) (tfields ts) x) as [x Hx]; [| exists (x :: rs); constructor; auto].
  destruct (Hr r) as [_ L]; [apply Hs; simpl; auto |]. clear - C L. induction (tfields ts) as [| f fs IH]; [exists []; constructor |].
  destruct IH as [x Hx]; [intros; apply C; simpl; auto |].
  destruct (In_nth_error (fr_cols fr) (CName f)) as [i Hi]; [apply C; simpl; auto |].
  destruct (nth_error (snd r) i) as [v |] eqn:E; [| apply nth_error_None in E; rewrite L in E; apply nth_error_None in E; congruence].
  exists (v :: x). constructor; auto. left. eauto.
Qed.

Lemma reads_length : forall ts fr rs, reads_rows ts fr rs -> List.length rs = List.length (fr_rows fr) /\ forall x, In x rs -> List.length x = List.length (tfields ts).
Proof.
  intros ts fr rs H. split; [symmetry; eapply Forall2_length; eauto |]. intros x Hx. destruct (Forall2_In_r _ _ _ _ H Hx) as (r & _ & F). symmetry. eapply Forall2_length; eauto.
Qed.

(** ** Building DataFrames from rows *)

Section Settle.
  Variable settle : list value -> list value.

  (** Pandas keeps the cells of these rows. *)
  Definition rows_settled (n : nat) (rows : list (list value)) : Prop := forall k, k < n -> settle (column rows k) = column rows k.

  Lemma settled_lengths : forall n rows r, In r (settled settle n rows) -> List.length r = n.
  Proof. intros n rows r H. apply in_map_iff in H as (i & <- & _). now rewrite map_length, seq_length. Qed.

  Lemma settled_count : forall n rows, List.length (settled settle n rows) = List.length rows.
  Proof. intros. unfold settled. now rewrite map_length, seq_length. Qed.

  Lemma list_nth_ext {A} (d : A) : forall l m, List.length l = List.length m -> (forall i, i < List.length l -> nth i l d = nth i m d) -> l = m.
  Proof. intros l m L H. eapply nth_ext; eauto. Qed.

  Lemma settled_id : forall n rows, (forall r, In r rows -> List.length r = n) -> rows_settled n rows -> settled settle n rows = rows.
  Proof.
    intros n rows L S. apply (list_nth_ext []); [apply settled_count |]. intros i Hi. rewrite settled_count in Hi. unfold settled.
    rewrite (nth_indep _ [] (map (fun k => nth (List.length rows) (settle (column rows k)) VNone) (seq 0 n))) by (rewrite map_length, seq_length; auto).
    rewrite (map_nth (fun i => map (fun k => nth i (settle (column rows k)) VNone) (seq 0 n)) (seq 0 (List.length rows)) (List.length rows)).
    rewrite seq_nth by auto. cbn [plus].
    assert (List.length (nth i rows []) = n) as Ln by (apply L; now apply nth_In).
    apply (list_nth_ext VNone); [rewrite map_length, seq_length; auto |]. intros k Hk. rewrite map_length, seq_length in Hk.
    rewrite (nth_indep _ VNone (nth i (settle (column rows n)) VNone)) by (rewrite map_length, seq_length; auto).
    rewrite (map_nth (fun k => nth i (settle (column rows k)) VNone) (seq 0 n) n). rewrite seq_nth by auto. cbn [plus].
    rewrite S by auto. unfold column. rewrite (nth_indep _ VNone (nth k [] VNone)) by (rewrite map_length; auto).
    now rewrite (map_nth (fun r => nth k r VNone) rows []).
  Qed.

  Lemma width_all : forall n rows, rows <> [] -> (forall r, In r rows -> List.length r = n) -> width rows = n.
  Proof.
    intros n rows Hne L. unfold width. induction rows as [| r rows IH]; [contradiction |]. simpl. rewrite L by (simpl; auto).
    destruct rows as [| r' rows]; [simpl; lia |]. rewrite IH; [lia | discriminate |]. intros; apply L; simpl; auto.
  Qed.

  Lemma dataframe_ok : forall fields rows, (forall r, In r rows -> List.length r = List.length fields) ->
    dataframe settle fields rows = Some (mkFr [] (map CName fields) (map (fun r => ([], r)) (settled settle (List.length fields) rows))).
  Proof.
    intros fields rows L. unfold dataframe. destruct rows as [| r rows]; auto.
    rewrite (width_all (List.length fields)); auto; [| discriminate]. now rewrite Nat.eqb_refl.
  Qed.

  Lemma names_NoDup : forall fields, NoDup fields -> NoDup (map CName fields).
  Proof. intros. apply FinFun.Injective_map_NoDup; auto. intros a b X. now injection X. Qed.

  Lemma full_rows_length : forall ts tb, table_ok ts tb -> forall r, In r (full_rows tb) -> List.length r = List.length (tfields ts).
  Proof.
    intros ts tb H r Hr. unfold table_ok in H. unfold tfields. destruct (tpk ts) as [| p pk] eqn:Ep; destruct tb as [l | l]; try contradiction; simpl in Hr.
    - simpl. auto.
    - apply in_map_iff in Hr as ([k x] & <- & Hk). cbn [fst snd]. destruct (H _ _ Hk) as [A B]. rewrite !app_length, B, <- Ep. f_equal.
      unfold key_shape in A. rewrite Ep in *. destruct k; simpl in *; auto.
  Qed.

  (** The frame of a table: columns, index and rows. *)
  Theorem copy_frame_exact : forall drop reset ts tb, table_ok ts tb ->
    copy_frame settle drop reset ts tb =
      Some (match full_rows tb, tpk ts with
            | [], _ | _, [] => mkFr [] (map CName (tfields ts)) (map (fun r => ([], r)) (settled settle (List.length (tfields ts)) (full_rows tb)))
            | rows, _ =>
                let fr := mkFr [] (map CName (tfields ts)) (map (fun r => ([], r)) (settled settle (List.length (tfields ts)) rows)) in
                if reset then fr else set_index (List.length (tpk ts)) (drops drop ts) fr
            end).
  Proof.
    intros drop reset ts tb H. pose proof (full_rows_length ts tb H) as L. unfold copy_frame. destruct (full_rows tb) as [| r0 rows] eqn:Er.
    - reflexivity.
    - unfold table_ok in H. destruct (tpk ts) as [| p pk] eqn:Ep; destruct tb as [l | l]; try contradiction.
      + assert (tfields ts = tdf ts) as <- by (unfold tfields; now rewrite Ep). now apply dataframe_ok.
      + rewrite <- Ep. fold (tfields ts). rewrite dataframe_ok by auto. reflexivity.
  Qed.

  (** Some frames hold exactly the cells of a table. *)
  Definition plain_frame (ts : tschema) (rows : list (list value)) : frame := mkFr [] (map CName (tfields ts)) (map (fun r => ([], r)) rows).

  Lemma Forall2_nth {A B} (P : A -> B -> Prop) : forall l m, List.length l = List.length m ->
    (forall i a b, nth_error l i = Some a -> nth_error m i = Some b -> P a b) -> Forall2 P l m.
  Proof.
    induction l as [| a l IH]; intros [| b m] L H; try discriminate; constructor; [apply (H 0); auto |]. apply IH; auto. intros i x y; apply (H (S i)).
  Qed.

  Lemma plain_reads : forall ts rows, wf_tschema ts -> (forall r, In r rows -> List.length r = List.length (tfields ts)) ->
    rect (plain_frame ts rows) /\ reads_rows ts (plain_frame ts rows) rows.
  Proof.
    intros ts rows W L. split.
    - split; simpl; [now apply names_NoDup |]. intros r Hr. apply in_map_iff in Hr as (x & <- & Hx). simpl. rewrite map_length. auto.
    - unfold reads_rows. simpl. set (fr := plain_frame ts rows).
      assert (forall l, (forall r, In r l -> In r rows) -> Forall2 (fun r x => Forall2 (reads fr r) (tfields ts) x) (map (fun r => ([], r)) l) l) as G; [| apply G; auto].
      induction l as [| r l IH]; intros Hs; simpl; constructor; [| apply IH; intros; apply Hs; simpl; auto].
      apply Forall2_nth; [symmetry; apply L, Hs; simpl; auto |]. intros i f v A B. left. exists i. simpl. split; auto. now apply map_nth_error.
  Qed.

  Lemma indexed_reads : forall ts rows drop, wf_tschema ts -> (forall r, In r rows -> List.length r = List.length (tfields ts)) ->
    let fr := set_index (List.length (tpk ts)) drop (plain_frame ts rows) in
    rect fr /\ reads_rows ts fr rows /\ fr_index fr = map CName (tpk ts) /\ fr_cols fr = map CName (if drop then tdf ts else tfields ts).
  Proof.
    intros ts rows drop W L fr.
    assert (fr_index fr = map CName (tpk ts)) as Ei.
    { unfold fr, set_index. cbn [fr_index fr_cols plain_frame]. unfold tfields. rewrite map_app, firstn_app, map_length, Nat.sub_diag, firstn_O, app_nil_r.
      rewrite <- (map_length CName (tpk ts)). apply firstn_all. }
    assert (fr_cols fr = map CName (if drop then tdf ts else tfields ts)) as Ec.
    { unfold fr, set_index. cbn [fr_cols plain_frame]. destruct drop; auto. unfold tfields. rewrite map_app, skipn_app, map_length, Nat.sub_diag.
      rewrite skipn_all2 by (rewrite map_length; auto). reflexivity. }
    assert (fr_rows fr = map (fun r => (firstn (List.length (tpk ts)) r, if drop then skipn (List.length (tpk ts)) r else r)) rows) as Er.
    { unfold fr, set_index. cbn [fr_rows plain_frame]. rewrite map_map. reflexivity. }
    assert (NoDup (tdf ts)) as Nd by (unfold wf_tschema, tfields in W; eapply NoDup_app_r; eauto).
    split; [| split; [| auto]].
    - split.
      + rewrite Ec. apply names_NoDup. destruct drop; auto.
      + intros r Hr. rewrite Er in Hr. apply in_map_iff in Hr as (x & <- & Hx). specialize (L x Hx). rewrite Ei, Ec, !map_length. cbn [fst snd].
        rewrite firstn_length, L. unfold tfields in *. rewrite app_length in *. split; [lia |]. destruct drop; [rewrite skipn_length; lia | rewrite app_length; lia].
    - unfold reads_rows. rewrite Er.
      assert (forall l, (forall r, In r l -> In r rows) -> Forall2 (fun r x => Forall2 (reads fr r) (tfields ts) x)
                (map (fun r => (firstn (List.length (tpk ts)) r, if drop then skipn (List.length (tpk ts)) r else r)) l) l) as G; [| apply G; auto].
      induction l as [| r l IH]; intros Hs; simpl; constructor; [| apply IH; intros; apply Hs; simpl; auto].
      assert (List.length r = List.length (tfields ts)) as Lr by (apply L, Hs; simpl; auto).
      apply Forall2_nth; auto. intros i f v A B. unfold reads. rewrite Ei, Ec. cbn [fst snd]. destruct drop; [| left; exists i; split; auto; now apply map_nth_error].
      unfold tfields in *. destruct (Nat.lt_ge_cases i (List.length (tpk ts))) as [Hi | Hi].
      + right. rewrite nth_error_app1 in A by auto. split.
        * intros Hc. apply in_map_iff in Hc as (g & Eg & Hg). injection Eg as ->. apply nth_error_In in A.
          unfold wf_tschema, tfields in W. clear - W A Hg. induction (tpk ts) as [| p l IH]; simpl in *; [auto |]. inversion W as [| ? ? X Y]; subst.
          destruct A as [-> | A]; auto. apply X. apply in_or_app. auto.
        * exists i. split; [now apply map_nth_error |]. rewrite nth_error_firstn_lt; auto.
      + left. rewrite nth_error_app2 in A by auto. exists (i - List.length (tpk ts)). split; [now apply map_nth_error |].
        rewrite nth_error_skipn_at. now replace (List.length (tpk ts) + (i - List.length (tpk ts))) with i by lia.
  Qed.
End Settle.
