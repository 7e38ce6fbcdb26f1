(** * Facts about the PanDat readers. *)
From Coq Require Import ZArith Bool List String Ascii Arith Lia.
From Verif Require Import PyVal PyValFacts PyDict PyDictFacts ListFacts PyStr TypeDict TypeDictFacts Data FindTypes FindTypesFacts FK Obj ObjFacts ObjMore
  Factory FactoryFacts GraphFacts InfIO InfIOFacts PanIOFacts Params Names Utils UtilsFacts Json ObjRows TripFacts Csv CsvMore CsvTrip Frames FramesFacts FramesPan PanIO.
Import ListNotations.
Local Open Scope string_scope.
Local Open Scope list_scope.

(** ** Columns *)

Definition defs_for (dv : defaults) (t : string) (xs : list string) : list (string * value) :=
  flat_map (fun x => match dget String.eqb (defaults_of dv t) x with Some d => [(x, d)] | None => [] end) xs.

Lemma supply_fill : forall dv t xs fr, NoDup xs -> (forall x, In x xs -> ~ In (CName x) (fr_cols fr)) ->
  fold_left (fun fr x => match dget String.eqb (defaults_of dv t) x with Some d => add_col fr x d | None => fr end) xs fr =
  fill (defs_for dv t xs) fr.
Proof.
  intros dv t xs. induction xs as [| x xs IH]; intros fr N H; auto. inversion N as [| ? ? N1 N2]; subst.
  cbn [fold_left]. unfold defs_for. cbn [flat_map]. destruct (dget String.eqb (defaults_of dv t) x) as [d |] eqn:E.
  - rewrite IH; auto.
    + unfold fill. cbn [app fold_left fst snd]. assert (has_col fr x = false) as ->; auto.
      apply not_true_is_false. intros C. apply has_col_iff in C. apply (H x); simpl; auto.
    + intros y Hy C. cbn [add_col fr_cols] in C. apply in_app_iff in C as [C | [C | []]]; [apply (H y); simpl; auto |]. injection C as ->. contradiction.
  - cbn [app]. apply IH; auto. intros y Hy. apply H. simpl. auto.
Qed.

Lemma lacking_In : forall ts fr x, In x (lacking ts fr) <-> In x (tfields ts) /\ ~ In (CName x) (fr_cols fr).
Proof.
  intros ts fr x. unfold lacking. rewrite filter_In. split; intros [A B]; split; auto.
  - apply negb_true_iff in B. intros C. apply has_col_iff in C. congruence.
  - apply negb_true_iff, not_true_is_false. intros C. apply has_col_iff in C. auto.
Qed.

Lemma lacking_none : forall ts fr, lacking ts fr = [] <-> forall x, In x (tfields ts) -> In (CName x) (fr_cols fr).
Proof.
  intros ts fr. split.
  - intros H x Hx. destruct (has_col fr x) eqn:E; [now apply has_col_iff |]. exfalso.
    assert (In x (lacking ts fr)) as X; [| rewrite H in X; destruct X]. unfold lacking. apply filter_In. now rewrite E.
  - intros H. destruct (lacking ts fr) as [| x l] eqn:E; auto. exfalso. assert (In x (lacking ts fr)) as X by (rewrite E; simpl; auto).
    apply lacking_In in X as [X Y]. auto.
Qed.

(** The value that row [r] of what was read has for the field [x], defaults included. *)
Definition given (fill : bool) (dv : defaults) (t : string) (fr : frame) (r : list value * list value) (x : string) (v : value) : Prop :=
  in_col fr r (CName x) v \/
  (~ In (CName x) (fr_cols fr) /\ fill = true /\ dget String.eqb (defaults_of dv t) x = Some v).

Lemma dget_defs : forall dv t xs x, NoDup xs -> dget String.eqb (defs_for dv t xs) x = if mem_str x xs then dget String.eqb (defaults_of dv t) x else None.
Proof.
  intros dv t xs x N. induction xs as [| y xs IH]; auto. inversion N as [| ? ? N1 N2]; subst. unfold defs_for in *. cbn [flat_map].
  destruct (dget String.eqb (defaults_of dv t) y) as [d |] eqn:E.
  - cbn [app dget fst snd]. unfold mem_str. cbn [existsb]. destruct (String.eqb y x) eqn:Exy.
    + apply String.eqb_eq in Exy. subst y. rewrite String.eqb_refl. simpl. now rewrite E.
    + rewrite IH by auto. rewrite String.eqb_sym in Exy. now rewrite Exy.
  - cbn [app]. rewrite IH by auto. unfold mem_str. cbn [existsb]. destruct (String.eqb x y) eqn:Exy; auto.
    apply String.eqb_eq in Exy. subst y. cbn [orb]. rewrite E. now destruct (existsb _ xs).
Qed.

Lemma supply_spec : forall fl dv t ts fr, wf_tschema ts -> rect fr ->
  let fr' := supply fl dv t ts fr in
  rect fr' /\ fr_index fr' = fr_index fr /\
  (forall x, In x (tfields ts) -> (In (CName x) (fr_cols fr') <->
     In (CName x) (fr_cols fr) \/ (fl = true /\ In x (map fst (defaults_of dv t))))) /\
  Forall2 (fun r r1 => forall x v, In x (tfields ts) -> (in_col fr' r1 (CName x) v <-> given fl dv t fr r x v)) (fr_rows fr) (fr_rows fr').
Proof.
  intros fl dv t ts fr W R fr'. unfold fr', supply. destruct fl.
  - assert (NoDup (lacking ts fr)) as N by (apply NoDup_filter; exact W).
    rewrite supply_fill by (auto; intros x Hx; now apply lacking_In in Hx).
    destruct (fill_spec (defs_for dv t (lacking ts fr)) fr R) as (A & B & C & D). split; auto. split; auto. split.
    + intros x Hx. rewrite C. split; (intros [H | H]; [auto |]).
      * destruct H as (f & E & H). injection E as <-. right. split; auto. apply in_map_iff in H as ([y d] & E & H). cbn [fst] in E. subst y.
        unfold defs_for in H. apply in_flat_map in H as (y & _ & H). destruct (dget String.eqb (defaults_of dv t) y) as [e |] eqn:G; [| destruct H].
        destruct H as [H | []]. injection H as <- <-. apply dget_In in G as (z & Ez & G). apply String.eqb_eq in Ez. subst z. now apply (in_map fst) in G.
      * destruct H as [_ H]. destruct (has_col fr x) eqn:E; [left; now apply has_col_iff |]. right. exists x. split; auto.
        destruct (dget String.eqb (defaults_of dv t) x) as [d |] eqn:Ed.
        2: { exfalso. apply in_map_iff in H as ([y d] & Ey & H). cbn [fst] in Ey. subst y.
             apply (proj1 (dget_None String.eqb (defaults_of dv t) x)) with (k' := x) (v := d) in Ed; auto. now rewrite String.eqb_refl in Ed. }
        apply in_map_iff. exists (x, d). split; auto. unfold defs_for. apply in_flat_map. exists x. split; [| rewrite Ed; simpl; auto].
        apply lacking_In. split; auto. intros X. apply has_col_iff in X. congruence.
    + eapply Forall2_imp_in; [| exact D]. intros r r1 _ [_ H] x v Hx. rewrite H. unfold filled, given. split; (intros [K | K]; [auto | right]).
      * destruct K as (K & f & E & G). injection E as <-. split; auto. split; auto. rewrite dget_defs in G by auto. destruct (mem_str x (lacking ts fr)); congruence.
      * destruct K as (K & _ & G). split; auto. exists x. split; auto. rewrite dget_defs by auto.
        assert (mem_str x (lacking ts fr) = true) as -> by (apply mem_str_iff, lacking_In; auto). exact G.
  - split; auto. split; auto. split.
    + intros x _. split; auto. intros [H | [H _]]; [auto | discriminate].
    + apply Forall2_refl_in. intros r _ x v _. unfold given. split; auto. intros [H | (_ & H & _)]; [auto | discriminate].
Qed.

(** Reading the fields of a DataFrame row by row. *)
Lemma pick_spec : forall ts fr, rect fr -> (forall x, In x (tfields ts) -> In (CName x) (fr_cols fr)) ->
  Forall2 (fun r row => Forall2 (fun x v => in_col fr r (CName x) v) (tfields ts) row) (fr_rows fr) (pick ts fr).
Proof.
  intros ts fr R H. unfold pick. assert (forall l, (forall r, In r l -> In r (fr_rows fr)) ->
    Forall2 (fun r row => Forall2 (fun x v => in_col fr r (CName x) v) (tfields ts) row) l
      (map (fun r => map (fun x => match cell_of (fr_cols fr) (snd r) x with Some v => v | None => VNone end) (tfields ts)) l)) as G; [| apply G; auto].
  induction l as [| r l IH]; intros Hl; constructor; [| apply IH; intros; apply Hl; simpl; auto].
  assert (In r (fr_rows fr)) as Hr by (apply Hl; simpl; auto). clear - R H Hr. induction (tfields ts) as [| x fs IH]; constructor.
  - destruct (in_col_total fr r (CName x) R Hr) as [v Hv]; [apply H; simpl; auto |].
    destruct R as [N L]. destruct (L _ Hr) as [_ L2].
    assert (cell_of (fr_cols fr) (snd r) x = Some v) as -> by (apply cell_of_nth; auto). exact Hv.
  - apply IH. intros; apply H; simpl; auto.
Qed.

(** What was read for one table, before the adjustment. *)
Lemma raw_rows : forall settle fl dv t ts fr fr', wf_tschema ts -> tfields ts <> [] -> rect fr -> fr_index fr = [] ->
  lacking ts (supply fl dv t ts fr) = [] -> pan_table settle dv t ts (PFrame (supply fl dv t ts fr)) = Some fr' ->
  Forall2 (fun r row => Forall2 (given fl dv t fr r) (tfields ts) row) (fr_rows fr) (pick ts fr').
Proof.
  intros settle fl dv t ts fr fr' W Hne R I L E. destruct (supply_spec fl dv t ts fr W R) as (R1 & I1 & C1 & F1).
  set (fr1 := supply fl dv t ts fr) in *. pose proof (proj1 (lacking_none ts fr1) L) as Hc.
  assert (exists f, In (CName f) (fr_cols fr1)) as Hn by (destruct (tfields ts) as [| x fs]; [contradiction | exists x; apply Hc; simpl; auto]).
  assert (~ indexed ts fr1) as Hi.
  { intros (A & _ & B). rewrite I1, I in B. destruct (tpk ts) as [| p l]; [contradiction |]. apply (B (CName p)). simpl. auto. }
  destruct (pan_frame settle dv t ts fr1 W R1) as [_ P]; auto; [rewrite I1, I; constructor |].
  destruct (P fr' E) as (R2 & F2 & C2 & G2).
  assert (forall x, In x (tfields ts) -> In (CName x) (fr_cols fr')) as Hc2 by (intros x Hx; apply C2; left; left; auto).
  pose proof (pick_spec ts fr' R2 Hc2) as Q.
  assert (Forall2 (fun r r2 => forall x v, In x (tfields ts) -> in_col fr' r2 (CName x) v -> given fl dv t fr r x v) (fr_rows fr) (fr_rows fr')) as K.
  { eapply Forall2_trans; [| exact F1 | exact G2]. cbv beta. intros r r1 r2 H1 H2 x v Hx H. apply H2 in H as [[H | [H _]] | (H & _)].
    - now apply H1.
    - now destruct Hi.
    - exfalso. apply H. left. auto. }
  eapply Forall2_trans; [| exact K | exact Q]. cbv beta. intros r r2 row H1 H2. eapply Forall2_imp_in; [| exact H2]. cbv beta. intros x v Hx Hv. now apply H1.
Qed.

Lemma pan_table_there : forall settle fl dv t ts fr, wf_tschema ts -> tfields ts <> [] -> rect fr -> fr_index fr = [] ->
  lacking ts (supply fl dv t ts fr) = [] -> exists fr', pan_table settle dv t ts (PFrame (supply fl dv t ts fr)) = Some fr'.
Proof.
  intros settle fl dv t ts fr W Hne R I L. destruct (supply_spec fl dv t ts fr W R) as (R1 & I1 & C1 & F1).
  set (fr1 := supply fl dv t ts fr) in *. pose proof (proj1 (lacking_none ts fr1) L) as Hc.
  assert (exists f, In (CName f) (fr_cols fr1)) as Hn by (destruct (tfields ts) as [| x fs]; [contradiction | exists x; apply Hc; simpl; auto]).
  destruct (pan_table settle dv t ts (PFrame fr1)) as [fr' |] eqn:E; eauto. exfalso.
  destruct (pan_frame settle dv t ts fr1 W R1) as [P _]; auto; [rewrite I1, I; constructor |].
  apply P in E as (x & Hx & K & _). apply K. left. auto.
Qed.

(** ** Tables put together *)

Lemma tables_ret : forall {C} (g : string * tschema -> outcome C) (sch : schema) L t ts (c0 : C), NoDup (map fst sch) ->
  mapO (fun tts => bindO (g tts) (fun l => Ret (fst tts, l))) sch = Ret L -> In (t, ts) sch ->
  g (t, ts) = Ret (dget_or String.eqb L t c0).
Proof.
  intros C g sch L t ts c0 N H Hin. apply mapO_Forall2 in H.
  assert (map fst L = map fst sch) as En.
  { clear - H. induction H as [| [t ts] y l m H _ IH]; auto. cbn [map fst]. rewrite IH. f_equal. apply bindO_ret in H as (c & _ & E). now injection E as <-. }
  destruct (Forall2_In_l _ _ _ _ H Hin) as (y & Hy & E). cbn [fst] in E. apply bindO_ret in E as (c & Ec & Ey). injection Ey as <-.
  rewrite Ec. f_equal. unfold dget_or. rewrite <- En in N. now rewrite (proj2 (dget_In_NoDup L t c N) Hy).
Qed.

Lemma tables_raise : forall {C} (g : string * tschema -> outcome C) (sch : schema),
  mapO (fun tts => bindO (g tts) (fun l => Ret (fst tts, l))) sch = Raise <-> exists t ts, In (t, ts) sch /\ g (t, ts) = Raise.
Proof.
  intros C g sch. induction sch as [| [t ts] sch IH]; simpl.
  - split; [discriminate | intros (t & ts & [] & _)].
  - destruct (g (t, ts)) as [c |] eqn:E; simpl.
    + destruct (mapO _ sch) as [L |].
      * split; [discriminate |]. intros (t' & ts' & [X | H] & G); [injection X as <- <-; congruence |].
        assert (Ret L = Raise) by (apply IH; eauto). discriminate.
      * split; auto. intros _. destruct (proj1 IH eq_refl) as (t' & ts' & A & B). eauto.
    + split; auto. intros _. eauto.
Qed.

Section Post.
  Variable date_of : value -> option Z.
  Variable float_of : value -> option value.
  Variable str_of : value -> string.

  Notation is_date := (is_date date_of).
  Notation bias_now := (bias_now date_of).
  Notation post_cell := (post_cell date_of float_of).
  Notation post_table := (post_table date_of float_of str_of).
  Notation kept := (kept date_of float_of).

  Lemma unflag_other flag v : (forall m, flag <> VNum m) -> unflag flag v = v.
  Proof. intros H. destruct flag; auto. now destruct (H n). Qed.

  Lemma post_eq json f t fs l : t <> "parameters" -> NoDup fs -> PanIOFacts.rect fs l ->
    post_table json f t fs l =
    match biases date_of f t fs with
    | Ret bs => Ret (map (mapf fs (fun x v => post_cell json f (bs x) t x (unflag (f_flag f) v))) l)
    | Raise => Raise
    end.
  Proof.
    intros Ht N H. unfold PanIO.post_table. apply par_neq in Ht. rewrite Ht. cbv zeta.
    destruct (biases date_of f t fs) as [bs |]; auto. f_equal.
    assert (match f_flag f with VNum m => pan_read_num m fs l | _ => l end = map (mapf fs (fun _ v => unflag (f_flag f) v)) l) as ->.
    { destruct (f_flag f) as [| | b | m | s | z] eqn:E; try (symmetry; rewrite <- (map_id l) at 2; apply map_ext_in; intros r Hr; apply mapf_id; [now apply H |]; intros; now apply unflag_other).
      now apply pan_read_num_eq. }
    change (map (mapf fs (fun x => post_cell json f (bs x) t x)) (map (mapf fs (fun _ v => unflag (f_flag f) v)) l) =
            map (mapf fs (fun x v => post_cell json f (bs x) t x (unflag (f_flag f) v))) l).
    now rewrite mapf_map_comp.
  Qed.

  Lemma biases_raise f t fs : biases date_of f t fs = Raise <-> f_flag f = VNone /\ exists x, In x fs /\ bias_now f t x = Raise.
  Proof.
    unfold biases. destruct (f_flag f) eqn:E; try (split; [discriminate | intros [X _]; discriminate]).
    destruct (existsb _ fs) eqn:X.
    - split; auto. intros _. split; auto. apply existsb_exists in X as (x & Hx & B). exists x. split; auto. destruct (bias_now f t x); [discriminate | auto].
    - split; [discriminate |]. intros (_ & x & Hx & B). exfalso. apply not_true_iff_false in X. apply X. apply existsb_exists. exists x. now rewrite B.
  Qed.

  Lemma biases_ret f t fs bs x : biases date_of f t fs = Ret bs -> In x fs ->
    (f_flag f = VNone /\ bias_now f t x = Ret (bs x)) \/ (f_flag f <> VNone /\ bs x = None).
  Proof.
    unfold biases. intros H Hx. destruct (f_flag f) eqn:E; try (injection H as <-; right; split; [discriminate | auto]).
    destruct (existsb _ fs) eqn:X; [discriminate |]. injection H as <-. left. split; auto.
    destruct (bias_now f t x) eqn:B; auto. exfalso. apply not_true_iff_false in X. apply X. apply existsb_exists. exists x. now rewrite B.
  Qed.

  (** Nothing in the settings of the factory has to do with the cell [v] of the field [x] of [t]: no conversion to a date or a
      number, no flag for infinity, not the text "none" in json for text that may be null. *)
  Definition quiet (json : bool) (f : factory) (t x : string) (v : value) : Prop :=
    kept f t x v /\
    (forall m n, f_flag f = VNum m -> v = VNum n -> within m n) /\
    (f_flag f = VNone -> is_null v = true -> bias_now f t x = Ret None) /\
    (json = true -> none_text v = true -> forall dt, field_type f t x = Some dt -> text_only dt = true -> nullable dt = false).

  Lemma post_cell_quiet json f t fs bs x v : biases date_of f t fs = Ret bs -> In x fs -> quiet json f t x v ->
    post_cell json f (bs x) t x (unflag (f_flag f) v) = v.
  Proof.
    intros Hb Hx (K & Hn & Hz & Hj).
    assert (unflag (f_flag f) v = v) as ->.
    { destruct (f_flag f) eqn:E; try (apply unflag_other; discriminate). destruct v; auto. eapply unflag_within. eauto. }
    assert (pan_read_cell date_of float_of f (bs x) t x v = v) as Hr.
    { destruct (biases_ret _ _ _ _ _ Hb Hx) as [[F B] | [F B]].
      - destruct (bs x) as [b |] eqn:Eb; [| now apply pan_read_cell_kept]. destruct (is_null v) eqn:En.
        + specialize (Hz F eq_refl). congruence.
        + now apply pan_read_cell_bias.
      - rewrite B. now apply pan_read_cell_kept. }
    unfold PanIO.post_cell. rewrite Hr. destruct (field_type f t x) as [dt |] eqn:Ef; auto.
    destruct (json && text_only dt && nullable dt && none_text v) eqn:Ej; auto.
    apply andb_prop in Ej as [Ej E4]. apply andb_prop in Ej as [Ej E3]. apply andb_prop in Ej as [E1 E2].
    rewrite (Hj E1 E4 dt eq_refl E2) in E3. discriminate.
  Qed.
End Post.

(** [add_parameter] insists on such a table. *)
Definition params_shape (f : factory) : Prop :=
  has_params f = true -> exists k v, In ("parameters", mkT [k] [v]) (plain_schema f).

Definition src_ok (f : factory) (src : list (string * frame)) : Prop :=
  NoDup (map fst src) /\ forall t fr, In (t, fr) src -> In t (map fst (plain_schema f)) /\ rect fr /\ fr_index fr = [].

Lemma Forall2_mapf : forall {R} (P : R -> string -> value -> Prop) (Q : R -> string -> value -> Prop) fs h (l : list R) m,
  (forall r x v, In x fs -> P r x v -> Q r x (h x v)) ->
  Forall2 (fun r row => Forall2 (P r) fs row) l m -> Forall2 (fun r row => Forall2 (Q r) fs row) l (map (mapf fs h) m).
Proof.
  intros R P Q fs h l m H F. induction F as [| r row l m F _ IH]; [constructor |]. cbn [map]. constructor; auto. clear - H F.
  assert (forall xs, (forall x, In x xs -> In x fs) -> forall row, Forall2 (P r) xs row -> Forall2 (Q r) xs (mapf xs h row)) as G; [| now apply G].
  induction xs as [| x xs IH]; intros Hs row' F'; inversion F'; subst; unfold mapf; cbn [combine map fst snd]; constructor.
  - apply H; auto. apply Hs. simpl. auto.
  - apply IH; auto. intros; apply Hs; simpl; auto.
Qed.

Lemma Forall2_rows_rect : forall {R} (P : R -> string -> value -> Prop) fs (l : list R) m,
  Forall2 (fun r row => Forall2 (P r) fs row) l m -> PanIOFacts.rect fs m.
Proof.
  intros R P fs l m F row Hr. induction F as [| r row0 l m F _ IH]; [destruct Hr |]. destruct Hr as [<- | Hr]; auto.
  symmetry. eapply FramesFacts.Forall2_length; eauto.
Qed.

Lemma map_opt_none_ex : forall {A B} (g : A -> option B) (l : list A), map_opt g l = None -> exists x, In x l /\ g x = None.
Proof.
  intros A B g l. induction l as [| x l IH]; [discriminate |]. cbn [map_opt]. destruct (g x) eqn:Eg; [| intros _; exists x; simpl; auto].
  destruct (map_opt g l) eqn:El; [discriminate |]. intros _. destruct IH as (y & A1 & B1); auto. exists y. simpl. auto.
Qed.

Section Read.
  Variable date_of : value -> option Z.
  Variable float_of : value -> option value.
  Variable settle : list value -> list value.
  Variable str_of : value -> string.
  Notation create_frames := (create_frames date_of float_of settle str_of).
  Notation bias_now := (bias_now date_of).
  Notation quiet := (quiet date_of float_of).

  (** The raw rows of every table, when all fields are there. *)
  Lemma frames_raw json fl f src : decl_ok (f_decl f) = true -> src_ok f src ->
    (forall t ts fr, In (t, fr) src -> In (t, ts) (plain_schema f) -> lacking ts (supply fl (f_defaults f) t ts fr) = []) ->
    exists raw : string -> list (list value),
      create_frames json fl f src =
        bindO (mapO (fun tts => bindO (post_table date_of float_of str_of json f (fst tts) (tfields (snd tts)) (raw (fst tts))) (fun l => Ret (fst tts, l))) (plain_schema f))
          (fun l => Ret (fun t => dget_or String.eqb l t [])) /\
      forall t ts, In (t, ts) (plain_schema f) ->
        (forall fr, In (t, fr) src -> Forall2 (fun r row => Forall2 (given fl (f_defaults f) t fr r) (tfields ts) row) (fr_rows fr) (raw t)) /\
        (~ In t (map fst src) -> raw t = []).
  Proof.
    intros Hd [Ns Hs] Hl. pose proof (plain_wf f Hd) as W. set (sch := plain_schema f) in *.
    set (src' := map (fun tf => (fst tf, supply fl (f_defaults f) (fst tf) (ts_of sch (fst tf)) (snd tf))) src).
    assert (forall t fr, In (t, fr) src -> In (t, ts_of sch t) sch) as Ht.
    { intros t fr H. apply Hs in H as [H _]. apply in_map_iff in H as ([t' ts] & E & H). cbn [fst] in E. subst t'. now rewrite (ts_of_In sch t ts W H). }
    assert (supplied fl sch (f_defaults f) src = Some src') as E1.
    { unfold supplied. apply map_opt_Forall2. unfold src'. assert (forall l, (forall x, In x l -> In x src) ->
        Forall2 (fun (x : string * frame) y => match dget String.eqb sch (fst x) with Some ts => match lacking ts (supply fl (f_defaults f) (fst x) ts (snd x)) with
           [] => Some (fst x, supply fl (f_defaults f) (fst x) ts (snd x)) | _ => None end | None => None end = Some y) l
         (map (fun tf => (fst tf, supply fl (f_defaults f) (fst tf) (ts_of sch (fst tf)) (snd tf))) l)) as G; [| apply G; auto].
      induction l as [| [t fr] l IH]; intros Hi; cbn [map]; constructor; [| apply IH; intros; apply Hi; simpl; auto]. cbn [fst snd].
      assert (In (t, fr) src) as Hin by (apply Hi; simpl; auto). pose proof (Ht _ _ Hin) as Hts.
      rewrite (proj2 (schema_get sch t _ (proj1 W)) Hts). now rewrite (Hl t _ fr Hin Hts). }
    set (inputs := map (fun tf => (fst tf, PFrame (snd tf))) src').
    assert (map fst inputs = map fst src) as En.
    { unfold inputs, src'. rewrite !map_map. reflexivity. }
    assert (forall t a, In (t, a) inputs -> exists fr, In (t, fr) src /\ a = PFrame (supply fl (f_defaults f) t (ts_of sch t) fr)) as Hin.
    { intros t a H. unfold inputs, src' in H. rewrite map_map in H. apply in_map_iff in H as ([t' fr] & E & H). cbn [fst snd] in E. injection E as <- <-. eauto. }
    pose proof (pan_dat_tables settle sch (f_defaults f) inputs W) as P. rewrite En in P. specialize (P Ns).
    destruct (pan_dat settle sch (f_defaults f) inputs) as [d |] eqn:Ep.
    - exists (fun t => pick (ts_of sch t) (d t)). split.
      + unfold PanIO.create_frames. fold sch. rewrite E1. unfold PanIO.clean. fold sch. fold inputs. rewrite Ep.
        f_equal. assert (forall l, (forall x, In x l -> In x sch) -> 
          mapO (fun tts => bindO (post_table date_of float_of str_of json f (fst tts) (tfields (snd tts)) (pick (snd tts) (d (fst tts)))) (fun l => Ret (fst tts, l))) l =
          mapO (fun tts => bindO (post_table date_of float_of str_of json f (fst tts) (tfields (snd tts)) (pick (ts_of sch (fst tts)) (d (fst tts)))) (fun l => Ret (fst tts, l))) l) as G; [| apply G; auto].
        induction l as [| [t ts] l IH]; intros Hi; auto. cbn [mapO fst snd]. rewrite (ts_of_In sch t ts W) by (apply Hi; simpl; auto). rewrite IH; auto. intros; apply Hi; simpl; auto.
      + intros t ts Hts. rewrite (ts_of_In sch t ts W Hts). destruct (P t ts Hts) as [P1 P2]. split.
        * intros fr Hfr. destruct (Hs _ _ Hfr) as (_ & R & I). eapply raw_rows with (settle := settle); auto.
          -- now apply W in Hts.
          -- apply (plain_fields f t ts Hd Hts).
          -- apply P1; auto. unfold inputs, src'. rewrite map_map. apply in_map_iff. exists (t, fr). cbn [fst snd]. split; auto. now rewrite (ts_of_In sch t ts W Hts).
        * intros Hno. rewrite P2; [reflexivity |]. intros a Ha. exfalso. apply Hin in Ha as (fr & Ha & _). apply Hno. now apply (in_map fst) in Ha.
    - exfalso. destruct P as (t & a & Ha & _ & [P | (ts & Hts & P)]).
      + apply Hin in Ha as (fr & Ha & _). apply Hs in Ha as [Ha _]. auto.
      + apply Hin in Ha as (fr & Ha & ->). rewrite (ts_of_In sch t ts W Hts) in P. destruct (Hs _ _ Ha) as (_ & R & I).
        destruct (pan_table_there settle fl (f_defaults f) t ts fr) as (fr' & E); auto.
        * now apply W in Hts.
        * apply (plain_fields f t ts Hd Hts).
        * congruence.
  Qed.

  Lemma post_params_ret json f fs l : params_shape f -> In ("parameters", fs) (plain_schema f) -> NoDup (map fst (plain_schema f)) ->
    PanIOFacts.rect (tfields fs) l -> exists l', post_table date_of float_of str_of json f "parameters" (tfields fs) l = Ret l'.
  Proof.
    intros Hp Hin N R. unfold post_table. rewrite String.eqb_refl. destruct (has_params f) eqn:E; eauto.
    destruct (Hp E) as (k & v & Hk). assert (fs = mkT [k] [v]) as -> by (eapply pair_fst_inj; eauto).
    apply mapO_total. intros r Hr. apply R in Hr. cbn in Hr. destruct r as [| a [| b [|]]]; try discriminate. eauto.
  Qed.

  Theorem frames_read json fl f src : decl_ok (f_decl f) = true -> params_shape f -> src_ok f src ->
    (create_frames json fl f src = Raise <->
      (exists t ts fr x, In (t, fr) src /\ In (t, ts) (plain_schema f) /\ In x (tfields ts) /\ ~ In (CName x) (fr_cols fr) /\
         ~ (fl = true /\ In x (map fst (defaults_of (f_defaults f) t)))) \/
      (f_flag f = VNone /\ exists t ts x, In (t, ts) (plain_schema f) /\ t <> "parameters" /\ In x (tfields ts) /\ bias_now f t x = Raise)) /\
    (forall d, create_frames json fl f src = Ret d -> forall t ts, In (t, ts) (plain_schema f) ->
      (forall fr, In (t, fr) src ->
        Forall2 (fun r row => Forall2 (fun x w => exists v, given fl (f_defaults f) t fr r x v /\
           ((t <> "parameters" /\ quiet json f t x v) \/ (t = "parameters" /\ (has_params f = false \/ In x (tpk ts))) -> w = v)) (tfields ts) row) (fr_rows fr) (d t)) /\
      (~ In t (map fst src) -> d t = [])).
  Proof.
    intros Hd Hp Hsrc. pose proof (plain_wf f Hd) as W. set (sch := plain_schema f) in *. set (dv := f_defaults f) in *.
    destruct (supplied fl sch dv src) as [src' |] eqn:Es.
    - assert (forall t ts fr, In (t, fr) src -> In (t, ts) sch -> lacking ts (supply fl dv t ts fr) = []) as Hl.
      { intros t ts fr Hfr Hts. unfold supplied in Es. assert (exists r, map_opt (fun tf : string * frame => match dget String.eqb sch (fst tf) with Some ts => match lacking ts (supply fl dv (fst tf) ts (snd tf)) with
           [] => Some (fst tf, supply fl dv (fst tf) ts (snd tf)) | _ => None end | None => None end) src = Some r) as Ex by eauto.
        rewrite map_opt_some in Ex. destruct (Ex _ Hfr) as (y & Ey). cbn [fst snd] in Ey. rewrite (proj2 (schema_get sch t ts (proj1 W)) Hts) in Ey.
        destruct (lacking ts (supply fl dv t ts fr)); [auto | discriminate]. }
      destruct (frames_raw json fl f src Hd Hsrc Hl) as (raw & E & Hraw). fold sch in E, Hraw. fold dv in Hraw. rewrite E.
      assert (forall t ts, In (t, ts) sch -> PanIOFacts.rect (tfields ts) (raw t)) as Hrect.
      { intros t ts Hts. destruct (Hraw t ts Hts) as [H1 H2]. destruct (in_dec string_dec t (map fst src)) as [Hi | Hi].
        - apply in_map_iff in Hi as ([t' fr] & Et & Hi). cbn [fst] in Et. subst t'. apply (Forall2_rows_rect _ _ _ _ (H1 fr Hi)).
        - rewrite (H2 Hi). intros r []. }
      split.
      + split.
        * intros H. right. destruct (mapO _ sch) as [L |] eqn:Em; [discriminate |].
          apply (tables_raise (fun tts => post_table date_of float_of str_of json f (fst tts) (tfields (snd tts)) (raw (fst tts)))) in Em as (t & ts & Hts & Hr).
          cbn [fst snd] in Hr. destruct (string_dec t "parameters") as [-> | Hne].
          -- destruct (post_params_ret json f ts (raw "parameters") Hp Hts (proj1 W) (Hrect _ _ Hts)) as (l' & El). congruence.
          -- rewrite post_eq in Hr; auto; [| apply (proj2 W _ _ Hts)]. destruct (biases date_of f t (tfields ts)) eqn:Eb; [discriminate |].
             apply biases_raise in Eb as (Ef & x & Hx & B). split; auto. exists t, ts, x. auto.
        * intros [(t & ts & fr & x & A & B & C & D & K) | (Ef & t & ts & x & A & B & C & D)].
          -- exfalso. pose proof (proj1 (lacking_none _ _) (Hl t ts fr A B) x C) as Hc. apply D.
             destruct (proj2 Hsrc _ _ A) as (_ & R & _). destruct (supply_spec fl dv t ts fr (proj2 W _ _ B) R) as (_ & _ & S & _). apply S in Hc as [Hc | Hc]; auto. now destruct K.
          -- rewrite (proj2 (tables_raise (fun tts => post_table date_of float_of str_of json f (fst tts) (tfields (snd tts)) (raw (fst tts))) sch)); auto.
             exists t, ts. split; auto. cbn [fst snd]. rewrite post_eq; auto; [| apply (proj2 W _ _ A)]. rewrite (proj2 (biases_raise date_of f t (tfields ts))); eauto.
      + intros d Er t ts Hts. apply bindO_ret in Er as (L & EL & Ed). injection Ed as <-.
        pose proof (tables_ret (fun tts => post_table date_of float_of str_of json f (fst tts) (tfields (snd tts)) (raw (fst tts))) sch L t ts [] (proj1 W) EL Hts) as Et. cbn [fst snd] in Et.
        destruct (Hraw t ts Hts) as [H1 H2]. set (res := dget_or String.eqb L t []) in *. destruct (string_dec t "parameters") as [Ht | Hne].
        * subst t. unfold post_table in Et. rewrite String.eqb_refl in Et. destruct (has_params f) eqn:Eh.
          -- destruct (Hp Eh) as (k & v & Hk). assert (ts = mkT [k] [v]) as -> by (eapply pair_fst_inj; eauto; apply W).
             split.
             ++ intros fr Hfr. apply mapO_Forall2 in Et. eapply Forall2_trans; [| apply (H1 fr Hfr) | exact Et]. cbv beta. intros r row row' F G.
                cbn [tfields tpk tdf app] in *. inversion F as [| ? a ? l1 Fa F']; subst. inversion F' as [| ? b ? l2 Fb F'']; subst. inversion F''; subst.
                injection G as <-. constructor; [| constructor; [| constructor]].
                ** exists a. split; auto.
                ** exists b. split; auto. intros [[X _] | [_ [X | X]]]; try congruence. destruct X as [X | []]. subst.
                   exfalso. pose proof (proj2 W _ _ Hts) as Nf. unfold wf_tschema in Nf. cbn [tfields tpk tdf app] in Nf. inversion Nf as [| ? ? N1 N2]; subst. apply N1. simpl. auto.
             ++ intros Hno. rewrite (H2 Hno) in Et. simpl in Et. congruence.
          -- injection Et as Et. rewrite <- Et. split; [| auto]. intros fr Hfr. eapply Forall2_imp_in; [| apply (H1 fr Hfr)]. cbv beta. intros r row _ F.
             eapply Forall2_imp_in; [| exact F]. cbv beta. eauto.
        * rewrite post_eq in Et; auto; [| apply (proj2 W _ _ Hts)]. destruct (biases date_of f t (tfields ts)) as [bs |] eqn:Eb; [| discriminate].
          injection Et as Et. rewrite <- Et. split.
          -- intros fr Hfr. eapply (Forall2_mapf (given fl dv t fr)); [| apply (H1 fr Hfr)]. cbv beta. intros r x v Hx Hv. exists v. split; auto. intros [[_ Q] | [X _]]; [| contradiction].
             eapply post_cell_quiet; eauto.
          -- intros Hno. now rewrite (H2 Hno).
    - assert (create_frames json fl f src = Raise) as E by (unfold PanIO.create_frames; fold sch; fold dv; now rewrite Es). rewrite E.
      split; [| discriminate]. split; auto. intros _. left. unfold supplied in Es.
      assert (exists x, In x src /\ (fun tf : string * frame => match dget String.eqb sch (fst tf) with Some ts => match lacking ts (supply fl dv (fst tf) ts (snd tf)) with
           [] => Some (fst tf, supply fl dv (fst tf) ts (snd tf)) | _ => None end | None => None end) x = None) as ([t fr] & Hfr & G).
      { apply (map_opt_none_ex _ _ Es). }
      cbn [fst snd] in G. destruct (proj2 Hsrc _ _ Hfr) as (Hin & R & I). apply in_map_iff in Hin as ([t' ts] & Et & Hts). cbn [fst] in Et. subst t'. fold sch in Hts.
      rewrite (proj2 (schema_get sch t ts (proj1 W)) Hts) in G. destruct (lacking ts (supply fl dv t ts fr)) as [| x l] eqn:El; [discriminate |].
      assert (In x (lacking ts (supply fl dv t ts fr))) as Hx by (rewrite El; simpl; auto). apply lacking_In in Hx as [Hx Hno].
      destruct (supply_spec fl dv t ts fr (proj2 W _ _ Hts) R) as (_ & _ & S & _). exists t, ts, fr, x. split; auto. split; auto. split; auto. split.
      + intros H. apply Hno. apply S; auto.
      + intros H. apply Hno. apply S; auto.
  Qed.
End Read.
