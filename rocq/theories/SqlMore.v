(** * SQLite: which cells come back, and the text of a file. *)
From Coq Require Import ZArith Bool List String Ascii Arith Lia Permutation.
From Verif Require Import PyVal PyValFacts PyDict PyDictFacts PyStr ListFacts TypeDict Data FindTypes FindTypesFacts FK Obj ObjFacts ObjMore
  Factory FactoryFacts InfIO InfIOFacts Params Names NamesFacts Utils UtilsMore Ampl Json ObjRows JsonFacts TripFacts Sql SqlText SqlFacts.
Import ListNotations.
Local Open Scope string_scope.
Local Open Scope list_scope.

Definition special : list string := ["inf"; "-inf"; "true"; "false"].

Section Cells.
  Variable date_of : value -> option Z.
  Variable float_of : value -> option value.
  Variable show_date : Z -> text.
  Variable sql_number : string -> option num.
  Variable f : factory.

  Let trip := db_trip date_of float_of show_date sql_number f.
  Let R := fun t x v => fst (read_cell date_of float_of (mkIO f []) t x v).
  Let W := fun t x v => fst (write_cell date_of (mkIO f []) t x v).

  (** A value that SQLite and [_read_data_cell] leave alone. *)
  Definition neutral (t : string) (ts : tschema) (x : string) (v : value) : Prop :=
    match v with
    | VNone | VNum _ => True
    | VStr s => ~ In (lower s) special /\ (numeric_column f t ts x = true -> sql_number s = None)
    | _ => False
    end.

  Lemma neutral_stored : forall t ts x v, neutral t ts x v -> stored show_date sql_number f t ts x v = v.
  Proof.
    intros t ts x v H. unfold stored. destruct v; try contradiction; simpl; auto. destruct H as [_ H].
    destruct (numeric_column f t ts x); auto. now rewrite H.
  Qed.

  Lemma neutral_read : forall t ts x v, neutral t ts x v -> read_data_cell date_of float_of f t x v = R t x v.
  Proof.
    intros t ts x v H. unfold read_data_cell, R. destruct v as [| | | | s |]; try contradiction; auto. destruct H as [H _].
    assert (forall y, In y special -> String.eqb (lower s) y = false) as E.
    { intros y Hy. apply String.eqb_neq. intros Hc. apply H. now rewrite Hc. }
    rewrite !E by (simpl; auto). reflexivity.
  Qed.

  (** With a primary key: what is written and read back by the conversions of
      infinity (C34), provided the value in between is neutral. *)
  Theorem keyed_cell : forall t ts x v u, tpk ts <> [] -> (forall b, v <> VBool b) ->
    W t x v = Ret u -> R t x u = Ret v -> neutral t ts x u -> trip t ts x v v.
  Proof.
    intros t ts x v u Hk Hb Hw Hr Hn. exists u. split.
    - destruct (tpk ts); [contradiction |]. unfold write_data_cell. destruct v as [| | b | | |]; auto. exfalso. now apply (Hb b).
    - rewrite (neutral_stored _ _ _ _ Hn), (neutral_read _ _ _ _ Hn). exact Hr.
  Qed.

  Theorem keyed_bool : forall t ts x b, tpk ts <> [] -> sql_number "True" = None -> sql_number "False" = None ->
    trip t ts x (VBool b) (VBool b).
  Proof.
    intros t ts x b Hk H1 H2. exists (VStr (if b then "True" else "False")). split; [now destruct (tpk ts) |].
    unfold stored. cbn [bound]. destruct b; rewrite ?H1, ?H2; destruct (numeric_column f t ts x); reflexivity.
  Qed.

  (** Datetimes in datetime fields. *)
  Theorem date_cell : forall t ts x d dt, is_table f t = true -> t <> "parameters" -> field_type f t x = Some dt -> datetime dt = true ->
    let s := string_of_list_ascii (show_date d) in
    ~ In (lower s) special -> sql_number s = None -> date_of (VStr s) = Some d -> W t x (VDate d) = Ret (VDate d) ->
    trip t ts x (VDate d) (VDate d).
  Proof.
    intros t ts x d dt Hi Ht Hf Hdt s Hsp Hnum Hdate Hw. exists (VDate d). split; [now destruct (tpk ts) |].
    assert (stored show_date sql_number f t ts x (VDate d) = VStr s) as ->.
    { unfold stored. cbn [bound]. fold s. rewrite Hnum. now destruct (numeric_column f t ts x). }
    rewrite (neutral_read t ts x (VStr s)) by (simpl; auto). unfold R, read_cell. cbn [io_fac]. rewrite Hi, (par_neq t Ht). cbn [negb].
    rewrite Hf, Hdt. cbn [is_null negb andb adjust]. now rewrite Hdate.
  Qed.

  (** Without a primary key the value is not converted when written. *)
  Theorem listed_cell : forall t ts x v, tpk ts = [] -> R t x v = Ret v -> neutral t ts x v -> trip t ts x v v.
  Proof.
    intros t ts x v Hk Hr Hn. exists v. rewrite Hk. split; auto.
    rewrite (neutral_stored _ _ _ _ Hn), (neutral_read _ _ _ _ Hn). exact Hr.
  Qed.

  (** What is lost. *)
  Theorem listed_bool : forall t ts x b w, tpk ts = [] -> trip t ts x (VBool b) w -> R t x (VNum (of_int (if b then 1 else 0))) = Ret w.
  Proof.
    intros t ts x b w Hk (u & Hu & Hr). rewrite Hk in Hu. subst u. exact Hr.
  Qed.

  Theorem nan_lost : forall t ts x w, t <> "parameters" -> f_flag f <> VNone -> trip t ts x VNaN w -> R t x VNone = Ret w.
  Proof.
    intros t ts x w Ht Hf (u & Hu & Hr).
    assert (u = VNaN) as ->; [| exact Hr]. destruct (tpk ts); auto. unfold write_data_cell in Hu.
    rewrite write_flag in Hu; [| now apply par_neq | exact Hf]. cbn [io_fac] in Hu. injection Hu as <-.
    now destruct (f_flag f).
  Qed.

  Theorem number_text_lost : forall t ts x s n w, t <> "parameters" -> f_flag f <> VNone ->
    numeric_column f t ts x = true -> sql_number s = Some n -> trip t ts x (VStr s) w -> R t x (VNum n) = Ret w.
  Proof.
    intros t ts x s n w Ht Hf Hn Hs (u & Hu & Hr).
    assert (u = VStr s) as ->.
    { destruct (tpk ts); auto. unfold write_data_cell in Hu. rewrite write_flag in Hu; [| now apply par_neq | exact Hf].
      cbn [io_fac] in Hu. injection Hu as <-. now destruct (f_flag f). }
    unfold stored in Hr. cbn [bound] in Hr. rewrite Hn, Hs in Hr. exact Hr.
  Qed.

  (** ** C40 *)

  Definition converted (t x : string) (v w : value) : Prop :=
    match v with
    | VBool b => w = VStr (if b then "True" else "False")
    | _ => W t x v = Ret w
    end.

  Lemma converted_iff : forall t x v w, write_data_cell date_of f t x v = Ret w <-> converted t x v w.
  Proof.
    intros t x v w. unfold write_data_cell, converted, W. destruct v; try tauto. split; [now injection 1 | now intros ->].
  Qed.

  Definition row_converted (t : string) (ts : tschema) (r r' : list value) : Prop :=
    Forall2 (fun fx w => converted t (fst fx) (snd fx) w) (combine (tfields ts) r) r'.

  Theorem keyed_rows_converted : forall t ts tb rows, table_ok ts tb -> tpk ts <> [] ->
    (out_rows date_of f t ts tb = Ret rows <-> Forall2 (row_converted t ts) (full_rows tb) rows).
  Proof.
    intros t ts tb rows Hok Hk. unfold table_ok in Hok. destruct tb as [l | l].
    2: { destruct (tpk ts); [contradiction | destruct Hok]. }
    unfold out_rows. rewrite mapO_Forall2. unfold row_converted.
    split; apply Forall2_imp; intros r r' _ H; [apply mapO_Forall2 in H | apply mapO_Forall2];
      (eapply Forall2_imp; [| exact H]); intros [x v] w _ Hw; now apply converted_iff.
  Qed.

  Theorem listed_rows_raw : forall t ts l rows, table_ok ts (OListed l) -> out_rows date_of f t ts (OListed l) = Ret rows ->
    (Forall2 (row_converted t ts) l rows <-> forall r x v, In r l -> In (x, v) (combine (tfields ts) r) -> converted t x v v).
  Proof.
    intros t ts l rows Hok H. injection H as <-. unfold table_ok in Hok.
    assert (forall r, In r l -> List.length r = List.length (tfields ts)) as L.
    { unfold tfields. destruct (tpk ts); [exact Hok | contradiction]. }
    clear Hok. unfold row_converted.
    assert (forall r, List.length r = List.length (tfields ts) ->
      (Forall2 (fun fx w => converted t (fst fx) (snd fx) w) (combine (tfields ts) r) r <->
       forall x v, In (x, v) (combine (tfields ts) r) -> converted t x v v)) as Hrow.
    { generalize (tfields ts). intros fields r. revert fields. induction r as [| v r IH]; intros [| x fields] Hl; try discriminate; simpl.
      - split; [intros _ ? ? [] | constructor].
      - injection Hl as Hl. specialize (IH _ Hl). split.
        + intros H. inversion H as [| ? ? ? ? H1 H2]; subst. intros x0 v0 [E | Hin]; [injection E as <- <-; exact H1 | now apply IH].
        + intros H. constructor; [apply H; auto | apply IH; intros; apply H; auto]. }
    induction l as [| r l IH]; split.
    - intros _ r x v [].
    - constructor.
    - intros H. inversion H as [| ? ? ? ? H1 H2]; subst. intros r0 x v [<- | Hin] Hx.
      + apply (proj1 (Hrow r (L r (or_introl eq_refl))) H1); auto.
      + eapply IH; eauto. intros; apply L; simpl; auto.
    - intros H. constructor.
      + apply (Hrow r); [apply L; simpl; auto |]. intros; eapply H; simpl; eauto.
      + apply IH; [intros; apply L; simpl; auto |]. intros; eapply H; simpl; eauto.
  Qed.
End Cells.

(** ** C41 *)

Section File.
  Variable date_of : value -> option Z.
  Variable show_num show_date : Z -> text.

  Lemma in_commas : forall c l, In c (commas l) -> c = ","%char \/ exists x, In x l /\ In c x.
  Proof.
    intros c. induction l as [| x l IH]; [intros [] |]. destruct l as [| y l].
    - simpl. eauto.
    - change (commas (x :: y :: l)) with (x ++ txt "," ++ commas (y :: l)). rewrite !in_app_iff. intros [H | [H | H]].
      + right. exists x. simpl. auto.
      + left. simpl in H. destruct H as [<- | []]. reflexivity.
      + destruct (IH H) as [-> | (z & Hz & Hc)]; auto. right. exists z. simpl in *. auto.
  Qed.

  Lemma no_semi_insert : forall t fields lits, ~ In semi (txt t) -> (forall x, In x fields -> ~ In semi (txt x)) ->
    (forall x, In x lits -> ~ In semi x) -> ~ In semi (insert_text t fields lits).
  Proof.
    intros t fields lits Ht Hf Hl. unfold insert_text, bracket. rewrite !in_app_iff.
    assert (forall s, existsb (Ascii.eqb semi) (txt s) = false -> ~ In semi (txt s)) as K.
    { intros s H Hc. assert (existsb (Ascii.eqb semi) (txt s) = true) as E; [| congruence].
      apply existsb_exists. exists semi. split; auto. }
    intros H. destruct H as [H | [[H | [H | H]] | [H | [H | [H | [H | H]]]]]]; try (revert H; now apply K); auto.
    - apply in_commas in H as [H | (x & Hx & Hc)]; [discriminate |]. apply in_map_iff in Hx as (y & <- & Hy). unfold bracket in Hc.
      rewrite !in_app_iff in Hc. destruct Hc as [Hc | [Hc | Hc]]; [revert Hc; now apply K | now apply (Hf y Hy) | revert Hc; now apply K].
    - apply in_commas in H as [H | (x & Hx & Hc)]; [discriminate |]. now apply (Hl x Hx).
  Qed.

  (** Without semicolons in names and in the cells written, the statements are
      read as they were written. *)
  Theorem file_read : forall f d stmts, obj_ok (plain_schema f) d ->
    (forall t ts, In (t, ts) (plain_schema f) -> no_percent (txt t) /\ forall x, In x (tfields ts) -> no_percent (txt x)) ->
    data_sql date_of show_num show_date f d = Ret stmts ->
    exists bodies, stmts = map (fun b => b ++ [semi]) bodies /\
      (split_semi (sql_file stmts) = as_read bodies <-> forall b, In b bodies -> ~ In semi b) /\
      (forall b, In b bodies -> exists t ts rows r, In (t, ts) (plain_schema f) /\ out_rows date_of f t ts (d t) = Ret rows /\ In r rows /\
         b = insert_text t (tfields ts) (map (insert_format show_num show_date) r)).
  Proof.
    intros f d stmts Hok Hn H. rewrite data_sql_text in H by auto. apply bindO_ret in H as (l & H & E). injection E as <-.
    apply mapO_Forall2 in H.
    assert (exists bodies, List.concat l = map (fun b => b ++ [semi]) bodies /\
      (forall b, In b bodies -> exists t ts rows r, In (t, ts) (plain_schema f) /\ out_rows date_of f t ts (d t) = Ret rows /\ In r rows /\
         b = insert_text t (tfields ts) (map (insert_format show_num show_date) r))) as (bodies & E & Hb).
    { assert (forall x, In x (plain_schema f) -> In x (plain_schema f)) as Hs by auto. revert Hs. revert H. generalize (plain_schema f) at 1 2 as sch.
      intros sch H. induction H as [| [t ts] part sch l Hp H IH]; intros Hs.
      - exists []. split; auto. intros b [].
      - destruct IH as (bodies & A & B). { intros; apply Hs; simpl; auto. }
        cbn [fst snd] in Hp. apply bindO_ret in Hp as (rows & Hrows & E). injection E as <-.
        exists (map (fun r => insert_text t (tfields ts) (map (insert_format show_num show_date) r)) rows ++ bodies). split.
        + simpl. rewrite map_app, map_map, A. reflexivity.
        + intros b Hin. apply in_app_iff in Hin as [Hin | Hin]; auto. apply in_map_iff in Hin as (r & <- & Hr).
          exists t, ts, rows, r. split; auto. apply Hs. simpl. auto. }
    exists bodies. rewrite E. split; auto. split; auto. apply split_iff.
  Qed.
End File.

Section Semi.
  Variable date_of : value -> option Z.
  Variable show_num show_date : Z -> text.

  Lemma fix_semi : forall x prev, In semi (fix_loop prev x) -> In semi x.
  Proof.
    induction x as [| c x IH]; intros prev; [intros [] |]. cbn [fix_loop]. intros H. apply in_app_iff in H as [H | H].
    - destruct (is_quote c) eqn:E.
      + exfalso. apply is_quote_iff in E. subst c. destruct (negb _ || _ || _); simpl in H; intuition discriminate.
      + simpl in H. destruct H as [<- | []]. simpl. auto.
    - right. eapply IH. exact H.
  Qed.

  Lemma format_semi : (forall z, ~ In semi (show_num z)) -> (forall z, ~ In semi (show_date z)) ->
    forall v, (forall s, v = VStr s -> ~ In semi (txt s)) -> ~ In semi (insert_format show_num show_date v).
  Proof.
    intros Hn Hd v Hs. assert (forall y, ~ In semi y -> ~ In semi (quoted y)) as Q.
    { intros y Hy H. unfold quoted in H. cbn [In] in H. rewrite in_app_iff in H. simpl in H. intuition discriminate. }
    destruct v as [| | b | [| z |] | s | z]; cbn [insert_format]; auto.
    - simpl. intuition discriminate.
    - simpl. intuition discriminate.
    - destruct b; simpl; intuition discriminate.
    - apply Q. simpl. intuition discriminate.
    - apply Q. simpl. intuition discriminate.
    - apply Q. intros H. apply fix_semi in H. now apply (Hs s).
  Qed.

  Theorem file_without_semicolons : forall f d stmts, obj_ok (plain_schema f) d ->
    (forall z, ~ In semi (show_num z)) -> (forall z, ~ In semi (show_date z)) ->
    (forall t ts x, In (t, ts) (plain_schema f) -> x = t \/ In x (tfields ts) -> no_percent (txt x) /\ ~ In semi (txt x)) ->
    (forall t ts rows r s, In (t, ts) (plain_schema f) -> out_rows date_of f t ts (d t) = Ret rows -> In r rows -> In (VStr s) r ->
       ~ In semi (txt s)) ->
    data_sql date_of show_num show_date f d = Ret stmts ->
    exists bodies, stmts = map (fun b => b ++ [semi]) bodies /\ split_semi (sql_file stmts) = as_read bodies.
  Proof.
    intros f d stmts Hok Hn Hd Hnames Hcells H.
    destruct (file_read date_of show_num show_date f d stmts) as (bodies & A & B & C); auto.
    { intros t ts Hin. split; [apply (Hnames t ts t Hin); auto |]. intros x Hx. apply (Hnames t ts x Hin). auto. }
    exists bodies. split; auto. apply B. intros b Hb. destruct (C _ Hb) as (t & ts & rows & r & Hin & Ho & Hr & ->).
    apply no_semi_insert.
    - apply (Hnames t ts t Hin). auto.
    - intros x Hx. apply (Hnames t ts x Hin). auto.
    - intros x Hx. apply in_map_iff in Hx as (v & <- & Hv). apply format_semi; auto. intros s ->. eauto.
  Qed.
End Semi.
