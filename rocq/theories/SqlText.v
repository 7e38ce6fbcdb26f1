(** * SQL text: literals, statements, files (lemmas). *)
From Coq Require Import ZArith Bool List String Ascii Arith Lia.
From Verif Require Import PyVal PyDict PyStr Data FindTypes FK Factory InfIO Params Names Obj ObjFacts ObjMore Utils Ampl Json ObjRows Sql.
Import ListNotations.
Local Open Scope string_scope.
Local Open Scope list_scope.

(** ** String literals *)

(** SQL: a literal is a quote, the characters with each quote doubled, and a
    quote. *)
Definition double (x : text) : text := flat_map (fun c => if is_quote c then [quote; quote] else [c]) x.
Definition denotes (literal x : text) : Prop := literal = quote :: double x ++ [quote].

Lemma is_quote_iff c : is_quote c = true <-> c = quote.
Proof. apply Ascii.eqb_eq. Qed.

Lemma double_inj : forall x y, double x = double y -> x = y.
Proof.
  induction x as [| c x IH]; intros [| d y] H; auto.
  - simpl in H. destruct (is_quote d); discriminate.
  - simpl in H. destruct (is_quote c); discriminate.
  - simpl in H. destruct (is_quote c) eqn:Ec, (is_quote d) eqn:Ed.
    + apply is_quote_iff in Ec, Ed. subst. injection H as H. f_equal; auto.
    + simpl in H. injection H as H1 _. subst d. discriminate.
    + simpl in H. injection H as H1 _. subst c. discriminate.
    + simpl in H. injection H as -> H. f_equal; auto.
Qed.

Lemma denotes_fun : forall l x y, denotes l x -> denotes l y -> x = y.
Proof. unfold denotes. intros l x y -> H. injection H as H. apply app_inj_tail in H as [H _]. now apply double_inj. Qed.

Lemma fix_short : forall x prev, List.length (fix_loop prev x) <= List.length (double x).
Proof.
  induction x as [| c x IH]; intros prev; simpl; auto. rewrite !app_length. specialize (IH c).
  destruct (is_quote c) eqn:Ec; cbn [negb orb].
  - destruct (is_quote prev || _); simpl; lia.
  - simpl. lia.
Qed.

(** Two quotes in a row, the character before [x] being [prev]. *)
Fixpoint clash (prev : ascii) (x : text) : bool :=
  match x with
  | [] => false
  | c :: x' => (is_quote prev && is_quote c) || clash c x'
  end.

Lemma fix_loop_iff : forall x prev, fix_loop prev x = double x <-> clash prev x = false.
Proof.
  induction x as [| c x IH]; intros prev; simpl; [tauto |]. pose proof (fix_short x c) as Hs.
  destruct (is_quote c) eqn:Ec; cbn [negb orb andb].
  - destruct (is_quote prev) eqn:Ep; cbn [orb andb].
    + split; [| discriminate]. intros H. apply (f_equal (@List.length _)) in H. rewrite !app_length in H. simpl in H. lia.
    + destruct x as [| d x']; [simpl; tauto |]. destruct (is_quote d) eqn:Ed.
      * split; intros H.
        -- apply (f_equal (@List.length _)) in H. rewrite !app_length in H. simpl (List.length [_]) in H. simpl (List.length [_; _]) in H. lia.
        -- exfalso. simpl in H. rewrite Ec, Ed in H. discriminate.
      * rewrite <- IH. split; intros H; [now apply app_inv_head in H | now rewrite H].
  - rewrite andb_false_r. cbn [orb]. rewrite <- IH. split; intros H; [now apply app_inv_head in H | now rewrite H].
Qed.

Lemma clash_iff : forall x prev, clash prev x = true <->
  (prev = quote /\ exists b, x = quote :: b) \/ exists a b, x = a ++ quote :: quote :: b.
Proof.
  induction x as [| c x IH]; intros prev; simpl.
  - split; [discriminate |]. intros [(_ & b & H) | (a & b & H)]; [discriminate | now destruct a].
  - rewrite orb_true_iff, andb_true_iff, !is_quote_iff, IH. split.
    + intros [[-> ->] | [(-> & b & ->) | (a & b & ->)]]; eauto.
      * right. exists [], b. reflexivity.
      * right. exists (c :: a), b. reflexivity.
    + intros [(-> & b & H) | (a & b & H)].
      * injection H as -> ->. auto.
      * destruct a as [| c0 a]; simpl in H; injection H as -> ->; eauto.
Qed.

Lemma last_snoc {A} : forall (x : list A) d q, x <> [] -> (last x d = q <-> exists b, x = b ++ [q]).
Proof.
  intros x d q Hx. split.
  - intros H. exists (removelast x). rewrite <- H. now apply app_removelast_last.
  - intros [b ->]. apply last_last.
Qed.

(** The strings that [_fix_str] cannot handle: two quotes in a row, or quotes at
    both ends (a single quote is at both). *)
Definition hard (x : text) : Prop :=
  (exists a b, x = a ++ quote :: quote :: b) \/ ((exists b, x = quote :: b) /\ exists a, x = a ++ [quote]).

Theorem fix_str_iff : forall x, fix_str x = double x <-> ~ hard x.
Proof.
  intros x. unfold fix_str. rewrite fix_loop_iff. unfold hard.
  assert (clash (last x quote) x = true <-> (exists a b, x = a ++ quote :: quote :: b) \/ ((exists b, x = quote :: b) /\ exists a, x = a ++ [quote])) as H.
  { rewrite clash_iff. destruct x as [| c x].
    - split; intros [H | H]; auto.
      + destruct H as (_ & b & H). discriminate.
      + destruct H as ((b & H) & _). discriminate.
    - rewrite (last_snoc (c :: x) quote quote) by discriminate. tauto. }
  destruct (clash _ _); split; intros; try discriminate; auto.
  - exfalso. apply H0. now apply H.
  - intros Hc. apply H in Hc. discriminate.
Qed.

Lemma quoted_denotes : forall y x, denotes (quoted y) x <-> y = double x.
Proof.
  intros y x. unfold denotes, quoted. split; [| now intros ->]. intros H. injection H as H.
  now apply app_inj_tail in H as [H _].
Qed.

Section Text.
  Variable show_num : Z -> text.
  Variable show_date : Z -> text.
  Let fmt := insert_format show_num show_date.

  Theorem literal_iff : forall s, denotes (fmt (VStr s)) (txt s) <-> ~ hard (txt s).
  Proof. intros s. unfold fmt, insert_format. rewrite quoted_denotes. apply fix_str_iff. Qed.

  (** ** Statements *)

  Definition no_percent (x : text) : Prop := ~ In "%"%char x.

  Lemma pyformat_plain : forall x rest args, no_percent x ->
    pyformat (x ++ rest) args = bindO (pyformat rest args) (fun r => Ret (x ++ r)).
  Proof.
    induction x as [| c x IH]; intros rest args H; simpl.
    - now destruct (pyformat rest args).
    - destruct (Ascii.eqb c "%") eqn:E.
      + apply Ascii.eqb_eq in E. subst c. exfalso. apply H. simpl. auto.
      + rewrite IH by (intros Hc; apply H; simpl; auto). now destruct (pyformat rest args).
  Qed.

  Lemma no_percent_app : forall x y, no_percent x -> no_percent y -> no_percent (x ++ y).
  Proof. unfold no_percent. intros x y Hx Hy H. apply in_app_iff in H as [H | H]; auto. Qed.

  Lemma no_percent_b : forall x, forallb (fun c => negb (Ascii.eqb c "%")) x = true -> no_percent x.
  Proof. intros x H Hc. rewrite forallb_forall in H. apply H in Hc. discriminate. Qed.

  Lemma commas_percent : forall l, (forall x, In x l -> no_percent x) -> no_percent (commas l).
  Proof.
    induction l as [| x l IH]; intros H; [intros [] |]. destruct l as [| y l]; [apply H; simpl; auto |].
    change (commas (x :: y :: l)) with (x ++ txt "," ++ commas (y :: l)). apply no_percent_app; [apply H; simpl; auto |].
    apply no_percent_app; [now apply no_percent_b | apply IH; intros; apply H; simpl; auto].
  Qed.

  Lemma bracket_percent : forall x, no_percent (txt x) -> no_percent (bracket x).
  Proof. intros x H. unfold bracket. apply no_percent_app; [| apply no_percent_app; auto]; now apply no_percent_b. Qed.

  Lemma pyformat_holes : forall fields args, List.length (A := text) args = List.length (A := string) fields ->
    forall rest, no_percent rest ->
    pyformat (commas (map (fun _ => txt "%s") fields) ++ rest) args = Ret (commas args ++ rest).
  Proof.
    assert (forall rest, no_percent rest -> pyformat rest [] = Ret rest) as Hr.
    { intros rest Hr. rewrite <- (app_nil_r rest) at 1. rewrite pyformat_plain by auto. simpl. now rewrite app_nil_r. }
    induction fields as [| x fields IH]; intros [| a args] Hl rest Hn; try discriminate; [now apply Hr |].
    injection Hl as Hl. destruct fields as [| y fields], args as [| b args]; try discriminate.
    - simpl. rewrite Hr by auto. reflexivity.
    - change (commas (map (fun _ => txt "%s") (x :: y :: fields))) with (txt "%s" ++ txt "," ++ commas (map (fun _ => txt "%s") (y :: fields))).
      rewrite <- !app_assoc. change (txt "%s" ++ txt "," ++ ?z) with ("%"%char :: "s"%char :: ","%char :: z).
      specialize (IH (b :: args) Hl rest Hn). cbn [pyformat Ascii.eqb Bool.eqb]. rewrite IH.
      change (commas (a :: b :: args)) with (a ++ txt "," ++ commas (b :: args)). rewrite <- !app_assoc. reflexivity.
  Qed.

  (** The statement with its literals in place. *)
  Definition insert_text (t : string) (fields : list string) (literals : list text) : text :=
    txt "INSERT INTO " ++ bracket t ++ txt " (" ++ commas (map bracket fields) ++ txt ") VALUES (" ++ commas literals ++ txt ")".

  Lemma template_format : forall t fields args, no_percent (txt t) -> (forall x, In x fields -> no_percent (txt x)) ->
    List.length args = List.length fields ->
    pyformat (template t fields (txt "%s")) args = Ret (insert_text t fields args).
  Proof.
    intros t fields args Ht Hf Hl. unfold template, insert_text.
    assert (no_percent (commas (map bracket fields))) as Hc.
    { apply commas_percent. intros x Hx. apply in_map_iff in Hx as (y & <- & Hy). apply bracket_percent. auto. }
    assert (no_percent (bracket t)) as Hb by (now apply bracket_percent).
    assert (no_percent (txt ")")) as Hp by (now apply no_percent_b).
    rewrite pyformat_plain by (now apply no_percent_b). rewrite pyformat_plain by auto.
    rewrite pyformat_plain by (now apply no_percent_b). rewrite pyformat_plain by auto.
    rewrite pyformat_plain by (now apply no_percent_b). rewrite pyformat_holes by auto. reflexivity.
  Qed.

  (** ** Files *)

  Definition count (x : text) : nat := List.length (filter (fun c => Ascii.eqb c semi) x).

  Lemma split_length : forall x, List.length (split_semi x) = S (count x).
  Proof.
    unfold count. induction x as [| c x IH]; simpl; auto. destruct (Ascii.eqb c semi); simpl; auto.
    destruct (split_semi x); simpl in *; auto. discriminate.
  Qed.

  Lemma split_app : forall x y, ~ In semi x -> split_semi (x ++ semi :: y) = x :: split_semi y.
  Proof.
    induction x as [| c x IH]; intros y H; [reflexivity |]. simpl. destruct (Ascii.eqb c semi) eqn:E.
    - apply Ascii.eqb_eq in E. subst c. exfalso. apply H. simpl. auto.
    - rewrite IH; auto. intros Hc. apply H. simpl. auto.
  Qed.

  Lemma count_zero : forall x, count x = 0 <-> ~ In semi x.
  Proof.
    unfold count. induction x as [| c x IH]; simpl; [tauto |]. destruct (Ascii.eqb c semi) eqn:E.
    - apply Ascii.eqb_eq in E. subst. simpl. split; [discriminate | tauto].
    - rewrite IH. assert (c <> semi) by (intros ->; discriminate). tauto.
  Qed.

  Lemma count_app : forall x y, count (x ++ y) = count x + count y.
  Proof. intros x y. unfold count. now rewrite filter_app, app_length. Qed.

  (** Each statement but the first is read with the newline before it; a
      newline is left at the end. *)
  Definition as_read (bodies : list text) : list text :=
    match bodies with
    | [] => [[]]
    | b :: r => b :: map (cons newline) r ++ [[newline]]
    end.

  Lemma split_rest : forall bodies, (forall b, In b bodies -> ~ In semi b) ->
    split_semi (newline :: sql_file (map (fun b => b ++ [semi]) bodies)) = map (cons newline) bodies ++ [[newline]].
  Proof.
    induction bodies as [| b r IH]; intros H; [reflexivity |].
    change (sql_file (map (fun b => b ++ [semi]) (b :: r))) with
      (((b ++ [semi]) ++ [newline]) ++ sql_file (map (fun b => b ++ [semi]) r)).
    rewrite <- !app_assoc. cbn [app]. change (newline :: b ++ semi :: ?z) with ((newline :: b) ++ semi :: z).
    rewrite split_app.
    - rewrite IH; [reflexivity | intros; apply H; simpl; auto].
    - intros [Hc | Hc]; [discriminate |]. apply (H b); simpl; auto.
  Qed.

  Lemma count_file : forall bodies, count (sql_file (map (fun b => b ++ [semi]) bodies)) = List.length bodies + list_sum (map count bodies).
  Proof.
    induction bodies as [| b r IH]; [reflexivity |].
    change (sql_file (map (fun b => b ++ [semi]) (b :: r))) with
      (((b ++ [semi]) ++ [newline]) ++ sql_file (map (fun b => b ++ [semi]) r)).
    rewrite !count_app, IH. simpl. change (count [semi]) with 1. change (count [newline]) with 0. lia.
  Qed.

  Theorem split_iff : forall bodies,
    split_semi (sql_file (map (fun b => b ++ [semi]) bodies)) = as_read bodies <-> forall b, In b bodies -> ~ In semi b.
  Proof.
    intros bodies. split.
    - intros H. apply (f_equal (@List.length _)) in H. rewrite split_length, count_file in H.
      assert (list_sum (map count bodies) = 0) as Z.
      { destruct bodies as [| b r]; [reflexivity |]. simpl in H |- *. rewrite app_length, map_length in H. simpl in H. lia. }
      intros b Hb. apply count_zero. clear H. induction bodies as [| b0 r IH]; [contradiction |]. simpl in Z.
      destruct Hb as [-> | Hb]; [lia | apply IH; auto; lia].
    - intros H. destruct bodies as [| b r]; [reflexivity |].
      change (sql_file (map (fun b => b ++ [semi]) (b :: r))) with
        (((b ++ [semi]) ++ [newline]) ++ sql_file (map (fun b => b ++ [semi]) r)).
      rewrite <- !app_assoc. cbn [app]. rewrite split_app by (apply H; simpl; auto).
      rewrite split_rest by (intros; apply H; simpl; auto). reflexivity.
  Qed.

  Section Data.
    Variable date_of : value -> option Z.

    (** The rows of a table written: [out_rows] has the same number of cells. *)
    Lemma out_rows_length : forall f t ts tb rows r, table_ok ts tb -> out_rows date_of f t ts tb = Ret rows -> In r rows ->
      List.length r = List.length (tfields ts).
    Proof.
      intros f t ts tb rows r Hok H Hr. unfold out_rows in H. destruct tb as [l | l].
      - apply mapO_Forall2 in H. destruct (Forall2_In_r _ _ _ _ H Hr) as (r0 & Hr0 & E). apply mapO_Forall2 in E.
        apply Forall2_length' in E. rewrite <- E, combine_length.
        enough (List.length r0 = List.length (tfields ts)) by lia.
        unfold table_ok in Hok. destruct (tpk ts) as [| p pk] eqn:Ep; [contradiction |]. simpl in Hr0.
        apply in_map_iff in Hr0 as ([k r1] & <- & Hin). destruct (Hok _ _ Hin) as [H1 H2]. unfold tfields. cbn [fst snd].
        rewrite !app_length, H2. f_equal. unfold key_shape in H1. rewrite Ep in H1 |- *. destruct k; simpl in *; auto.
      - injection H as <-. unfold table_ok, tfields in *. destruct (tpk ts); [| contradiction]. simpl. now apply Hok.
    Qed.

    (** Names free of [%]: the statements are those intended. *)
    Theorem data_sql_text : forall f d, obj_ok (plain_schema f) d ->
      (forall t ts, In (t, ts) (plain_schema f) -> no_percent (txt t) /\ forall x, In x (tfields ts) -> no_percent (txt x)) ->
      data_sql date_of show_num show_date f d =
      bindO (mapO (fun tts => bindO (out_rows date_of f (fst tts) (snd tts) (d (fst tts))) (fun rows =>
                Ret (map (fun r => insert_text (fst tts) (tfields (snd tts)) (map fmt r) ++ [semi]) rows))) (plain_schema f))
        (fun l => Ret (List.concat l)).
    Proof.
      intros f d Hok Hn. unfold data_sql. f_equal.
      assert (forall l, (forall tts, In tts l -> In tts (plain_schema f)) ->
        mapO (fun tts => bindO (out_rows date_of f (fst tts) (snd tts) (d (fst tts))) (fun rows =>
          mapO (fun r => bindO (pyformat (template (fst tts) (tfields (snd tts)) (txt "%s")) (map (insert_format show_num show_date) r))
                         (fun s => Ret (s ++ [semi]))) rows)) l =
        mapO (fun tts => bindO (out_rows date_of f (fst tts) (snd tts) (d (fst tts))) (fun rows =>
                Ret (map (fun r => insert_text (fst tts) (tfields (snd tts)) (map fmt r) ++ [semi]) rows))) l) as H; [| apply H; auto].
      induction l as [| [t ts] l IH]; intros Hs; [reflexivity |]. cbn [mapO]. rewrite IH by (intros; apply Hs; simpl; auto).
      assert (In (t, ts) (plain_schema f)) as Hin by (apply Hs; simpl; auto). destruct (Hn _ _ Hin) as [N1 N2].
      cbn [fst snd]. destruct (out_rows date_of f t ts (d t)) as [rows |] eqn:E; [| reflexivity]. cbn [bindO].
      assert (forall r, In r rows -> List.length r = List.length (tfields ts)) as L.
      { intros r Hr. exact (out_rows_length f t ts (d t) rows r (Hok _ _ Hin) E Hr). }
      assert (mapO (fun r => bindO (pyformat (template t (tfields ts) (txt "%s")) (map (insert_format show_num show_date) r))
                         (fun s => Ret (s ++ [semi]))) rows =
              Ret (map (fun r => insert_text t (tfields ts) (map fmt r) ++ [semi]) rows)) as ->; [| reflexivity].
      clear E. induction rows as [| r rows IHr]; [reflexivity |]. cbn [mapO].
      rewrite template_format; auto; [| rewrite map_length; apply L; simpl; auto].
      rewrite IHr by (intros; apply L; simpl; auto). reflexivity.
    Qed.
  End Data.
End Text.
