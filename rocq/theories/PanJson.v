(** * Facts: PanDat objects written to json and read back. *)
From Coq Require Import ZArith Bool List String Ascii Arith Lia Permutation.
From Verif Require Import PyVal PyValFacts PyDict PyDictFacts ListFacts PyStr TypeDict TypeDictFacts Data FindTypes FindTypesFacts FK Obj ObjFacts ObjMore
  Factory FactoryFacts GraphFacts InfIO InfIOFacts PanIOFacts Params ParamsFacts Names NamesFacts Utils UtilsFacts Json ObjRows TripFacts Csv CsvMore CsvTrip Frames FramesFacts FramesPan PanIO PanRead.
Import ListNotations.
Local Open Scope string_scope.
Local Open Scope list_scope.

(** The same cell, or None and NaN in one another's place. *)
Definition alike (v w : value) : Prop := v = w \/ (is_null v = true /\ is_null w = true).

Lemma alike_refl v : alike v v.
Proof. now left. Qed.

Lemma alike_value v w : alike v w -> is_null v = false -> w = v.
Proof. intros [-> | [H _]]; congruence. Qed.

Lemma alike_null v w : alike v w -> is_null v = true -> is_null w = true.
Proof. intros [-> | [_ H]]; congruence. Qed.

(** pandas keeps the cells of a column up to None and NaN. *)
Definition gentle (settle : list value -> list value) (l : list value) : Prop := Forall2 alike l (settle l).

Lemma Forall2_nth_iff {A B} (P : A -> B -> Prop) (a : A) (b : B) : forall l m,
  Forall2 P l m <-> List.length l = List.length m /\ forall i, i < List.length l -> P (nth i l a) (nth i m b).
Proof.
  induction l as [| x l IH]; intros [| y m]; simpl; split; intros H.
  - split; auto. intros; lia.
  - constructor.
  - inversion H.
  - destruct H; discriminate.
  - inversion H.
  - destruct H; discriminate.
  - inversion H as [| ? ? ? ? Pxy F]; subst. apply IH in F as [L F]. split; [lia |]. intros [| i] Hi; auto. apply F. lia.
  - destruct H as [L F]. constructor; [apply (F 0); lia |]. apply IH. split; [lia |]. intros i Hi. apply (F (S i)). lia.
Qed.

Lemma settled_alike : forall settle n rows, (forall r, In r rows -> List.length r = n) ->
  (forall k, gentle settle (column rows k)) -> Forall2 (Forall2 alike) rows (settled settle n rows).
Proof.
  intros settle n rows L G. apply (Forall2_nth_iff _ [] []). split; [now rewrite settled_count |]. intros i Hi.
  assert (nth i (settled settle n rows) [] = map (fun k => nth i (settle (column rows k)) VNone) (seq 0 n)) as ->.
  { unfold settled. rewrite (nth_indep _ [] (map (fun k => nth (List.length rows) (settle (column rows k)) VNone) (seq 0 n))) by (rewrite map_length, seq_length; auto).
    rewrite (map_nth (fun i => map (fun k => nth i (settle (column rows k)) VNone) (seq 0 n)) (seq 0 (List.length rows)) (List.length rows)).
    now rewrite seq_nth by auto. }
  assert (List.length (nth i rows []) = n) as Ln by (apply L; now apply nth_In).
  apply (Forall2_nth_iff _ VNone VNone). split; [now rewrite map_length, seq_length |]. intros k Hk. rewrite Ln in Hk.
  assert (nth k (map (fun k => nth i (settle (column rows k)) VNone) (seq 0 n)) VNone = nth i (settle (column rows k)) VNone) as ->.
  { rewrite (nth_indep _ VNone (nth i (settle (column rows n)) VNone)) by (rewrite map_length, seq_length; auto).
    rewrite (map_nth (fun k => nth i (settle (column rows k)) VNone) (seq 0 n) n). now rewrite seq_nth by auto. }
  specialize (G k). apply (Forall2_nth_iff _ VNone VNone) in G as [_ G]. unfold column in G at 1. rewrite map_length in G. specialize (G i Hi).
  unfold column in G at 1. rewrite (nth_indep _ VNone (nth k [] VNone)) in G by (rewrite map_length; auto).
  now rewrite (map_nth (fun r => nth k r VNone) rows []) in G.
Qed.

(** Rows through a cell-wise change. *)
Lemma rows_mapf : forall (P : string -> value -> Prop) (Q : value -> value -> Prop) fs h g (l m : list (list value)), 
  (forall x v c, In x fs -> P x v -> alike (g x v) c -> Q v (h x c)) ->
  (forall r x v, In r l -> In (x, v) (combine fs r) -> P x v) ->
  PanIOFacts.rect fs l -> Forall2 (Forall2 alike) (map (mapf fs g) l) m ->
  Forall2 (Forall2 Q) l (map (mapf fs h) m).
Proof.
  intros P Q fs h g l m H HP R F. revert m F. induction l as [| r l IH]; intros m F; inversion F as [| ? c ? m' Fr Fl]; subst; cbn [map]; constructor.
  - assert (forall xs (r c : list value), (forall x, In x xs -> In x fs) -> List.length r = List.length xs -> (forall x v, In (x, v) (combine xs r) -> P x v) ->
      Forall2 alike (mapf xs g r) c -> Forall2 Q r (mapf xs h c)) as G.
    { clear - H. induction xs as [| x xs IH]; intros [| v r] c Hs L HP F; try discriminate; unfold mapf in F; simpl in F; inversion F as [| ? w ? c' Fa Fb]; subst; unfold mapf; simpl; constructor.
      - apply H; auto; [apply Hs; simpl; auto | apply HP; simpl; auto].
      - apply IH; auto. + intros; apply Hs; simpl; auto. + intros; apply HP; simpl; auto. }
    apply G; auto. + apply R. simpl. auto. + intros x v Hx. apply (HP r); simpl; auto.
  - apply IH; auto. + intros r' x v Hr. apply HP. simpl. auto. + intros r' Hr. apply R. simpl. auto.
Qed.

Section Trip.
  Variable date_of : value -> option Z.
  Variable float_of : value -> option value.
  Variable settle : list value -> list value.
  Variable show_date : Z -> string.
  Variable str_of : value -> string.

  Notation is_date := (is_date date_of).
  Notation bias_now := (bias_now date_of).
  Notation pan_write := (pan_write date_of).
  Notation pan_read_cell := (pan_read_cell date_of float_of).
  Notation post_cell := (post_cell date_of float_of).
  Notation post_table := (post_table date_of float_of str_of).
  Notation kept := (kept date_of float_of).
  Notation write_json := (write_json date_of show_date).
  Notation json_fix := (json_fix show_date).
  Notation create_json := (create_json date_of float_of settle str_of).
  Notation fix_value := (fix_value date_of float_of str_of).

  (** Written cells, for tables other than the parameters. *)
  Definition put_cell (f : factory) (bs : string -> option bool) (x : string) (v : value) : value :=
    if is_bias_inf (bs x) v then VNone else flagged (f_flag f) v.

  Lemma pan_write_eq f t fs l w : t <> "parameters" -> good_flag (f_flag f) = true -> NoDup fs -> PanIOFacts.rect fs l ->
    pan_write f t fs l = Ret w -> exists bs, biases date_of f t fs = Ret bs /\ w = map (mapf fs (put_cell f bs)) l.
  Proof.
    intros Ht G N R. apply par_neq in Ht. unfold InfIO.pan_write, biases. rewrite Ht. unfold put_cell. destruct (f_flag f) as [| | b | m | s | z] eqn:E; try discriminate.
    - destruct (existsb _ fs) eqn:X; [discriminate |]. intros [= <-]. eexists. split; [reflexivity |]. rewrite pan_write_none_eq by auto.
      apply map_ext. intros r. apply mapf_ext. intros x v _. reflexivity.
    - intros [= <-]. eexists. split; [reflexivity |]. rewrite pan_write_num_eq by auto. apply map_ext. intros r. apply mapf_ext. intros x v _. reflexivity.
    - intros [= <-]. eexists. split; [reflexivity |]. rewrite <- (map_id l) at 1. apply map_ext_in. intros r Hr. symmetry. apply mapf_id; [now apply R |]. reflexivity.
  Qed.

  (** A cell that json does not spoil: a date in a field for dates, or a cell that reading leaves alone; within the
      flag, or valid when nulls stand for infinity; not a text "none" where text can be null. *)
  Definition survives (f : factory) (t x : string) (v : value) : Prop :=
    match v with
    | VDate z => exists dt, field_type f t x = Some dt /\ datetime dt = true /\ date_of (VStr (show_date z)) = Some z
    | _ => kept f t x v
    end /\
    (forall m n, f_flag f = VNum m -> v = VNum n -> n = PInf \/ n = NInf \/ within m n) /\
    (f_flag f = VNone -> forall dt, field_type f t x = Some dt -> valid_data is_date dt v = true) /\
    (none_text v = true -> forall dt, field_type f t x = Some dt -> text_only dt = true -> nullable dt = false).

  Lemma unflag_null flag v : is_null v = true -> unflag flag v = v.
  Proof. intros H. destruct v; try discriminate; apply unflag_notnum; discriminate. Qed.

  Lemma munge_null f t x v : is_null v = true -> is_null (munge float_of f t x v) = true.
  Proof.
    intros H. unfold munge. destruct (field_type f t x) as [dt |]; auto. destruct (_ && _); auto. destruct v; try discriminate; auto.
  Qed.

  Lemma read_null f b t x v : is_null v = true ->
    match b with Some b => pan_read_cell f (Some b) t x v = inf_of b | None => is_null (pan_read_cell f None t x v) = true end.
  Proof.
    intros H. pose proof (munge_null f t x v H) as M. unfold InfIO.pan_read_cell. set (v1 := munge float_of f t x v) in *. destruct b as [b |].
    - rewrite M. destruct (field_type f t x) as [dt |]; auto. now destruct (datetime dt).
    - destruct (field_type f t x) as [dt |]; auto. destruct (datetime dt); auto. destruct v1; try discriminate; auto.
  Qed.

  Lemma post_read f b t x v : (forall dt, field_type f t x = Some dt -> text_only dt = true -> none_text (pan_read_cell f b t x v) = true -> nullable dt = false) ->
    post_cell true f b t x v = pan_read_cell f b t x v.
  Proof.
    intros H. unfold PanIO.post_cell. set (w := pan_read_cell f b t x v) in *. destruct (field_type f t x) as [dt |]; auto.
    destruct (text_only dt) eqn:A; simpl; auto. destruct (nullable dt) eqn:B; auto. destruct (none_text w) eqn:C; auto. simpl. rewrite (H dt) in B; auto. discriminate.
  Qed.

  Lemma cell_back f t fs bs x v c : good_flag (f_flag f) = true -> biases date_of f t fs = Ret bs -> In x fs -> survives f t x v -> 
    alike (json_fix (put_cell f bs x v)) c -> alike v (post_cell true f (bs x) t x (unflag (f_flag f) c)).
  Proof.
    intros G Hb Hx (K & Hn & Hv & Ht) Hc.
    assert (forall b, bs x = Some b -> f_flag f = VNone /\ exists dt, field_type f t x = Some dt /\ valid_data is_date dt VNone = false) as Hbias.
    { intros b Eb. destruct (biases_ret date_of _ _ _ _ _ Hb Hx) as [[F B] | [F B]]; [| congruence]. split; auto.
      rewrite Eb in B. destruct (bias_some _ _ _ _ _ B) as (dt & Hdt & _ & Hnull & _). eauto. }
    destruct (is_null v) eqn:En.
    - assert (json_fix (put_cell f bs x v) = VNone) as E.
      { unfold put_cell. destruct (is_bias_inf (bs x) v); [reflexivity |]. rewrite flagged_notnum by (intros n ->; discriminate). unfold PanIO.json_fix. now rewrite En. }
      rewrite E in Hc. pose proof (alike_null _ _ Hc eq_refl) as Nc. rewrite unflag_null by auto. right. split; auto.
      assert (bs x = None) as B.
      { destruct (bs x) as [b |] eqn:B; auto. destruct (Hbias b eq_refl) as (F & dt & Hdt & X). specialize (Hv F dt Hdt). destruct v; try discriminate; cbn in *; congruence. }
      rewrite B. pose proof (read_null f None t x c Nc) as Hr. cbv beta iota in Hr. rewrite post_read; auto. intros dt _ _ X. exfalso. destruct (pan_read_cell f None t x c); discriminate.
    - destruct (is_bias_inf (bs x) v) eqn:Eb.
      + unfold put_cell in Hc. rewrite Eb in Hc. pose proof (alike_null _ _ Hc eq_refl) as Nc. rewrite unflag_null by auto.
        destruct (bs x) as [b |] eqn:B; [| discriminate]. cbn [is_bias_inf] in Eb. apply value_eqb_true in Eb. subst v. left.
        pose proof (read_null f (Some b) t x c Nc) as Hr. cbv beta iota in Hr. rewrite post_read; auto. intros dt _ _ X. rewrite Hr in X. discriminate.
      + unfold put_cell in Hc. rewrite Eb in Hc. destruct v as [| | b | n | s | z]; try discriminate.
        * (* bool *) rewrite flagged_notnum in Hc by discriminate. apply alike_value in Hc; [| reflexivity]. subst c. cbn [PanIO.json_fix is_null].
          rewrite unflag_notnum by discriminate. left. assert (pan_read_cell f (bs x) t x (VBool b) = VBool b) as Hr.
          { destruct (bs x); [now apply pan_read_cell_bias | now apply pan_read_cell_kept]. }
          rewrite post_read; auto. intros dt _ _ X. rewrite Hr in X. discriminate.
        * (* number *) assert (unflag (f_flag f) c = VNum n) as Hu.
          { destruct (f_flag f) as [| | ? | m | ? | ?] eqn:F; try discriminate;
              try (rewrite unflag_other by discriminate; apply alike_value in Hc; [auto | reflexivity]).
            destruct (flag_pos m G) as (z & -> & Hz). destruct (Hn _ n eq_refl eq_refl) as [-> | [-> | W]].
            - rewrite flagged_pinf in Hc by exact Hz. apply alike_value in Hc; [| reflexivity]. subst c. now apply unflag_top.
            - rewrite flagged_ninf in Hc by exact Hz. apply alike_value in Hc; [| reflexivity]. subst c. now apply unflag_bottom.
            - rewrite flagged_within in Hc by exact W. apply alike_value in Hc; [| reflexivity]. subst c. now apply unflag_within. }
          rewrite Hu. left. assert (pan_read_cell f (bs x) t x (VNum n) = VNum n) as Hr.
          { destruct (bs x); [now apply pan_read_cell_bias | now apply pan_read_cell_kept]. }
          rewrite post_read; auto. intros dt _ _ X. rewrite Hr in X. discriminate.
        * (* text *) rewrite flagged_notnum in Hc by discriminate. apply alike_value in Hc; [| reflexivity]. subst c. cbn [PanIO.json_fix is_null].
          rewrite unflag_notnum by discriminate. left. assert (pan_read_cell f (bs x) t x (VStr s) = VStr s) as Hr.
          { destruct (bs x); [now apply pan_read_cell_bias | now apply pan_read_cell_kept]. }
          rewrite post_read; auto. intros dt D1 D2 X. rewrite Hr in X. eapply Ht; eauto.
        * (* date *) rewrite flagged_notnum in Hc by discriminate. apply alike_value in Hc; [| reflexivity]. cbn [PanIO.json_fix is_null] in Hc. subst c.
          rewrite unflag_notnum by discriminate. left. destruct K as (dt & Hdt & Hd & Hs).
          assert (pan_read_cell f (bs x) t x (VStr (show_date z)) = VDate z) as Hr.
          { unfold InfIO.pan_read_cell, munge. rewrite Hdt, Hd. cbn [negb andb is_null]. destruct (bs x); cbn [adjust]; rewrite Hs; reflexivity. }
          rewrite post_read; auto. intros dt' _ _ X. rewrite Hr in X. discriminate.
  Qed.

  (** ** Parameters *)

  (** The same for the value of the parameter [k]. *)
  Definition param_survives (f : factory) (k v : value) : Prop :=
    (forall dt, param_type f k = Some dt -> valid_data is_date dt v = true) /\
    match v with
    | VDate z => exists dt, param_type f k = Some dt /\ datetime dt = true /\ date_of (VStr (show_date z)) = Some z
    | VStr s =>
        (forall dt, param_type f k = Some dt -> datetime dt = true -> date_of v = None) /\
        (none_text v = true -> exists dt, param_type f k = Some dt /\ valid_data is_date dt VNone = false) /\
        ((forall dt, param_type f k = Some dt -> number_allowed dt = true) -> float_of v = None)
    | VNone | VNaN => True
    | _ => (forall dt, param_type f k = Some dt -> number_allowed dt = true) -> to_float float_of v = Some v
    end.

  Lemma value_back f k v c : param_survives f k v -> alike (json_fix v) c -> alike v (fix_value true f k c).
  Proof.
    intros [Hv H] Hc. unfold PanIO.fix_value. destruct v as [| | b | n | s | z].
    - (* None *) pose proof (alike_null _ _ Hc eq_refl) as Nc. assert (alike VNone c) as Ac by now right.
      assert (none_text c = false) as -> by (destruct c; try discriminate; auto).
      assert (match param_type f k, c with Some t, VStr _ => if datetime t then match adjust date_of c with Some d => if match param_type f k with Some t0 => valid_data is_date t0 (VDate d) | None => true end then Some d else None | None => None end else None | _, _ => None end = None) as ->
        by (destruct (param_type f k); destruct c; try discriminate; auto).
      cbn [andb]. destruct (param_type f k) as [dt |] eqn:Et.
      + destruct (number_allowed dt); cbn [negb].
        * destruct c; try discriminate; cbn [to_float]; right; auto.
        * specialize (Hv dt eq_refl). assert (valid_data is_date dt c = true) as -> by (destruct c; try discriminate; auto). cbn [negb andb]. auto.
      + destruct c; try discriminate; cbn [to_float]; right; auto.
    - (* NaN *) pose proof (alike_null _ _ Hc eq_refl) as Nc. assert (alike VNaN c) as Ac by now right.
      assert (none_text c = false) as -> by (destruct c; try discriminate; auto).
      assert (match param_type f k, c with Some t, VStr _ => if datetime t then match adjust date_of c with Some d => if match param_type f k with Some t0 => valid_data is_date t0 (VDate d) | None => true end then Some d else None | None => None end else None | _, _ => None end = None) as ->
        by (destruct (param_type f k); destruct c; try discriminate; auto).
      cbn [andb]. destruct (param_type f k) as [dt |] eqn:Et.
      + destruct (number_allowed dt); cbn [negb].
        * destruct c; try discriminate; cbn [to_float]; right; auto.
        * specialize (Hv dt eq_refl). assert (valid_data is_date dt c = true) as -> by (destruct c; try discriminate; auto). cbn [negb andb]. auto.
      + destruct c; try discriminate; cbn [to_float]; right; auto.
    - apply alike_value in Hc; [| reflexivity]. subst c. left. cbn [PanIO.json_fix is_null none_text andb].
      assert (match param_type f k with Some _ | _ => @None Z end = None) as E by (destruct (param_type f k); auto). rewrite E. clear E.
      destruct (param_type f k) as [dt |] eqn:Et.
      + destruct (number_allowed dt) eqn:Na; cbn [negb].
        * rewrite H; auto. intros dt' X. congruence.
        * now rewrite (Hv dt eq_refl).
      + rewrite H; auto. discriminate.
    - apply alike_value in Hc; [| reflexivity]. subst c. left. cbn [PanIO.json_fix is_null none_text andb].
      assert (match param_type f k with Some _ | _ => @None Z end = None) as E by (destruct (param_type f k); auto). rewrite E. clear E.
      destruct (param_type f k) as [dt |] eqn:Et.
      + destruct (number_allowed dt) eqn:Na; cbn [negb].
        * rewrite H; auto. intros dt' X. congruence.
        * now rewrite (Hv dt eq_refl).
      + rewrite H; auto. discriminate.
    - apply alike_value in Hc; [| reflexivity]. subst c. left. cbn [PanIO.json_fix is_null]. destruct H as (H1 & H2 & H3).
      assert (match param_type f k with Some t => if datetime t then match adjust date_of (VStr s) with Some d => if match param_type f k with Some t0 => valid_data is_date t0 (VDate d) | None => true end then Some d else None | None => None end else None | None => None end = None) as ->.
      { destruct (param_type f k) as [dt |] eqn:Et; auto. destruct (datetime dt) eqn:Ed; auto. cbn [adjust]. now rewrite (H1 dt eq_refl Ed). }
      assert (true && none_text (VStr s) && match param_type f k with Some t => valid_data is_date t VNone | None => true end = false) as ->.
      { cbn [andb]. destruct (none_text (VStr s)) eqn:Ex; auto. destruct (H2 eq_refl) as (dt & -> & E). now rewrite E. }
      destruct (param_type f k) as [dt |] eqn:Et.
      + destruct (number_allowed dt) eqn:Na; cbn [negb].
        * cbn [to_float]. rewrite H3; auto. intros dt' X. congruence.
        * now rewrite (Hv dt eq_refl).
      + cbn [to_float]. rewrite H3; auto. discriminate.
    - apply alike_value in Hc; [| reflexivity]. subst c. left. cbn [PanIO.json_fix is_null]. destruct H as (dt & Hdt & Hd & Hs). rewrite Hdt, Hd. cbn [adjust]. rewrite Hs.
      now rewrite (Hv dt Hdt).
  Qed.

  (** ** Tables *)

  Definition row_ok (f : factory) (t : string) (ts : tschema) (r : list value) : Prop :=
    List.length r = List.length (tfields ts) /\
    if String.eqb t "parameters"
    then if has_params f then exists s v, r = [VStr s; v] /\ param_survives f (VStr s) v
         else forall v, In v r -> match v with VDate _ => False | _ => True end
    else forall x v, In (x, v) (combine (tfields ts) r) -> survives f t x v.

  Lemma json_fix_alike v : (match v with VDate _ => False | _ => True end) -> alike v (json_fix v).
  Proof. intros H. unfold PanIO.json_fix. destruct v; try contradiction; cbn [is_null]; try (now left); now right. Qed.

  Lemma alike_trans u v w : alike u v -> alike v w -> alike u w.
  Proof. intros [-> | [A B]] [<- | [C D]]; unfold alike; auto. Qed.

  Lemma table_back f t ts l w m : wf_tschema ts -> good_flag (f_flag f) = true -> (t = "parameters" -> has_params f = true -> exists k v, ts = mkT [k] [v]) ->
    (forall r, In r l -> row_ok f t ts r) ->
    pan_write f t (tfields ts) l = Ret w -> Forall2 (Forall2 alike) (map (map json_fix) w) m ->
    exists l', post_table true f t (tfields ts) m = Ret l' /\ Forall2 (Forall2 alike) l l'.
  Proof.
    intros W G Hp Hr Ew F. assert (PanIOFacts.rect (tfields ts) l) as R by (intros r H; now apply Hr).
    destruct (string_dec t "parameters") as [-> | Hne].
    - rewrite pan_params_write in Ew by auto. injection Ew as <-. unfold PanIO.post_table. rewrite String.eqb_refl. unfold row_ok in Hr. rewrite String.eqb_refl in Hr.
      destruct (has_params f) eqn:Eh.
      + destruct (Hp eq_refl eq_refl) as (k & v & ->). cbn [tfields tpk tdf app] in *. clear Hp R. revert m F. induction l as [| r l IH]; intros m F; inversion F as [| ? c ? m' Fr Fl]; subst.
        * exists []. split; [reflexivity | constructor].
        * destruct (Hr r (or_introl eq_refl)) as (_ & s & x & -> & Hs).
          destruct (IH (fun r' H => Hr r' (or_intror H)) m' Fl) as (l' & El & Fl').
          unfold mapf in Fr. cbn [combine map fst snd last] in Fr.
          assert (exists a b, c = [a; b] /\ alike (json_fix (VStr s)) a /\ alike (json_fix x) b) as (a & b & -> & Ha & Hb).
          { assert (k <> v) as Hkv. { intros ->. unfold wf_tschema in W. cbn [tfields tpk tdf app] in W. inversion W as [| ? ? N1 N2]; subst. apply N1. simpl. auto. }
            apply String.eqb_neq in Hkv. rewrite Hkv in Fr. cbn [andb] in Fr. rewrite String.eqb_refl in Fr. cbn [andb] in Fr.
            inversion Fr as [| ? a ? r1 F1 F2]; subst. inversion F2 as [| ? b ? r2 F3 F4]; subst. inversion F4; subst. exists a, b. split; auto. split; auto.
            destruct (is_null x) eqn:En; auto. unfold PanIO.json_fix in *. rewrite En. cbn [is_null] in F3. auto. }
          apply alike_value in Ha; [| reflexivity]. cbn [PanIO.json_fix is_null] in Ha. subst a.
          exists ([VStr s; fix_value true f (VStr s) b] :: l'). split.
          -- cbn [mapO]. rewrite El. reflexivity.
          -- constructor; auto. constructor; [apply alike_refl |]. constructor; [| constructor]. eapply value_back; eauto.
      + exists m. split; auto. clear - Hr F. revert m F. induction l as [| r l IH]; intros m F; inversion F as [| ? c ? m' Fr Fl]; subst; constructor.
        * destruct (Hr r (or_introl eq_refl)) as [_ H]. clear - H Fr. revert c Fr. induction r as [| v r IH]; intros c Fr; inversion Fr as [| ? b ? c' F1 F2]; subst; constructor.
          -- eapply alike_trans; [| exact F1]. apply json_fix_alike. apply H. simpl. auto.
          -- apply IH; auto. intros u Hu. apply H. simpl. auto.
        * apply IH; auto. intros r' H. apply Hr. simpl. auto.
    - destruct (pan_write_eq f t (tfields ts) l w Hne G W R Ew) as (bs & Eb & ->).
      assert (Forall2 (Forall2 alike) (map (mapf (tfields ts) (fun x v => json_fix (put_cell f bs x v))) l) m) as F'.
      { rewrite map_map in F. erewrite map_ext; [exact F |]. intros r. unfold mapf. now rewrite map_map. }
      assert (PanIOFacts.rect (tfields ts) m) as Rm.
      { clear - F' R. revert m F'. induction l as [| r l IH]; intros m F'; inversion F' as [| ? c ? m' Fr Fl]; subst; [intros r' [] |]; intros r' [<- | H].
        - apply FramesFacts.Forall2_length in Fr. rewrite mapf_length in Fr; auto. apply R. simpl. auto.
        - apply (IH (fun r H => R r (or_intror H)) m' Fl r' H). }
      rewrite post_eq by auto. rewrite Eb. eexists. split; [reflexivity |].
      eapply (rows_mapf (survives f t)) with (g := fun x v => json_fix (put_cell f bs x v)); eauto.
      + intros x v c Hx Hs Hc. eapply cell_back; eauto.
      + intros r x v H Hx. apply Hr in H as [_ H]. apply par_neq in Hne. rewrite Hne in H. auto.
  Qed.

  (** ** Documents *)

  Definition all_plain (f : factory) : Prop := forall t, ~ In (t, Generic) (f_decl f).

  Lemma written f d doc : write_json f d = Ret doc -> map fst doc = map fst (f_decl f) /\
    (forall t e, In (t, e) doc -> exists rows, e = JRows rows) /\
    (forall t ts, In (t, Fields ts) (f_decl f) -> exists w, pan_write f t (tfields ts) (d t) = Ret w /\ In (t, JRows (map (map json_fix) w)) doc).
  Proof.
    unfold PanIO.write_json. intros H. apply mapO_Forall2 in H. induction H as [| [t td] y l m H _ IH].
    - split; auto. split; [intros t e [] | intros t ts []].
    - destruct IH as (A & B & C). cbn [fst snd] in H. destruct td as [| ts]; [discriminate |]. apply bindO_ret in H as (w & Ew & Ey). injection Ey as <-.
      split; [simpl; now rewrite A |]. split.
      + intros t' e [E | H]; [injection E as <- <-; eauto | eauto].
      + intros t' ts' [E | H]; [injection E as <- <-; exists w; simpl; auto |]. destruct (C _ _ H) as (w' & E1 & E2). exists w'. simpl. auto.
  Qed.

  Lemma sources f doc : decl_ok (f_decl f) = true -> NoDup (map fst doc) -> Permutation (map fst doc) (map fst (f_decl f)) ->
    json_sources f doc = Ret (map (fun t => (t, dget_or String.eqb doc t JOther)) (map fst (f_decl f))).
  Proof.
    intros Hd N P. unfold json_sources.
    assert (forall l, (forall t, In t l -> In t (map fst (f_decl f))) ->
      mapO (fun t => bindO (get_json_key (map fst doc) t) (fun k => Ret match k with Some k => match dget String.eqb doc k with Some e => [(t, e)] | None => [] end | None => [] end)) l =
      Ret (map (fun t => [(t, dget_or String.eqb doc t JOther)]) l)) as G.
    { induction l as [| t l IH]; intros Hl; auto. cbn [mapO map]. assert (In t (map fst (f_decl f))) as Ht by (apply Hl; simpl; auto).
      rewrite (get_json_key_own false (map fst (f_decl f)) (map fst doc) [] t).
      - cbn [bindO]. rewrite IH by (intros; apply Hl; simpl; auto). unfold out_name, use_pretty. cbn [andb bindO].
        assert (In t (map fst doc)) as Hk by (eapply Permutation_in; [apply Permutation_sym; exact P | auto]).
        apply in_map_iff in Hk as ([t' e] & E & Hk). cbn [fst] in E. subst t'. unfold dget_or. now rewrite (proj2 (dget_In_NoDup doc t e N) Hk).
      - now apply decl_ok_legal.
      - auto.
      - rewrite app_nil_r. unfold out_name, use_pretty. cbn [andb]. now rewrite map_id.
      - intros k t' []. }
    rewrite G by auto. cbn [bindO]. f_equal. generalize (map fst (f_decl f)). intros l. induction l as [| t l IH]; auto. cbn [map List.concat app]. now rewrite IH.
  Qed.

  Theorem json_back fl f d doc doc' : decl_ok (f_decl f) = true -> all_plain f -> good_flag (f_flag f) = true -> params_shape f ->
    (forall t ts, In (t, ts) (plain_schema f) -> defaults_on_data ts (defaults_of (f_defaults f) t)) ->
    (forall t ts r, In (t, ts) (plain_schema f) -> In r (d t) -> row_ok f t ts r) ->
    write_json f d = Ret doc -> Permutation doc' doc ->
    (forall t rows k, In (t, JRows rows) doc -> gentle settle (column rows k)) ->
    exists d', create_json fl f doc' = Ret d' /\ forall t ts, In (t, ts) (plain_schema f) -> Forall2 (Forall2 alike) (d t) (d' t).
  Proof.
    intros Hd Hg Gf Hp Hdv Hr Ew Pm Hs. pose proof (plain_wf f Hd) as W. destruct (written f d doc Ew) as (D1 & D2 & D3).
    assert (NoDup (map fst (f_decl f))) as Nd by (apply legal_NoDup; now apply decl_ok_legal).
    assert (NoDup (map fst doc')) as N' by (eapply Permutation_NoDup; [apply Permutation_map; apply Permutation_sym; exact Pm | now rewrite D1]).
    assert (forall t e, In (t, e) doc' <-> In (t, e) doc) as Dd.
    { intros t e. split; apply Permutation_in; auto. now apply Permutation_sym. }
    unfold PanIO.create_json. rewrite sources; auto; [| rewrite <- D1; now apply Permutation_map].
    cbn [bindO].
    assert (forallb (fun ke : string * jentry => match snd ke with JRows _ => true | _ => false end) doc' = true) as ->.
    { apply forallb_forall. intros [t e] H. apply Dd in H. destruct (D2 _ _ H) as (rows & ->). reflexivity. }
    set (inputs := flat_map _ _).
    assert (forall t, In t (map fst (f_decl f)) -> exists ts, In (t, ts) (plain_schema f)) as Hts.
    { intros t H. apply in_map_iff in H as ([t' [| ts]] & E & H); cbn [fst] in E; subst t'; [now destruct (Hg t) | exists ts; now apply in_plain]. }
    assert (forall t ts, In (t, ts) (plain_schema f) -> exists w, pan_write f t (tfields ts) (d t) = Ret w /\ dget_or String.eqb doc' t JOther = JRows (map (map json_fix) w)) as Hent.
    { intros t ts H. apply in_plain in H. destruct (D3 _ _ H) as (w & E1 & E2). exists w. split; auto. apply Dd in E2. unfold dget_or. now rewrite (proj2 (dget_In_NoDup doc' t _ N') E2). }
    assert (inputs = map (fun t => (t, match dget_or String.eqb doc' t JOther with JRows rows => PRows (width rows) rows | _ => PText "" end)) (map fst (f_decl f))) as Ei.
    { unfold inputs. clear inputs. assert (forall l, (forall t, In t l -> In t (map fst (f_decl f))) ->
        flat_map (fun te : string * jentry => match snd te with JRows rows => [(fst te, PRows (width rows) rows)] | _ => [] end)
          (filter (fun te : string * jentry => match table_of f (fst te) with Some _ => true | None => false end) (map (fun t => (t, dget_or String.eqb doc' t JOther)) l)) =
        map (fun t => (t, match dget_or String.eqb doc' t JOther with JRows rows => PRows (width rows) rows | _ => PText "" end)) l) as G; [| apply G; auto].
      induction l as [| t l IH]; intros Hl; auto. cbn [map filter fst]. assert (In t (map fst (f_decl f))) as Ht by (apply Hl; simpl; auto).
      destruct (Hts t Ht) as (ts & Hin). destruct (Hent t ts Hin) as (w & _ & E). apply in_plain in Hin.
      unfold table_of at 1. rewrite (proj2 (dget_In_NoDup (f_decl f) t _ Nd) Hin). cbn [flat_map snd fst]. rewrite E. cbn [app]. f_equal. apply IH. intros; apply Hl; simpl; auto. }
    rewrite Ei. clear Ei inputs. set (inputs := map _ (map fst (f_decl f))).
    assert (map fst inputs = map fst (f_decl f)) as En by (unfold inputs; rewrite map_map; cbn [fst]; now rewrite map_id).
    assert (forall t ts w, In (t, ts) (plain_schema f) -> pan_write f t (tfields ts) (d t) = Ret w -> (forall r, In r (map (map json_fix) w) -> List.length r = List.length (tfields ts)) /\
              In (t, JRows (map (map json_fix) w)) doc) as Hlen.
    { intros t ts w Hin E. split.
      - intros r H. apply in_map_iff in H as (r0 & <- & H). rewrite map_length.
        assert (PanIOFacts.rect (tfields ts) (d t)) as R by (intros r H'; now apply (Hr t ts r Hin H')).
        destruct (string_dec t "parameters") as [-> | Hne].
        + rewrite pan_params_write in E by auto. injection E as <-. destruct (has_params f); [| now apply R]. apply in_map_iff in H as (r1 & <- & H). apply mapf_length. now apply R.
        + destruct (pan_write_eq f t (tfields ts) (d t) w Hne Gf (proj2 W _ _ Hin) R E) as (bs & _ & ->). apply in_map_iff in H as (r1 & <- & H). apply mapf_length. now apply R.
      - apply in_plain in Hin. destruct (D3 _ _ Hin) as (w' & E1 & E2). congruence. }
    assert (forall t ts a, In (t, ts) (plain_schema f) -> In (t, a) inputs -> exists w, pan_write f t (tfields ts) (d t) = Ret w /\ a = PRows (width (map (map json_fix) w)) (map (map json_fix) w)) as Hin1.
    { intros t ts a Hin Ha. unfold inputs in Ha. apply in_map_iff in Ha as (t' & Et & Ha). injection Et as -> <-. destruct (Hent t ts Hin) as (w & E1 & E2). exists w. split; auto. now rewrite E2. }
    unfold PanIO.clean. pose proof (pan_dat_tables settle (plain_schema f) (f_defaults f) inputs W) as P. rewrite En in P. specialize (P Nd).
    assert (forall t ts w, In (t, ts) (plain_schema f) -> pan_write f t (tfields ts) (d t) = Ret w -> map (map json_fix) w <> [] ->
      pan_table settle (f_defaults f) t ts (PRows (width (map (map json_fix) w)) (map (map json_fix) w)) =
        Some (mkFr [] (map CName (tfields ts)) (map (fun r => ([], r)) (settled settle (List.length (tfields ts)) (map (map json_fix) w))))) as Hpt.
    { intros t ts w Hin E Hne. destruct (Hlen t ts w Hin E) as [L _]. rewrite (pan_rows settle (f_defaults f) t ts); [| apply (plain_fields f t ts Hd Hin) | now apply Hdv].
      rewrite (width_all (List.length (tfields ts))) by auto. rewrite Nat.leb_refl. now rewrite Nat.sub_diag, app_nil_r. }
    destruct (pan_dat settle (plain_schema f) (f_defaults f) inputs) as [dd |] eqn:Ep.
    - assert (forall t ts w, In (t, ts) (plain_schema f) -> pan_write f t (tfields ts) (d t) = Ret w -> Forall2 (Forall2 alike) (map (map json_fix) w) (pick ts (dd t))) as Hpick.
      { intros t ts w Hin E. destruct (P t ts Hin) as [P1 P2]. assert (In (t, PRows (width (map (map json_fix) w)) (map (map json_fix) w)) inputs) as Ha.
        { unfold inputs. apply in_map_iff. exists t. destruct (Hent t ts Hin) as (w' & E1 & E2). rewrite E2. assert (w' = w) as -> by congruence. split; auto. apply in_plain in Hin. now apply (in_map fst) in Hin. }
        destruct (map (map json_fix) w) as [| r0 l0] eqn:El.
        - rewrite P2; [constructor |]. intros a Ha'. destruct (Hin1 t ts a Hin Ha') as (w' & E1 & ->). assert (w' = w) as -> by congruence. now rewrite El.
        - rewrite <- El in *. assert (map (map json_fix) w <> []) as Hne by (rewrite El; discriminate).
          specialize (P1 _ Ha). rewrite (Hpt t ts w Hin E Hne) in P1.
          assert (falsy (PRows (width (map (map json_fix) w)) (map (map json_fix) w)) = false) as Hf by (cbn [falsy]; now rewrite El).
          specialize (P1 Hf). injection P1 as P1. rewrite <- P1. destruct (Hlen t ts w Hin E) as [L Hdoc].
          assert (pick ts (mkFr [] (map CName (tfields ts)) (map (fun r => ([], r)) (settled settle (List.length (tfields ts)) (map (map json_fix) w)))) =
                  settled settle (List.length (tfields ts)) (map (map json_fix) w)) as ->.
          { unfold pick. cbn [fr_rows fr_cols]. rewrite map_map. rewrite <- (map_id (settled settle (List.length (tfields ts)) (map (map json_fix) w))) at 2. apply map_ext_in. intros r Hr0. cbn [snd].
            pose proof (settled_lengths settle _ _ _ Hr0) as Lr. clear - Lr W Hin. pose proof (proj2 W _ _ Hin) as N. unfold wf_tschema in N. apply (list_nth_ext VNone); [now rewrite map_length |].
            intros i Hi. rewrite map_length in Hi. rewrite (nth_indep _ VNone ((fun x => match cell_of (map CName (tfields ts)) r x with Some v => v | None => VNone end) "")) by (now rewrite map_length).
            rewrite (map_nth (fun x => match cell_of (map CName (tfields ts)) r x with Some v => v | None => VNone end) (tfields ts) "" i). assert (cell_of (map CName (tfields ts)) r (nth i (tfields ts) "") = Some (nth i r VNone)) as ->; auto.
            apply cell_of_nth; [apply FinFun.Injective_map_NoDup; auto; intros a b X; congruence | now rewrite map_length |].
            exists i. split; [erewrite map_nth_error; [reflexivity |]; now apply nth_error_nth' | apply nth_error_nth'; unfold row in *; lia]. }
          apply settled_alike; auto. intros k. eapply Hs; eauto. }
      assert (forall l, (forall x, In x l -> In x (plain_schema f)) -> exists L,
         mapO (fun tts => bindO (post_table true f (fst tts) (tfields (snd tts)) (pick (snd tts) (dd (fst tts)))) (fun l => Ret (fst tts, l))) l = Ret L) as Htot.
      { intros l Hl. apply mapO_total. intros [t ts] Hi. cbn [fst snd]. apply Hl in Hi. destruct (Hent t ts Hi) as (w & E & _).
        destruct (table_back f t ts (d t) w (pick ts (dd t)) (proj2 W _ _ Hi) Gf) as (l' & El & _); auto.
        - intros -> Hh. destruct (Hp Hh) as (k & v & Hk). exists k, v. eapply pair_fst_inj; eauto. apply W.
        - rewrite El. simpl. eauto. }
      destruct (Htot (plain_schema f) (fun _ H => H)) as (L & EL). rewrite EL. eexists. split; [reflexivity |]. intros t ts Hin.
      pose proof (tables_ret (fun tts => post_table true f (fst tts) (tfields (snd tts)) (pick (snd tts) (dd (fst tts)))) _ L t ts [] (proj1 W) EL Hin) as Et. cbn [fst snd] in Et.
      destruct (Hent t ts Hin) as (w & E & _).
      destruct (table_back f t ts (d t) w (pick ts (dd t)) (proj2 W _ _ Hin) Gf) as (l' & El & Fl); auto.
      + intros -> Hh. destruct (Hp Hh) as (k & v & Hk). exists k, v. eapply pair_fst_inj; eauto. apply W.
      + congruence.
    - exfalso. destruct P as (t & a & Ha & Hf & [P | (ts & Hin & P)]).
      + assert (In t (map fst (f_decl f))) as Ht by (rewrite <- En; now apply (in_map fst) in Ha). destruct (Hts t Ht) as (ts & Hin). apply P. now apply (in_map fst) in Hin.
      + destruct (Hin1 t ts a Hin Ha) as (w & E & ->). rewrite (Hpt t ts w Hin E) in P; [discriminate |]. intros X. rewrite X in Hf. discriminate.
  Qed.
End Trip.
