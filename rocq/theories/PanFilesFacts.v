(** * Facts: PanDat objects written to files and read back: cells and tables. *)
From Coq Require Import ZArith Bool List String Ascii Arith Lia Permutation.
From Verif Require Import PyVal PyValFacts PyDict PyDictFacts ListFacts PyStr TypeDict TypeDictFacts Data FindTypes FindTypesFacts FK Obj ObjFacts ObjMore
  Factory FactoryFacts GraphFacts InfIO InfIOFacts PanIOFacts Params ParamsFacts Names NamesFacts Utils UtilsFacts Json ObjRows TripFacts CsvMore Frames FramesFacts FramesPan PanIO PanRead PanJson PanFiles.
Import ListNotations.
Local Open Scope string_scope.
Local Open Scope list_scope.

(** The fields that are to be read as text: those for text and nothing else, and those of the parameters. *)
Definition text_field (f : factory) (t x : string) : Prop :=
  (exists dt, field_type f t x = Some dt /\ datetime dt = false /\ number_allowed dt = false /\ strings_allowed dt <> SList []) \/
  (t = "parameters" /\ has_params f = true).

Lemma text_only_iff dt : text_only dt = true <-> datetime dt = false /\ number_allowed dt = false /\ strings_allowed dt <> SList [].
Proof.
  unfold text_only. rewrite !andb_true_iff, !negb_true_iff. split.
  - intros [[A B] C]. split; auto. split; auto. intros E. rewrite E in C. discriminate.
  - intros (A & B & C). split; auto. destruct (strings_allowed dt) as [| [| s l]]; auto.
Qed.

Lemma read_as_text_iff f t ts x : decl_ok (f_decl f) = true -> params_shape f -> In (t, ts) (plain_schema f) -> In x (tfields ts) ->
  read_as_text f t x = true <-> text_field f t x.
Proof.
  intros Hd Hp Hin Hx. unfold read_as_text, text_field. rewrite orb_true_iff.
  assert ((exists dt, field_type f t x = Some dt /\ datetime dt = false /\ number_allowed dt = false /\ strings_allowed dt <> SList []) <->
    match field_type f t x with Some dt => text_only dt | None => false end = true) as ->.
  { destruct (field_type f t x) as [dt |].
    - rewrite text_only_iff. split; [intros (dt' & E & H); injection E as <-; auto | eauto].
    - split; [intros (dt & E & _); discriminate | discriminate]. }
  assert (String.eqb t "parameters" && has_params f && match table_of f t with Some ts => mem_str x (firstn 1 (tpk ts) ++ firstn 1 (tdf ts)) | None => false end = true <->
    t = "parameters" /\ has_params f = true) as ->; [| reflexivity].
  rewrite !andb_true_iff, String.eqb_eq. split; [tauto |]. intros [-> Hh]. split; auto. destruct (Hp Hh) as (k & v & Hk).
  assert (ts = mkT [k] [v]) as -> by (eapply pair_fst_inj; eauto; apply (plain_wf f Hd)).
  apply in_plain in Hk. unfold table_of. rewrite (proj2 (dget_In_NoDup (f_decl f) "parameters" _ (legal_NoDup _ (decl_ok_legal _ Hd))) Hk).
  cbn [tpk tdf firstn app]. now apply mem_str_iff.
Qed.

(** ** Cells *)

Section Cells.
  Variable date_of : value -> option Z.
  Variable float_of : value -> option value.
  Variable str_of : value -> string.
  Variable show_date : Z -> string.
  Variable show_num : num -> string.

  Notation is_date := (is_date date_of).
  Notation pan_write := (pan_write date_of).
  Notation pan_read_cell := (pan_read_cell date_of float_of).
  Notation post_cell := (post_cell date_of float_of).
  Notation post_table := (post_table date_of float_of str_of).
  Notation kept := (kept date_of float_of).
  Notation fix_value := (fix_value date_of float_of str_of).

  (** A cell that pandas has written and read: it is the same, None and NaN apart, or a date became a text, or, in a
      column read as text, a number did. *)
  Definition came (text : bool) (v w : value) : Prop :=
    alike v w \/ (exists z, v = VDate z /\ w = VStr (show_date z)) \/ (text = true /\ exists n, v = VNum n /\ w = VStr (show_num n)).

  (** Cells that survive this: a date in a field for dates, or a cell that reading leaves alone; no numbers in fields
      for text; within the flag, or valid when nulls stand for infinity; for json no text "none" where text can be null. *)
  Definition file_survives (json : bool) (f : factory) (t x : string) (v : value) : Prop :=
    match v with
    | VDate z => exists dt, field_type f t x = Some dt /\ datetime dt = true /\ date_of (VStr (show_date z)) = Some z
    | VNum _ => kept f t x v /\ ~ text_field f t x
    | _ => kept f t x v
    end /\
    (forall m n, f_flag f = VNum m -> v = VNum n -> n = PInf \/ n = NInf \/ within m n) /\
    (f_flag f = VNone -> forall dt, field_type f t x = Some dt -> valid_data is_date dt v = true) /\
    (json = true -> none_text v = true -> forall dt, field_type f t x = Some dt -> text_only dt = true -> nullable dt = false).

  Lemma post_file json f b t x v : (json = true -> forall dt, field_type f t x = Some dt -> text_only dt = true -> none_text (pan_read_cell f b t x v) = true -> nullable dt = false) ->
    post_cell json f b t x v = pan_read_cell f b t x v.
  Proof.
    intros H. unfold PanIO.post_cell. set (w := pan_read_cell f b t x v) in *. destruct (field_type f t x) as [dt |]; auto.
    destruct json; auto. destruct (text_only dt) eqn:A; simpl; auto. destruct (nullable dt) eqn:B; auto. destruct (none_text w) eqn:C; auto. simpl. rewrite (H eq_refl dt) in B; auto. discriminate.
  Qed.

  Lemma came_value text v w : came text v w -> is_null v = false -> (forall z, v <> VDate z) -> (text = true -> forall n, v <> VNum n) -> w = v.
  Proof.
    intros [H | [(z & E & _) | (Et & n & E & _)]] Hn Hz Ht.
    - now apply alike_value.
    - now destruct (Hz z).
    - now destruct (Ht Et n).
  Qed.

  Lemma came_null text v w : came text v w -> is_null v = true -> is_null w = true.
  Proof. intros [H | [(z & -> & _) | (Et & n & -> & _)]] Hn; try discriminate. eapply alike_null; eauto. Qed.

  Lemma file_cell_back json f t fs bs text x v c : good_flag (f_flag f) = true -> biases date_of f t fs = Ret bs -> In x fs -> file_survives json f t x v ->
    (text = true -> text_field f t x) ->
    came text (put_cell f bs x v) c -> alike v (post_cell json f (bs x) t x (unflag (f_flag f) c)).
  Proof.
    intros G Hb Hx (K & Hn & Hv & Ht) Htx Hc.
    assert (forall b, bs x = Some b -> f_flag f = VNone /\ exists dt, field_type f t x = Some dt /\ valid_data is_date dt VNone = false) as Hbias.
    { intros b Eb. destruct (biases_ret date_of _ _ _ _ _ Hb Hx) as [[F B] | [F B]]; [| congruence]. split; auto.
      rewrite Eb in B. destruct (bias_some _ _ _ _ _ B) as (dt & Hdt & _ & Hnull & _). eauto. }
    destruct (is_null v) eqn:En.
    - assert (is_null (put_cell f bs x v) = true) as E.
      { unfold put_cell. destruct (is_bias_inf (bs x) v); [reflexivity |]. rewrite flagged_notnum by (intros n ->; discriminate). exact En. }
      pose proof (came_null _ _ _ Hc E) as Nc. rewrite unflag_null by auto. right. split; auto.
      assert (bs x = None) as B.
      { destruct (bs x) as [b |] eqn:B; auto. destruct (Hbias b eq_refl) as (F & dt & Hdt & X). specialize (Hv F dt Hdt). destruct v; try discriminate; cbn in *; congruence. }
      rewrite B. pose proof (read_null date_of float_of f None t x c Nc) as Hr. cbv beta iota in Hr. rewrite post_file; auto. intros _ dt _ _ X. exfalso. destruct (pan_read_cell f None t x c); discriminate.
    - destruct (is_bias_inf (bs x) v) eqn:Eb.
      + unfold put_cell in Hc. rewrite Eb in Hc. pose proof (came_null _ _ _ Hc eq_refl) as Nc. rewrite unflag_null by auto.
        destruct (bs x) as [b |] eqn:B; [| discriminate]. cbn [is_bias_inf] in Eb. apply value_eqb_true in Eb. subst v. left.
        pose proof (read_null date_of float_of f (Some b) t x c Nc) as Hr. cbv beta iota in Hr. rewrite post_file; auto. intros _ dt _ _ X. rewrite Hr in X. discriminate.
      + unfold put_cell in Hc. rewrite Eb in Hc. destruct v as [| | b | n | s | z]; try discriminate.
        * (* bool *) rewrite flagged_notnum in Hc by discriminate. apply came_value in Hc; try discriminate; [| reflexivity]. subst c.
          rewrite unflag_notnum by discriminate. left. assert (pan_read_cell f (bs x) t x (VBool b) = VBool b) as Hr.
          { destruct (bs x); [now apply pan_read_cell_bias | now apply pan_read_cell_kept]. }
          rewrite post_file; auto. intros _ dt _ _ X. rewrite Hr in X. discriminate.
        * (* number *) destruct K as [K Hno]. assert (text = false) as Et by (destruct text; auto; now destruct (Hno (Htx eq_refl))). subst text.
          assert (forall m, came false (VNum m) c -> c = VNum m) as Hcn by (intros m H; apply came_value in H; try discriminate; auto).
          assert (unflag (f_flag f) c = VNum n) as Hu.
          { destruct (f_flag f) as [| | ? | m | ? | ?] eqn:F; try discriminate;
              try (rewrite unflag_other by discriminate; apply Hcn; exact Hc).
            destruct (flag_pos m G) as (z & -> & Hz). destruct (Hn _ n eq_refl eq_refl) as [-> | [-> | W]].
            - rewrite flagged_pinf in Hc by exact Hz. apply Hcn in Hc. subst c. now apply unflag_top.
            - rewrite flagged_ninf in Hc by exact Hz. apply Hcn in Hc. subst c. now apply unflag_bottom.
            - rewrite flagged_within in Hc by exact W. apply Hcn in Hc. subst c. now apply unflag_within. }
          rewrite Hu. left. assert (pan_read_cell f (bs x) t x (VNum n) = VNum n) as Hr.
          { destruct (bs x); [now apply pan_read_cell_bias | now apply pan_read_cell_kept]. }
          rewrite post_file; auto. intros _ dt _ _ X. rewrite Hr in X. discriminate.
        * (* text *) rewrite flagged_notnum in Hc by discriminate. apply came_value in Hc; try discriminate; [| reflexivity]. subst c.
          rewrite unflag_notnum by discriminate. left. assert (pan_read_cell f (bs x) t x (VStr s) = VStr s) as Hr.
          { destruct (bs x); [now apply pan_read_cell_bias | now apply pan_read_cell_kept]. }
          rewrite post_file; auto. intros J dt D1 D2 X. rewrite Hr in X. eapply Ht; eauto.
        * (* date *) rewrite flagged_notnum in Hc by discriminate. left. destruct K as (dt & Hdt & Hd & Hs).
          assert (pan_read_cell f (bs x) t x (unflag (f_flag f) c) = VDate z) as Hr.
          { assert (c = VDate z \/ c = VStr (show_date z)) as [-> | ->].
            { destruct Hc as [Hc | [(z' & E & ->) | (_ & n & E & _)]]; [left; now apply alike_value in Hc | injection E as <-; auto | discriminate]. }
            - rewrite unflag_notnum by discriminate. unfold InfIO.pan_read_cell, munge. rewrite Hdt, Hd. cbn [negb andb is_null]. destruct (bs x); reflexivity.
            - rewrite unflag_notnum by discriminate. unfold InfIO.pan_read_cell, munge. rewrite Hdt, Hd. cbn [negb andb is_null]. destruct (bs x); cbn [adjust]; rewrite Hs; reflexivity. }
          rewrite post_file; auto. intros _ dt' _ _ X. rewrite Hr in X. discriminate.
  Qed.

  (** ** Parameters *)

  Definition file_param_survives (json : bool) (f : factory) (k v : value) : Prop :=
    (forall dt, param_type f k = Some dt -> valid_data is_date dt v = true) /\
    match v with
    | VDate z => exists dt, param_type f k = Some dt /\ datetime dt = true /\ date_of (VStr (show_date z)) = Some z
    | VStr s =>
        (forall dt, param_type f k = Some dt -> datetime dt = true -> date_of v = None) /\
        (json = true -> none_text v = true -> exists dt, param_type f k = Some dt /\ valid_data is_date dt VNone = false) /\
        ((forall dt, param_type f k = Some dt -> number_allowed dt = true) -> float_of v = None)
    | VNone | VNaN => True
    | VNum n => (forall dt, param_type f k = Some dt -> number_allowed dt = true /\ datetime dt = false) /\ to_float float_of v = Some v /\
        float_of (VStr (show_num n)) = Some v /\ none_text (VStr (show_num n)) = false
    | VBool _ => (forall dt, param_type f k = Some dt -> number_allowed dt = true) -> to_float float_of v = Some v
    end.

  Lemma file_value_back json f k text v c : file_param_survives json f k v -> came text (if is_null v then VNone else v) c -> alike v (fix_value json f k c).
  Proof.
    intros [Hv H] Hc. unfold PanIO.fix_value.
    assert (is_null v = true -> alike v
      match match param_type f k, c with Some t, VStr _ => if datetime t then match adjust date_of c with Some d => if match param_type f k with Some t0 => valid_data is_date t0 (VDate d) | None => true end then Some d else None | None => None end else None | _, _ => None end with
      | Some d => VDate d
      | None => if json && none_text c && match param_type f k with Some t => valid_data is_date t VNone | None => true end then VNone
                else if match param_type f k with Some t => negb (number_allowed t) | None => false end
                     then if negb match param_type f k with Some t => valid_data is_date t c | None => true end && match param_type f k with Some t => valid_data is_date t (VStr (str_of c)) | None => true end then VStr (str_of c) else c
                     else match to_float float_of c with Some w => w | None => c end
      end) as Hnull.
    { intros En. rewrite En in Hc. pose proof (came_null _ _ _ Hc eq_refl) as Nc. assert (alike v c) as Ac by now right.
      assert (none_text c = false) as -> by (destruct c; try discriminate; auto).
      assert (match param_type f k, c with Some t, VStr _ => if datetime t then match adjust date_of c with Some d => if match param_type f k with Some t0 => valid_data is_date t0 (VDate d) | None => true end then Some d else None | None => None end else None | _, _ => None end = None) as ->
        by (destruct (param_type f k); destruct c; try discriminate; auto).
      rewrite andb_false_r. cbn [andb]. destruct (param_type f k) as [dt |] eqn:Et.
      + destruct (number_allowed dt); cbn [negb].
        * destruct c; try discriminate; cbn [to_float]; auto.
        * specialize (Hv dt eq_refl). assert (valid_data is_date dt c = true) as -> by (destruct v, c; try discriminate; auto). cbn [negb andb]. auto.
      + destruct c; try discriminate; cbn [to_float]; auto. }
    destruct v as [| | b | n | s | z].
    - now apply Hnull.
    - now apply Hnull.
    - clear Hnull. apply came_value in Hc; try discriminate; [| reflexivity]. subst c. left. cbn [is_null none_text andb]. rewrite andb_false_r. cbn [andb].
      assert (match param_type f k with Some _ | _ => @None Z end = None) as E by (destruct (param_type f k); auto). rewrite E. clear E.
      destruct (param_type f k) as [dt |] eqn:Et.
      + destruct (number_allowed dt) eqn:Na; cbn [negb].
        * rewrite H; auto. intros dt' X. congruence.
        * now rewrite (Hv dt eq_refl).
      + rewrite H; auto. discriminate.
    - clear Hnull. cbn [is_null] in Hc. destruct H as (H1 & H2 & H3 & H4). left. assert (c = VNum n \/ c = VStr (show_num n)) as [-> | ->].
      { destruct Hc as [Hc | [(z' & E & _) | (_ & n' & E & ->)]]; [left; now apply alike_value in Hc | discriminate | injection E as <-; auto]. }
      + cbn [none_text]. rewrite andb_false_r. cbn [andb].
        assert (match param_type f k with Some _ | _ => @None Z end = None) as E by (destruct (param_type f k); auto). rewrite E. clear E.
        destruct (param_type f k) as [dt |] eqn:Et; [destruct (H1 dt eq_refl) as [-> _]; cbn [negb] |]; now rewrite H2.
      + rewrite H4, andb_false_r. cbn [andb]. destruct (param_type f k) as [dt |] eqn:Et; [destruct (H1 dt eq_refl) as [-> ->]; cbn [negb] |]; cbn [to_float]; now rewrite H3.
    - clear Hnull. cbn [is_null] in Hc. apply came_value in Hc; try discriminate; [| reflexivity]. subst c. left. destruct H as (H1 & H2 & H3).
      assert (match param_type f k with Some t => if datetime t then match adjust date_of (VStr s) with Some d => if match param_type f k with Some t0 => valid_data is_date t0 (VDate d) | None => true end then Some d else None | None => None end else None | None => None end = None) as ->.
      { destruct (param_type f k) as [dt |] eqn:Et; auto. destruct (datetime dt) eqn:Ed; auto. cbn [adjust]. now rewrite (H1 dt eq_refl Ed). }
      assert (json && none_text (VStr s) && match param_type f k with Some t => valid_data is_date t VNone | None => true end = false) as ->.
      { destruct json; auto. cbn [andb]. destruct (none_text (VStr s)) eqn:Ex; auto. destruct (H2 eq_refl eq_refl) as (dt & -> & E). now rewrite E. }
      destruct (param_type f k) as [dt |] eqn:Et.
      + destruct (number_allowed dt) eqn:Na; cbn [negb].
        * cbn [to_float]. rewrite H3; auto. intros dt' X. congruence.
        * now rewrite (Hv dt eq_refl).
      + cbn [to_float]. rewrite H3; auto. discriminate.
    - clear Hnull. cbn [is_null] in Hc. left. destruct H as (dt & Hdt & Hd & Hs). rewrite Hdt, Hd. 
      assert (c = VDate z \/ c = VStr (show_date z)) as [-> | ->].
      { destruct Hc as [Hc | [(z' & E & ->) | (_ & n & E & _)]]; [left; now apply alike_value in Hc | injection E as <-; auto | discriminate]. }
      + cbn [none_text]. rewrite andb_false_r. cbn [andb]. rewrite (Hv dt Hdt). cbn [negb andb]. destruct (negb (number_allowed dt)); reflexivity.
      + cbn [adjust]. rewrite Hs. now rewrite (Hv dt Hdt).
  Qed.

  (** ** Tables *)

  Definition file_row_ok (json : bool) (f : factory) (t : string) (ts : tschema) (r : list value) : Prop :=
    List.length r = List.length (tfields ts) /\
    if String.eqb t "parameters"
    then if has_params f then exists s v, r = [VStr s; v] /\ file_param_survives json f (VStr s) v
         else forall x v, In (x, v) (combine (tfields ts) r) -> match v with VDate _ => False | VNum _ => ~ text_field f t x | _ => True end
    else forall x v, In (x, v) (combine (tfields ts) r) -> file_survives json f t x v.

  (** The cells of a row after pandas. *)
  Definition came_row (text : string -> bool) (fs : list string) (r r' : list value) : Prop :=
    Forall2 (fun xv w => came (text (fst xv)) (snd xv) w) (combine fs r) r'.

  Lemma rows_came : forall (P : string -> value -> Prop) (Q : value -> value -> Prop) text fs h g (l m : list (list value)), 
    (forall x v c, In x fs -> P x v -> came (text x) (g x v) c -> Q v (h x c)) ->
    (forall r x v, In r l -> In (x, v) (combine fs r) -> P x v) ->
    PanIOFacts.rect fs l -> Forall2 (came_row text fs) (map (mapf fs g) l) m ->
    Forall2 (Forall2 Q) l (map (mapf fs h) m).
  Proof.
    intros P Q text fs h g l m H HP R F. revert m F. induction l as [| r l IH]; intros m F; inversion F as [| ? c ? m' Fr Fl]; subst; cbn [map]; constructor.
    - assert (forall xs (r c : list value), (forall x, In x xs -> In x fs) -> List.length r = List.length xs -> (forall x v, In (x, v) (combine xs r) -> P x v) ->
        came_row text xs (mapf xs g r) c -> Forall2 Q r (mapf xs h c)) as G.
      { clear - H. unfold came_row. induction xs as [| x xs IH]; intros [| v r] c Hs L HP F; try discriminate; unfold mapf in F; simpl in F; inversion F as [| ? w ? c' Fa Fb]; subst; unfold mapf; simpl; constructor.
        - apply H; auto; [apply Hs; simpl; auto | apply HP; simpl; auto].
        - apply IH; auto. + intros; apply Hs; simpl; auto. + intros; apply HP; simpl; auto. }
      apply G; auto. + apply R. simpl. auto. + intros x v Hx. apply (HP r); simpl; auto.
    - apply IH; auto. + intros r' x v Hr. apply HP. simpl. auto. + intros r' Hr. apply R. simpl. auto.
  Qed.

  Lemma came_rect text fs g l m : PanIOFacts.rect fs l -> Forall2 (came_row text fs) (map (mapf fs g) l) m -> PanIOFacts.rect fs m.
  Proof.
    intros R F. revert m F. induction l as [| r l IH]; intros m F; inversion F as [| ? c ? m' Fr Fl]; subst; [intros r' [] |]; intros r' [<- | H].
    - apply FramesFacts.Forall2_length in Fr. rewrite combine_length, mapf_length in Fr; [lia |]. apply R. simpl. auto.
    - apply (IH (fun r H => R r (or_intror H)) m' Fl r' H).
  Qed.

  Lemma file_table_back json f t ts text l w m : wf_tschema ts -> good_flag (f_flag f) = true -> (t = "parameters" -> has_params f = true -> exists k v, ts = mkT [k] [v]) ->
    (forall r, In r l -> file_row_ok json f t ts r) -> (forall x, In x (tfields ts) -> text x = true -> text_field f t x) ->
    pan_write f t (tfields ts) l = Ret w -> Forall2 (came_row text (tfields ts)) w m ->
    exists l', post_table json f t (tfields ts) m = Ret l' /\ Forall2 (Forall2 alike) l l'.
  Proof.
    intros W G Hp Hr Htx Ew F. assert (PanIOFacts.rect (tfields ts) l) as R by (intros r H; now apply Hr).
    destruct (string_dec t "parameters") as [-> | Hne].
    - rewrite pan_params_write in Ew by auto. injection Ew as <-. unfold PanIO.post_table. rewrite String.eqb_refl. unfold file_row_ok in Hr. rewrite String.eqb_refl in Hr.
      destruct (has_params f) eqn:Eh.
      + destruct (Hp eq_refl eq_refl) as (k & v & ->). cbn [tfields tpk tdf app] in *. clear Hp R. revert m F. induction l as [| r l IH]; intros m F; inversion F as [| ? c ? m' Fr Fl]; subst.
        * exists []. split; [reflexivity | constructor].
        * destruct (Hr r (or_introl eq_refl)) as (_ & s & x & -> & Hs).
          destruct (IH (fun r' H => Hr r' (or_intror H)) m' Fl) as (l' & El & Fl').
          unfold came_row, mapf in Fr. cbn [combine map fst snd last] in Fr.
          assert (exists a b tx ty, c = [a; b] /\ came tx (VStr s) a /\ came ty (if is_null x then VNone else x) b) as (a & b & tx & ty & -> & Ha & Hb).
          { assert (k <> v) as Hkv. { intros ->. unfold wf_tschema in W. cbn [tfields tpk tdf app] in W. inversion W as [| ? ? N1 N2]; subst. apply N1. simpl. auto. }
            apply String.eqb_neq in Hkv. rewrite Hkv in Fr. cbn [andb] in Fr. rewrite String.eqb_refl in Fr. cbn [andb] in Fr.
            inversion Fr as [| ? a ? r1 F1 F2]; subst. inversion F2 as [| ? b ? r2 F3 F4]; subst. inversion F4; subst. exists a, b, (text k), (text v). auto. }
          apply came_value in Ha; try discriminate; [| reflexivity]. subst a.
          exists ([VStr s; fix_value json f (VStr s) b] :: l'). split.
          -- cbn [mapO]. rewrite El. reflexivity.
          -- constructor; auto. constructor; [apply alike_refl |]. constructor; [| constructor]. eapply file_value_back; eauto.
      + exists m. split; auto. assert (Forall2 (came_row text (tfields ts)) (map (mapf (tfields ts) (fun _ v => v)) l) m) as F'.
        { erewrite map_ext_in; [rewrite map_id; exact F |]. intros r H. apply mapf_id; auto. }
        pose proof (came_rect _ _ _ _ _ R F') as Rm.
        rewrite <- (map_id m). erewrite <- map_ext_in; [eapply (rows_came (fun x v => match v with VDate _ => False | VNum _ => ~ text_field f "parameters" x | _ => True end) alike text) with (h := fun _ v => v); [| | exact R | exact F'] |].
        * intros x v c Hx Hv Hc. destruct Hc as [Hc | [(z & -> & _) | (Et & n & -> & _)]]; auto; [contradiction |]. now destruct (Hv (Htx x Hx Et)).
        * intros r x v H Hx. apply Hr in H as [_ H]. exact (H x v Hx).
        * intros r H. symmetry. cbv beta. symmetry. apply mapf_id; auto.
    - destruct (pan_write_eq date_of f t (tfields ts) l w Hne G W R Ew) as (bs & Eb & ->).
      pose proof (came_rect _ _ _ _ _ R F) as Rm.
      rewrite post_eq by auto. rewrite Eb. eexists. split; [reflexivity |].
      eapply (rows_came (file_survives json f t)); eauto.
      + cbv beta. intros x v c Hx Hs Hc. eapply file_cell_back; eauto.
      + intros r x v H Hx. apply Hr in H as [_ H]. apply par_neq in Hne. rewrite Hne in H. auto.
  Qed.

  (** ** DataFrames *)

  Lemma written_rect f t ts l w : wf_tschema ts -> good_flag (f_flag f) = true -> PanIOFacts.rect (tfields ts) l ->
    pan_write f t (tfields ts) l = Ret w -> PanIOFacts.rect (tfields ts) w.
  Proof.
    intros W G R E r H. destruct (string_dec t "parameters") as [-> | Hne].
    - rewrite pan_params_write in E by auto. injection E as <-. destruct (has_params f); [| now apply R]. apply in_map_iff in H as (r1 & <- & H). apply mapf_length. now apply R.
    - destruct (pan_write_eq date_of f t (tfields ts) l w Hne G W R E) as (bs & _ & ->). apply in_map_iff in H as (r1 & <- & H). apply mapf_length. now apply R.
  Qed.

  Lemma frame_of_rect ts l : wf_tschema ts -> PanIOFacts.rect (tfields ts) l -> FramesFacts.rect (frame_of ts l).
  Proof.
    intros W R. split; cbn [frame_of fr_cols fr_rows fr_index].
    - apply FinFun.Injective_map_NoDup; auto. intros a b X. congruence.
    - intros r H. apply in_map_iff in H as (r0 & <- & H). cbn [fst snd]. split; auto. rewrite map_length. now apply R.
  Qed.

  (** The DataFrames that were read hold the same columns, and rows with the cells as above. *)
  Definition came_frame (text : string -> bool) (ts : tschema) (w : list (list value)) (fr : frame) : Prop :=
    fr_index fr = [] /\ fr_cols fr = map CName (tfields ts) /\
    Forall2 (fun r r' => fst r' = [] /\ came_row text (tfields ts) r (snd r')) w (fr_rows fr).

  Variable settle : list value -> list value.

  Lemma files_back json fl f (d : string -> list (list value)) (text : string -> string -> bool) src : decl_ok (f_decl f) = true -> good_flag (f_flag f) = true -> params_shape f ->
    (forall t ts r, In (t, ts) (plain_schema f) -> In r (d t) -> file_row_ok json f t ts r) ->
    (forall t ts x, In (t, ts) (plain_schema f) -> In x (tfields ts) -> text t x = true -> text_field f t x) ->
    NoDup (map fst src) -> (forall t, In t (map fst src) <-> In t (map fst (plain_schema f))) ->
    (forall t ts fr, In (t, ts) (plain_schema f) -> In (t, fr) src -> exists w, pan_write f t (tfields ts) (d t) = Ret w /\ came_frame (text t) ts w fr) ->
    exists d', create_frames date_of float_of settle str_of json fl f src = Ret d' /\ forall t ts, In (t, ts) (plain_schema f) -> Forall2 (Forall2 alike) (d t) (d' t).
  Proof.
    intros Hd Gf Hp Hr Htx Ns Hs Hf. pose proof (plain_wf f Hd) as W.
    assert (forall t ts, In (t, ts) (plain_schema f) -> exists fr, In (t, fr) src) as Hfr.
    { intros t ts H. apply (in_map fst) in H. apply Hs in H. apply in_map_iff in H as ([t' fr] & E & H). cbn [fst] in E. subst t'. eauto. }
    assert (forall t fr, In (t, fr) src -> exists ts, In (t, ts) (plain_schema f)) as Hts.
    { intros t fr H. apply (in_map fst) in H. apply Hs in H. apply in_map_iff in H as ([t' ts] & E & H). cbn [fst] in E. subst t'. eauto. }
    assert (forall t ts fr, In (t, ts) (plain_schema f) -> In (t, fr) src -> FramesFacts.rect fr) as Hrect.
    { intros t ts fr Hin Hfr'. destruct (Hf t ts fr Hin Hfr') as (w & Ew & I & C & F). split.
      - rewrite C. apply FinFun.Injective_map_NoDup; [intros a b X; congruence | now apply W in Hin].
      - intros r H. rewrite I, C. destruct (Forall2_In_r _ _ _ _ F H) as (r0 & H0 & E & Fr). rewrite E. split; auto.
        apply FramesFacts.Forall2_length in Fr. rewrite combine_length in Fr. rewrite map_length.
        assert (List.length r0 = List.length (tfields ts)) as L; [| lia].
        eapply (written_rect f t ts (d t) w); eauto; [now apply W in Hin |]. intros r' H'. now apply (Hr t ts r' Hin H'). }
    assert (src_ok f src) as Hsrc.
    { split; auto. intros t fr H. destruct (Hts t fr H) as (ts & Hin). split; [now apply (in_map fst) in Hin |]. split; [eauto |]. now destruct (Hf t ts fr Hin H) as (w & _ & I & _). }
    destruct (frames_raw date_of float_of settle str_of json fl f src Hd Hsrc) as (raw & E & Hraw).
    { intros t ts fr Hfr' Hin. apply lacking_none. destruct (Hf t ts fr Hin Hfr') as (w & _ & _ & C & _).
      intros x Hx. pose proof (supply_spec fl (f_defaults f) t ts fr (proj2 W _ _ Hin) (Hrect t ts fr Hin Hfr')) as S. cbv zeta in S. apply S; auto. left. rewrite C. now apply in_map. }
    assert (forall t ts, In (t, ts) (plain_schema f) -> exists w l', pan_write f t (tfields ts) (d t) = Ret w /\ post_table json f t (tfields ts) (raw t) = Ret l' /\ Forall2 (Forall2 alike) (d t) l') as Hpost.
    { intros t ts Hin. destruct (Hfr t ts Hin) as (fr & Hi). destruct (Hf t ts fr Hin Hi) as (w & Ew & I & C & F). exists w. 
      assert (raw t = map snd (fr_rows fr)) as Er.
      { destruct (Hraw t ts Hin) as [H1 _]. specialize (H1 fr Hi). pose proof (Hrect t ts fr Hin Hi) as Rf. clear - H1 Rf C W Hin. revert H1. generalize (raw t).
        assert (forall l m, (forall r, In r l -> In r (fr_rows fr)) -> Forall2 (fun r row => Forall2 (given fl (f_defaults f) t fr r) (tfields ts) row) l m -> m = map snd l) as G; [| intros m; apply G; auto].
        induction l as [| r l IH]; intros m Hl F; inversion F as [| ? row ? m' Fr Fl]; subst; auto. cbn [map]. f_equal; [| apply IH; auto; intros; apply Hl; simpl; auto].
        assert (List.length (snd r) = List.length (tfields ts)) as L by (destruct Rf as [_ Rf]; destruct (Rf r (Hl r (or_introl eq_refl))) as [_ ->]; rewrite C; apply map_length).
        apply (list_nth_ext VNone); [apply FramesFacts.Forall2_length in Fr; congruence |]. intros i Hi. rewrite <- (FramesFacts.Forall2_length _ _ _ Fr) in Hi.
        apply (PanJson.Forall2_nth_iff _ "" VNone) in Fr as [_ Fr]. specialize (Fr i Hi). destruct Fr as [(j & J1 & J2) | (X & _)].
        - assert (j = i) as ->.
          { assert (NoDup (fr_cols fr)) as N by apply Rf. rewrite NoDup_nth_error in N. apply N; [apply nth_error_Some; congruence |]. rewrite J1, C. symmetry. erewrite map_nth_error; [reflexivity |]. now apply nth_error_nth'. }
          symmetry. now apply nth_error_nth.
        - exfalso. apply X. rewrite C. apply in_map. apply nth_In. exact Hi. }
      destruct (file_table_back json f t ts (text t) (d t) w (raw t) (proj2 W _ _ Hin) Gf) as (l' & El & Fl); auto.
      - intros -> Hh. destruct (Hp Hh) as (k & v & Hk). exists k, v. eapply pair_fst_inj; eauto. apply W.
      - intros x Hx. now apply (Htx t ts x Hin Hx).
      - rewrite Er. clear - F. induction F as [| r r' w m [_ Hr] _ IH]; constructor; auto.
      - eauto. }
    rewrite E. destruct (mapO_total (fun tts => bindO (post_table json f (fst tts) (tfields (snd tts)) (raw (fst tts))) (fun l => Ret (fst tts, l))) (plain_schema f)) as (L & EL).
    { intros [t ts] Hi. cbn [fst snd]. destruct (Hpost t ts Hi) as (w & l' & _ & El & _). rewrite El. simpl. eauto. }
    rewrite EL. eexists. split; [reflexivity |]. intros t ts Hin.
    pose proof (tables_ret (fun tts => post_table json f (fst tts) (tfields (snd tts)) (raw (fst tts))) _ L t ts [] (proj1 W) EL Hin) as Et. cbn [fst snd] in Et.
    destruct (Hpost t ts Hin) as (w & l' & _ & El & Fl). congruence.
  Qed.
End Cells.
