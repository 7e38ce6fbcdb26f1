(** * Facts: PanDat objects written to files and read back: whole files. *)
From Coq Require Import ZArith Bool List String Ascii Arith Lia Permutation.
From Verif Require Import PyVal PyValFacts PyDict PyDictFacts ListFacts PyStr TypeDict TypeDictFacts Data FindTypes FindTypesFacts FK Obj ObjFacts ObjMore
  Factory FactoryFacts GraphFacts InfIO InfIOFacts PanIOFacts Params ParamsFacts Names NamesFacts Utils UtilsFacts Json ObjRows TripFacts CsvMore Frames FramesFacts FramesPan PanIO PanRead PanJson PanMore PanFiles PanFilesFacts.
Import ListNotations.
Local Open Scope string_scope.
Local Open Scope list_scope.

(** What is asked of pandas: a DataFrame that is [readable] comes back, see [came_frame]. *)
Definition loads (show_date : Z -> string) (show_num : num -> string) (readable : (string -> bool) -> frame -> Prop) (load : (string -> bool) -> frame -> frame) : Prop :=
  forall text ts w, wf_tschema ts -> PanIOFacts.rect (tfields ts) w -> readable text (frame_of ts w) ->
    came_frame show_date show_num text ts w (load text (frame_of ts w)).

(** The files of the tables are [readable] when the columns read as text are those of [textf]. *)
Definition fit (readable : (string -> bool) -> frame -> Prop) (f : factory) (textf : string -> string -> Prop) (file : string -> option frame) : Prop :=
  forall t ts fr text, In (t, ts) (plain_schema f) -> file t = Some fr -> (forall x, In x (tfields ts) -> (text x = true <-> textf t x)) -> readable text fr.

Section Trip.
  Variable date_of : value -> option Z.
  Variable float_of : value -> option value.
  Variable settle : list value -> list value.
  Variable show_date : Z -> string.
  Variable show_num : num -> string.
  Variable str_of : value -> string.
  Variable readable : (string -> bool) -> frame -> Prop.
  Variable load : (string -> bool) -> frame -> frame.
  Hypothesis Hload : loads show_date show_num readable load.

  Notation frames_written := (frames_written date_of).
  Notation plain_frames := (plain_frames load).

  Lemma written_spec f d g w : decl_ok (f_decl f) = true -> frames_written f d g = Ret w ->
    (forall t ts, In (t, ts) (plain_schema f) -> exists l, pan_write date_of f t (tfields ts) (d t) = Ret l /\ w t = frame_of ts l) /\
    (forall t, In (t, Generic) (f_decl f) -> w t = g t).
  Proof.
    intros Hd H. unfold PanFiles.frames_written in H. apply bindO_ret in H as (L & EL & E). injection E as <-. apply mapO_Forall2 in EL.
    pose proof (legal_NoDup _ (decl_ok_legal _ Hd)) as N.
    assert (map fst L = map fst (f_decl f)) as Ek.
    { clear - EL. induction EL as [| [t [| ts]] y l m H _ IH]; auto; cbn [fst snd] in H; cbn [map fst]; rewrite IH; f_equal.
      - now injection H as <-.
      - apply bindO_ret in H as (c & _ & E). now injection E as <-. }
    assert (forall t td, In (t, td) (f_decl f) -> exists fr, In (t, fr) L /\ match td with
                           | Generic => Ret (t, g t)
                           | Fields ts => bindO (pan_write date_of f t (tfields ts) (d t)) (fun l => Ret (t, frame_of ts l))
                           end = Ret (t, fr)) as G.
    { intros t td Hin. destruct (Forall2_In_l _ _ _ _ EL Hin) as ([t' fr] & H1 & H2). cbn [fst snd] in H2. assert (t' = t) as ->.
      { destruct td; [now injection H2 | apply bindO_ret in H2 as (c & _ & E); now injection E]. }
      eauto. }
    assert (NoDup (map fst L)) as NL by (rewrite Ek; exact N).
    split.
    - intros t ts Hin. apply in_plain in Hin. destruct (G t _ Hin) as (fr & H1 & H2). apply bindO_ret in H2 as (l & El & E). injection E as <-. exists l. split; auto.
      unfold dget_or. now rewrite (proj2 (dget_In_NoDup L t _ NL) H1).
    - intros t Hin. destruct (G t _ Hin) as (fr & H1 & H2). injection H2 as <-. unfold dget_or. now rewrite (proj2 (dget_In_NoDup L t _ NL) H1).
  Qed.

  Lemma found_all {C} f (get : string -> outcome (option C)) c : (forall t, In t (map fst (f_decl f)) -> get t = Ret (Some (c t))) ->
    found f get = Ret (map (fun t => (t, c t)) (map fst (f_decl f))).
  Proof.
    intros H. unfold found. assert (mapO (fun t => bindO (get t) (fun o => Ret match o with Some c0 => [(t, c0)] | None => [] end)) (map fst (f_decl f)) = Ret (map (fun t => [(t, c t)]) (map fst (f_decl f)))) as ->.
    { apply mapO_Forall2. revert H. generalize (map fst (f_decl f)). intros l H. induction l as [| t l IH]; cbn [map]; constructor; [| apply IH; intros; apply H; simpl; auto]. rewrite H by (simpl; auto). reflexivity. }
    cbn [bindO]. f_equal. generalize (map fst (f_decl f)). intros l. induction l as [| t l IH]; auto. cbn [map List.concat app]. now rewrite IH.
  Qed.

  Lemma plain_frames_spec f dt (w : string -> frame) : decl_ok (f_decl f) = true ->
    let src := plain_frames f dt (map (fun t => (t, w t)) (map fst (f_decl f))) in
    NoDup (map fst src) /\ (forall t, In t (map fst src) <-> In t (map fst (plain_schema f))) /\
    forall t fr, In (t, fr) src -> fr = load (if dt then read_as_text f t else fun _ => false) (w t).
  Proof.
    intros Hd. cbv zeta. pose proof (legal_NoDup _ (decl_ok_legal _ Hd)) as N. unfold PanFiles.plain_frames.
    assert (forall t fr, In (t, fr) (flat_map (fun te => match table_of f (fst te) with Some _ => [(fst te, load (if dt then read_as_text f (fst te) else fun _ => false) (snd te))] | None => [] end) (map (fun t => (t, w t)) (map fst (f_decl f)))) <->
      In t (map fst (plain_schema f)) /\ fr = load (if dt then read_as_text f t else fun _ => false) (w t)) as M.
    { intros t fr. rewrite in_flat_map. split.
      - intros ([t' e] & H1 & H2). cbn [fst snd] in H2. apply in_map_iff in H1 as (t0 & E & H1). injection E as -> <-.
        unfold table_of in H2. destruct (dget String.eqb (f_decl f) t') as [[| ts] |] eqn:Eg; try contradiction. destruct H2 as [H2 | []]. injection H2 as <- <-. split; auto.
        apply dget_In_NoDup in Eg; auto. apply in_plain in Eg. now apply (in_map fst) in Eg.
      - intros [H1 ->]. apply in_map_iff in H1 as ([t' ts] & E & H1). cbn [fst] in E. subst t'. apply in_plain in H1. exists (t, w t). split.
        + apply in_map_iff. exists t. split; auto. now apply (in_map fst) in H1.
        + cbn [fst snd]. unfold table_of. rewrite (proj2 (dget_In_NoDup (f_decl f) t _ N) H1). simpl. auto. }
    split; [| split].
    - assert (forall l, NoDup l -> NoDup (map fst (flat_map (fun te => match table_of f (fst te) with Some _ => [(fst te, load (if dt then read_as_text f (fst te) else fun _ => false) (snd te))] | None => [] end) (map (fun t => (t, w t)) l))) /\
        (forall t, In t (map fst (flat_map (fun te => match table_of f (fst te) with Some _ => [(fst te, load (if dt then read_as_text f (fst te) else fun _ => false) (snd te))] | None => [] end) (map (fun t => (t, w t)) l))) -> In t l)) as G; [| now apply G].
      induction l as [| t l IH]; intros Nl; cbn [map flat_map]; [split; [constructor | auto] |]. inversion Nl as [| ? ? N1 N2]; subst. destruct (IH N2) as [A B]. cbn [fst snd]. destruct (table_of f t); cbn [app map fst].
      + split; [constructor; auto |]. intros t' [<- | H]; simpl; auto.
      + split; auto. intros t' H. simpl. auto.
    - intros t. rewrite in_map_iff. split.
      + intros ([t' fr] & E & H). cbn [fst] in E. subst t'. now apply M in H.
      + intros H. eexists (t, _). split; [reflexivity |]. apply M. split; [exact H | reflexivity].
    - intros t fr H. now apply M in H.
  Qed.

  Lemma came_through text (h : value -> value) v c : (forall z, v = VDate z -> h v = v \/ h v = VStr (show_date z)) -> (is_null v = true -> is_null (h v) = true) ->
    (is_null v = false -> (forall z, v <> VDate z) -> h v = v) -> came show_date show_num text (h v) c -> came show_date show_num text v c.
  Proof.
    intros H1 H2 H3 Hc. destruct (is_null v) eqn:En.
    - left. right. split; auto. eapply came_null; eauto.
    - destruct v as [| | b | n | s | z]; try discriminate; try (rewrite H3 in Hc by (try discriminate; reflexivity); exact Hc).
      destruct (H1 z eq_refl) as [E | E]; rewrite E in Hc; auto. apply came_value in Hc; try discriminate; [| reflexivity]. right. left. eauto.
  Qed.

  (** The cells may be changed by [h] before they are written. *)
  Lemma frames_trip json fl f (dt : bool) (textf : string -> string -> Prop) d g w (w' : string -> frame) (h : string -> string -> value -> value) : decl_ok (f_decl f) = true -> good_flag (f_flag f) = true -> params_shape f ->
    (forall t ts r, In (t, ts) (plain_schema f) -> In r (d t) -> file_row_ok date_of float_of show_date show_num json f t ts r) ->
    frames_written f d g = Ret w ->
    (forall t ts l, In (t, ts) (plain_schema f) -> PanIOFacts.rect (tfields ts) l -> w t = frame_of ts l -> w' t = frame_of ts (map (mapf (tfields ts) (h t)) l)) ->
    (forall t x text v c, came show_date show_num text (h t x v) c -> came show_date show_num text v c) ->
    (forall t x, if dt then textf t x <-> text_field f t x else ~ textf t x) ->
    fit readable f textf (fun t => Some (w' t)) ->
    exists d', create_frames date_of float_of settle str_of json fl f (plain_frames f dt (map (fun t => (t, w' t)) (map fst (f_decl f)))) = Ret d' /\
      forall t ts, In (t, ts) (plain_schema f) -> Forall2 (Forall2 alike) (d t) (d' t).
  Proof.
    intros Hd Gf Hp Hr Ew Hw' Hh Htx Hfit. pose proof (plain_wf f Hd) as W. destruct (written_spec f d g w Hd Ew) as [Hw _].
    pose proof (plain_frames_spec f dt w' Hd) as P. cbv zeta in P. destruct P as (P1 & P2 & P3).
    assert (forall t ts x, In (t, ts) (plain_schema f) -> In x (tfields ts) -> ((if dt then read_as_text f t else fun _ => false) x = true <-> textf t x)) as Ht.
    { intros t ts x Hin Hx. specialize (Htx t x). destruct dt.
      - rewrite Htx. eapply read_as_text_iff; eauto.
      - split; [discriminate | contradiction]. }
    apply (files_back date_of float_of str_of show_date show_num settle json fl f d (fun t => if dt then read_as_text f t else fun _ => false)); auto.
    - intros t ts x Hin Hx E. apply (Ht t ts x Hin Hx) in E. specialize (Htx t x). destruct dt; tauto.
    - intros t ts fr Hin Hfr. apply P3 in Hfr. subst fr. destruct (Hw t ts Hin) as (l & El & E). exists l. split; auto.
      assert (PanIOFacts.rect (tfields ts) l) as R.
      { eapply (written_rect date_of f t ts (d t) l); eauto; [now apply W in Hin |]. intros r H. now apply (Hr t ts r Hin H). }
      pose proof (Hw' t ts l Hin R E) as E'. set (text := if dt then read_as_text f t else fun _ => false) in *.
      destruct (Hload text ts (map (mapf (tfields ts) (h t)) l)) as (A & B & C).
      + now apply W in Hin.
      + intros r H. apply in_map_iff in H as (r0 & <- & H). apply mapf_length. now apply R.
      + rewrite <- E'. apply (Hfit t ts); auto. intros x Hx. now apply (Ht t ts x).
      + rewrite E'. split; auto. split; auto. clear - C Hh R. revert C. generalize (fr_rows (load text (frame_of ts (map (mapf (tfields ts) (h t)) l)))).
        induction l as [| r l IH]; intros m F; inversion F as [| ? r' ? m' [F1 F2] F3]; subst; constructor; [| apply IH; auto; intros r0 H0; apply R; simpl; auto]. split; auto.
        assert (List.length r = List.length (tfields ts)) as L by (apply R; simpl; auto). clear - F2 Hh L. unfold came_row in *. revert r F2 L. generalize (snd r'). generalize (tfields ts) as xs.
        intros xs. induction xs as [| x xs IH]; intros c r F L; destruct r as [| v r]; try discriminate; unfold mapf in F; simpl in F; inversion F as [| ? u ? c' Fa Fb]; subst; simpl; constructor.
        * cbn [fst snd] in *. eapply Hh; eauto.
        * apply IH; auto.
  Qed.

  Lemma id_frames f d g w : decl_ok (f_decl f) = true -> frames_written f d g = Ret w ->
    forall t ts l, In (t, ts) (plain_schema f) -> PanIOFacts.rect (tfields ts) l -> w t = frame_of ts l -> w t = frame_of ts (map (mapf (tfields ts) (fun _ v => v)) l).
  Proof. intros Hd Ew t ts l Hin R ->. f_equal. symmetry. erewrite map_ext_in; [apply map_id |]. intros r H. apply mapf_id; auto. Qed.

  (** ** CSV *)
  Lemma csv_trip fl f asked d g dir dir' : decl_ok (f_decl f) = true -> good_flag (f_flag f) = true -> params_shape f ->
    (forall t ts r, In (t, ts) (plain_schema f) -> In r (d t) -> file_row_ok date_of float_of show_date show_num false f t ts r) ->
    own_files asked (map fst (f_decl f)) (map fst dir) ->
    csv_write date_of f asked d g dir = Ret dir' ->
    fit readable f (text_field f) (fun t => dget String.eqb dir' (csv_name asked (map fst (f_decl f)) t)) ->
    (exists d', csv_read date_of float_of settle str_of load fl f dir' = Ret d' /\
      forall t ts, In (t, ts) (plain_schema f) -> Forall2 (Forall2 alike) (d t) (d' t)) /\
    (forall n, ~ In n (map (csv_name asked (map fst (f_decl f))) (map fst (f_decl f))) -> dget String.eqb dir' n = dget String.eqb dir n) /\
    (forall t, In (t, Generic) (f_decl f) -> dget String.eqb dir' (csv_name asked (map fst (f_decl f)) t) = Some (g t)).
  Proof.
    intros Hd Gf Hp Hr Ho Ew Hfit. unfold csv_write in Ew. apply bindO_ret in Ew as (w & Ew & E). injection E as <-.
    pose proof (decl_ok_legal _ Hd) as L. set (tables := map fst (f_decl f)) in *.
    assert (forall t, In t tables -> dget String.eqb (csv_put asked tables w dir) (csv_name asked tables t) = Some (w t)) as Hget.
    { intros t Ht. unfold csv_put. destruct (dset_fold (csv_name asked tables) w tables dir) as (_ & _ & C0 & _); [intros; eapply csv_name_inj; eauto | apply Ho |]. now apply C0. }
    assert (forall n, ~ In n (map (csv_name asked tables) tables) -> dget String.eqb (csv_put asked tables w dir) n = dget String.eqb dir n) as Hoth.
    { unfold csv_put. destruct (dset_fold (csv_name asked tables) w tables dir) as (_ & _ & _ & D); [intros; eapply csv_name_inj; eauto | apply Ho |]. exact D. }
    split; [| split]; auto.
    - unfold csv_read. rewrite (found_all f _ w) by (intros t Ht; now apply (csv_put_get asked tables w dir t L Ho Ht)). cbn [bindO].
      eapply (frames_trip false fl f true (text_field f) d g w w (fun _ _ v => v)); eauto.
      + eapply id_frames; eauto.
      + intros; reflexivity.
      + intros t ts fr text Hin E Ht. injection E as <-. apply (Hfit t ts (w t) text Hin); auto. apply Hget. apply in_plain in Hin. now apply (in_map fst) in Hin.
    - intros t Hin. rewrite Hget by (now apply (in_map fst) in Hin). f_equal. now apply (written_spec f d g w Hd Ew).
  Qed.

  (** ** SQLite *)
  Lemma sql_trip fl f asked d g db db' : decl_ok (f_decl f) = true -> good_flag (f_flag f) = true -> params_shape f ->
    (forall t ts r, In (t, ts) (plain_schema f) -> In r (d t) -> file_row_ok date_of float_of show_date show_num false f t ts r) ->
    own_tables asked (map fst (f_decl f)) (map fst db) ->
    sql_write date_of f asked d g db = Ret db' ->
    fit readable f (fun _ _ => False) (fun t => dget String.eqb db' (out_name asked (map fst (f_decl f)) t)) ->
    (exists d', sql_read date_of float_of settle str_of load fl f db' = Ret d' /\
      forall t ts, In (t, ts) (plain_schema f) -> Forall2 (Forall2 alike) (d t) (d' t)) /\
    (forall n x, ~ In n (map (out_name asked (map fst (f_decl f))) (map fst (f_decl f))) -> In (n, x) db' <-> In (n, x) db) /\
    (forall t, In (t, Generic) (f_decl f) -> In (out_name asked (map fst (f_decl f)) t, g t) db').
  Proof.
    intros Hd Gf Hp Hr Ho Ew Hfit. unfold sql_write in Ew. apply bindO_ret in Ew as (w & Ew & E).
    pose proof (decl_ok_legal _ Hd) as L. set (tables := map fst (f_decl f)) in *.
    destruct (sql_put_ok asked tables w tables db L Ho (fun _ H => H) (legal_NoDup _ L)) as (db1 & E1 & O1 & M1). rewrite E1 in E. injection E as <-.
    destruct (sql_put_get asked tables w db L Ho) as (db2 & E2 & O2 & G2 & M2). rewrite E1 in E2. injection E2 as <-.
    assert (forall t, In t tables -> dget String.eqb db1 (out_name asked tables t) = Some (w t)) as Hget.
    { intros t Ht. apply dget_In_NoDup; [| apply M1; left; eauto]. eapply NoDup_map_inv. apply O1. }
    split; [| split]; auto.
    - unfold sql_read. rewrite (found_all f _ w) by (intros t Ht; now apply G2). cbn [bindO].
      eapply (frames_trip false fl f false (fun _ _ => False) d g w w (fun _ _ v => v)); eauto.
      + eapply id_frames; eauto.
      + intros t ts fr text Hin E Ht. injection E as <-. apply (Hfit t ts (w t) text Hin); auto. apply Hget. apply in_plain in Hin. now apply (in_map fst) in Hin.
    - intros t Hin. apply M1. left. exists t. split; [now apply (in_map fst) in Hin |]. split; auto. symmetry. now apply (written_spec f d g w Hd Ew).
  Qed.

  (** ** Excel *)
  Lemma xls_trip fl f asked d g book names : decl_ok (f_decl f) = true -> good_flag (f_flag f) = true -> params_shape f ->
    (forall t ts r, In (t, ts) (plain_schema f) -> In r (d t) -> file_row_ok date_of float_of show_date show_num false f t ts r) ->
    write_sheets asked (map fst (f_decl f)) = Ret names ->
    xls_write date_of f asked d g = Ret book ->
    fit readable f (text_field f) (fun t => dget String.eqb book (sheet_name asked (map fst (f_decl f)) t)) ->
    (exists d', xls_read date_of float_of settle str_of load fl f book = Ret d' /\
      forall t ts, In (t, ts) (plain_schema f) ->
        if value_eqb (f_xlsx f) (VStr "prune")
        then exists kept dropped, d t = kept ++ dropped /\ Forall2 (Forall2 alike) kept (d' t) /\ (forall r, In r dropped -> forallb is_null r = true) /\
               (kept = [] \/ exists front r, kept = front ++ [r] /\ forallb is_null r = false)
        else Forall2 (Forall2 alike) (d t) (d' t)) /\
    (forall t, In (t, Generic) (f_decl f) -> dget String.eqb book (sheet_name asked (map fst (f_decl f)) t) = Some (g t)) /\ map fst book = names.
  Proof.
    intros Hd Gf Hp Hr Hn Ew Hfit. unfold xls_write in Ew.
    assert (sheets_differ (map fst (f_decl f)) = true) as Sd by (unfold write_sheets in Hn; destruct (sheets_differ (map fst (f_decl f))); [auto | discriminate]). rewrite Sd in Ew.
    apply bindO_ret in Ew as (w & Ew & E). injection E as <-.
    pose proof (decl_ok_legal _ Hd) as L. destruct (write_sheets_spec _ _ _ Hn) as [En Nd]. set (tables := map fst (f_decl f)) in *.
    set (book := map (fun t => (sheet_name asked tables t, w t)) tables) in *.
    assert (map fst book = names) as Eb by (unfold book; rewrite map_map; cbn [fst]; now rewrite En).
    assert (NoDup (map fst book)) as Nb by (rewrite Eb, En; rewrite <- map_map in Nd; now apply NoDup_map_inv in Nd).
    assert (forall t, In t tables -> dget String.eqb book (sheet_name asked tables t) = Some (w t)) as Hget.
    { intros t Ht. apply dget_In_NoDup; auto. unfold book. apply in_map_iff. eauto. }
    split; [| split]; auto.
    - unfold xls_read. fold tables. rewrite Sd.
      rewrite (found_all f _ w).
      2: { intros t Ht. unfold sheet_get. rewrite Eb. rewrite (get_sheet_own asked tables names names [] t L Hn Ht); [now rewrite Hget | now rewrite app_nil_r | intros s t' []]. }
      cbn [bindO]. destruct (frames_trip false fl f true (text_field f) d g w w (fun _ _ v => v)) as (d1 & E1 & F1); eauto.
      + eapply id_frames; eauto.
      + intros; reflexivity.
      + intros t ts fr text Hin E Ht. injection E as <-. apply (Hfit t ts (w t) text Hin); auto. apply Hget. apply in_plain in Hin. now apply (in_map fst) in Hin.
      + destruct (xls_pruned date_of float_of settle str_of fl f _ d1 Hd E1) as (d' & E' & P). exists d'. split; [exact E' |]. intros t ts Hin. specialize (F1 t ts Hin). specialize (P t ts Hin).
        destruct (value_eqb (f_xlsx f) (VStr "prune")); [| now rewrite P]. destruct P as (dr & P1 & P2 & P3). rewrite P1 in F1. apply Forall2_app_inv_r in F1 as (k & r & Fk & Fd & Ed).
        assert (forall a b, Forall2 alike a b -> forallb is_null a = forallb is_null b) as Hnull.
        { clear. intros a b F. induction F as [| v w a b H _ IH]; auto. cbn [forallb]. rewrite IH. destruct H as [<- | [A B]]; auto. now rewrite A, B. }
        exists k, r. split; auto. split; auto. split.
        * intros x Hx. destruct (Forall2_In_l _ _ _ _ Fd Hx) as (y & Hy & Fy). rewrite (Hnull _ _ Fy). auto.
        * destruct P3 as [P3 | (front & x & P3 & Hx)].
          -- left. rewrite P3 in Fk. now inversion Fk.
          -- right. rewrite P3 in Fk. apply Forall2_app_inv_r in Fk as (k1 & k2 & _ & F2 & ->). inversion F2 as [| y ? ? ? Fy Fn]; subst. inversion Fn; subst. exists k1, y. split; auto. rewrite (Hnull _ _ Fy). auto.
    - intros t Hin. rewrite Hget by (now apply (in_map fst) in Hin). f_equal. now apply (written_spec f d g w Hd Ew).
  Qed.

  (** ** json documents of DataFrames *)
  Lemma pd_frame_of f t ts l : PanIOFacts.rect (tfields ts) l -> pd_frame show_date f t (frame_of ts l) = frame_of ts (map (mapf (tfields ts) (pd_fix show_date f t)) l).
  Proof.
    intros R. unfold pd_frame, frame_of. cbn [fr_index fr_cols fr_rows]. f_equal. rewrite !map_map. apply map_ext_in. intros r H. cbn [fst snd]. f_equal. unfold mapf.
    generalize (tfields ts) as xs. intros xs. clear. revert r. induction xs as [| x xs IH]; intros [| v r]; simpl; auto. now rewrite IH.
  Qed.

  Lemma pd_came f t x text v c : came show_date show_num text (pd_fix show_date f t x v) c -> came show_date show_num text v c.
  Proof.
    apply came_through.
    - intros z ->. unfold pd_fix. destruct (field_type f t x) as [dt |]; auto. destruct (datetime dt); auto.
    - intros En. unfold pd_fix. destruct (field_type f t x) as [dt |]; auto. destruct (datetime dt); auto. destruct v; try discriminate; auto.
    - intros En Hz. unfold pd_fix. destruct (field_type f t x) as [dt |]; auto. destruct (datetime dt); auto. destruct v; try discriminate; auto. now destruct (Hz z).
  Qed.

  Lemma pd_trip fl f asked d g doc : decl_ok (f_decl f) = true -> good_flag (f_flag f) = true -> params_shape f ->
    (forall t ts r, In (t, ts) (plain_schema f) -> In r (d t) -> file_row_ok date_of float_of show_date show_num true f t ts r) ->
    pd_write date_of show_date f asked d g = Ret doc ->
    fit readable f (text_field f) (fun t => dget String.eqb doc (out_name asked (map fst (f_decl f)) t)) ->
    (exists d', pd_read date_of float_of settle str_of load fl f doc = Ret d' /\
      forall t ts, In (t, ts) (plain_schema f) -> Forall2 (Forall2 alike) (d t) (d' t)) /\
    map fst doc = map (out_name asked (map fst (f_decl f))) (map fst (f_decl f)).
  Proof.
    intros Hd Gf Hp Hr Ew Hfit. unfold pd_write in Ew. apply bindO_ret in Ew as (w & Ew & E). injection E as <-.
    pose proof (decl_ok_legal _ Hd) as L. set (tables := map fst (f_decl f)) in *.
    set (doc := map (fun t => (out_name asked tables t, pd_frame show_date f t (w t))) tables) in *.
    assert (map fst doc = map (out_name asked tables) tables) as Eb by (unfold doc; rewrite map_map; reflexivity).
    assert (NoDup (map fst doc)) as Nb.
    { rewrite Eb. assert (forall l, NoDup l -> (forall t, In t l -> In t tables) -> NoDup (map (out_name asked tables) l)) as G.
      { clear - L. intros l N. induction N as [| t l N1 _ IH]; intros Hs; cbn [map]; constructor.
        - intros H. apply in_map_iff in H as (t' & E & H). apply N1. assert (t' = t) as <-; auto. apply (out_name_inj asked tables); auto; apply Hs; simpl; auto.
        - apply IH. intros; apply Hs; simpl; auto. }
      apply G; auto. now apply legal_NoDup. }
    assert (forall t, In t tables -> dget String.eqb doc (out_name asked tables t) = Some (pd_frame show_date f t (w t))) as Hget.
    { intros t Ht. apply dget_In_NoDup; auto. unfold doc. apply in_map_iff. eauto. }
    split; auto. unfold pd_read. rewrite (found_all f _ (fun t => pd_frame show_date f t (w t))).
    2: { intros t Ht. unfold key_get. rewrite Eb. rewrite (get_json_key_own asked tables _ [] t L Ht); [now rewrite Hget | now rewrite app_nil_r | intros s t' []]. }
    cbn [bindO]. eapply (frames_trip true fl f true (text_field f) d g w (fun t => pd_frame show_date f t (w t)) (fun t => pd_fix show_date f t)); eauto.
    - intros t ts l Hin R ->. now apply pd_frame_of.
    - intros t x text v c. apply pd_came.
    - intros; reflexivity.
    - intros t ts fr text Hin E Ht. injection E as <-. apply (Hfit t ts _ text Hin); auto. apply Hget. apply in_plain in Hin. now apply (in_map fst) in Hin.
  Qed.

  (** ** When nothing is written *)
  Lemma written_raises f d g : frames_written f d g = Raise <->
    f_flag f = VNone /\ exists t ts x, In (t, Fields ts) (f_decl f) /\ t <> "parameters" /\ In x (tfields ts) /\ bias_now date_of f t x = Raise.
  Proof.
    unfold PanFiles.frames_written. induction (f_decl f) as [| [t td] l IH]; cbn [mapO].
    - split; [discriminate |]. intros (_ & t & ts & x & [] & _).
    - cbn [fst snd].
      assert (match td with Generic => False | Fields ts => pan_write date_of f t (tfields ts) (d t) = Raise end <->
        f_flag f = VNone /\ t <> "parameters" /\ exists ts x, td = Fields ts /\ In x (tfields ts) /\ bias_now date_of f t x = Raise) as Hw.
      { destruct td as [| ts]; [split; [tauto | intros (_ & _ & ts & x & E & _); discriminate] |].
        unfold pan_write. destruct (String.eqb t "parameters") eqn:Et.
        - apply String.eqb_eq in Et. split; [discriminate | intros (_ & X & _); contradiction].
        - apply String.eqb_neq in Et. pose proof (biases_raise date_of f t (tfields ts)) as B. destruct (f_flag f) eqn:Ef; try (split; [discriminate | intros (X & _); discriminate]).
          destruct (biases date_of f t (tfields ts)).
          + split; [discriminate |]. intros (X & _ & ts' & x & E & Y). injection E as <-. assert (Ret o = Raise) by (apply B; eauto). discriminate.
          + split; auto. intros _. destruct (proj1 B eq_refl) as [X (x & Y)]. eauto 8. }
      assert (match td with Generic => Ret (t, g t) | Fields ts => bindO (pan_write date_of f t (tfields ts) (d t)) (fun l => Ret (t, frame_of ts l)) end = Raise <->
        match td with Generic => False | Fields ts => pan_write date_of f t (tfields ts) (d t) = Raise end) as Hm.
      { destruct td as [| ts]; [split; [discriminate | tauto] |]. destruct (pan_write date_of f t (tfields ts) (d t)); cbn [bindO]; split; auto; discriminate. }
      rewrite <- Hm in Hw. clear Hm. destruct (match td with Generic => Ret (t, g t) | Fields ts => bindO (pan_write date_of f t (tfields ts) (d t)) (fun l => Ret (t, frame_of ts l)) end) as [c |].
      + destruct (mapO _ l) as [m |]; cbn [bindO] in *.
        * split; [discriminate |]. intros (Ef & t' & ts & x & [X | H] & A & B & C).
          -- injection X as <- ->. assert (Ret c = Raise) by (apply Hw; eauto 8). discriminate.
          -- assert (forall (a b : string -> frame), (Ret a = Raise) -> Ret b = Raise) as X by discriminate. eapply X. apply IH. eauto 9.
        * split; auto. intros _. destruct (proj1 IH eq_refl) as (Ef & t' & ts & x & H & R). split; auto. exists t', ts, x. simpl. auto.
      + split; auto. intros _. destruct (proj1 Hw eq_refl) as (Ef & Hne & ts & x & -> & Hx & B). split; auto. exists t, ts, x. simpl. auto.
  Qed.
End Trip.

(** ** Names of sheets *)

Lemma str_dset {V} (l : list (string * V)) t v u : dget String.eqb (dset String.eqb l t v) u = if String.eqb t u then Some v else dget String.eqb l u.
Proof.
  destruct (String.eqb t u) eqn:E.
  - apply String.eqb_eq in E as ->. apply dget_dset_same. apply String.eqb_refl.
  - apply (dget_dset_other String.eqb String.eqb_sym); auto. intros a b c E1 E2. apply String.eqb_eq in E1, E2. subst. apply String.eqb_refl.
Qed.

Lemma sheets_differ_false tables : sheets_differ tables = false <-> exists t t', In t tables /\ In t' tables /\ t <> t' /\ stake longest_sheet t = stake longest_sheet t'.
Proof.
  unfold sheets_differ. generalize (stake longest_sheet) as sn. intros sn. set (d := fold_left _ tables []).
  assert (NoDup (map fst d) /\ forall k v, dget String.eqb d k = Some v -> NoDup v /\ forall t, In t v <-> In t tables /\ sn t = k) as [N H].
  2: assert (forall t, In t tables -> exists v, dget String.eqb d (sn t) = Some v) as Hs.
  - unfold d. assert (forall l done acc, NoDup (map fst acc) -> (forall k v, dget String.eqb acc k = Some v -> NoDup v /\ forall t, In t v <-> In t done /\ sn t = k) ->
      (forall t, In t done -> dget String.eqb acc (sn t) <> None) ->
      let d := fold_left (fun d t => dset String.eqb d (sn t) (sadd String.eqb (dget_or String.eqb d (sn t) []) t)) l acc in
      NoDup (map fst d) /\ forall k v, dget String.eqb d k = Some v -> NoDup v /\ forall t, In t v <-> In t (done ++ l) /\ sn t = k) as G.
    { induction l as [| t l IH]; intros done acc N H S; cbn [fold_left]; [rewrite app_nil_r; split; auto |].
      replace (done ++ t :: l) with ((done ++ [t]) ++ l) by (now rewrite <- app_assoc). apply IH.
      - now apply FindTypesFacts.dset_NoDup.
      - intros k v. rewrite str_dset. destruct (String.eqb (sn t) k) eqn:E.
        + apply String.eqb_eq in E. intros X. injection X as <-.
          assert (exists v, dget_or String.eqb acc (sn t) [] = v /\ NoDup v /\ forall t', In t' v <-> In t' done /\ sn t' = k) as (v & -> & Nv & Hv).
          { unfold dget_or. destruct (dget String.eqb acc (sn t)) as [v |] eqn:Eg; eexists; (split; [reflexivity |]).
            - rewrite E in Eg. now apply H.
            - split; [constructor |]. intros t'. split; [intros [] |]. intros [A B]. apply (S t' A). now rewrite B, <- E. }
          unfold sadd. destruct (smem String.eqb v t) eqn:Em.
          * split; auto. intros t'. rewrite Hv, in_app_iff. split; [tauto |]. intros [[A | [<- | []]] B]; auto. apply existsb_exists in Em as (t2 & A & B2). apply String.eqb_eq in B2. subst t2. apply Hv in A. tauto.
          * split.
            -- apply NoDup_app_intro; auto; [constructor; [intros [] | constructor] |]. intros x Hx [<- | []]. apply Bool.not_true_iff_false in Em. apply Em. apply existsb_exists. exists t. split; auto. apply String.eqb_refl.
            -- intros t'. rewrite !in_app_iff, Hv. simpl. intuition; subst; auto.
        + intros X. apply H in X as [A B]. split; auto. intros t'. rewrite B, in_app_iff. split; [tauto |]. intros [[C | [<- | []]] D]; auto. apply String.eqb_neq in E. contradiction.
      - intros t' Ht'. rewrite str_dset. destruct (String.eqb (sn t) (sn t')) eqn:E; [discriminate |].
        apply in_app_or in Ht' as [Ht' | [<- | []]]; auto. rewrite String.eqb_refl in E. discriminate. }
    apply (G tables [] []); [constructor | discriminate | intros t []].
  - unfold d. clear. assert (forall l t acc, In t l \/ dget String.eqb acc (sn t) <> None -> exists v, dget String.eqb (fold_left (fun d t => dset String.eqb d (sn t) (sadd String.eqb (dget_or String.eqb d (sn t) []) t)) l acc) (sn t) = Some v) as G; [| intros t Ht; apply G; auto].
    induction l as [| t' l IH]; intros t acc Hin; cbn [fold_left].
    + destruct Hin as [[] | X]. destruct (dget String.eqb acc (sn t)); [eauto | contradiction].
    + apply IH. rewrite str_dset. destruct (String.eqb (sn t') (sn t)) eqn:E; [right; discriminate |]. destruct Hin as [[<- | X] | X]; auto. rewrite String.eqb_refl in E. discriminate.
  - split.
    + intros E. assert (exists kv, In kv d /\ Nat.leb (List.length (snd kv)) 1 = false) as ([k v] & Hin & Hl).
      { clear - E. induction d as [| kv d IH]; [discriminate |]. cbn [forallb] in E. apply andb_false_iff in E as [E | E]; [exists kv; simpl; auto |]. destruct (IH E) as (kv' & A & B). exists kv'. simpl. auto. }
      cbn [snd] in Hl. apply (dget_In_NoDup d k v N) in Hin. apply H in Hin as [Nv Hv]. apply Nat.leb_gt in Hl.
      destruct v as [| t [| t' v]]; simpl in Hl; try lia. destruct (proj1 (Hv t)) as [A B]; [simpl; auto |]. destruct (proj1 (Hv t')) as [A' B']; [simpl; auto |].
      exists t, t'. split; auto. split; auto. split; [| congruence]. intros ->. inversion Nv as [| ? ? X _]; subst. apply X. simpl. auto.
    + intros (t & t' & A & B & C & D). apply Bool.not_true_iff_false. intros E. destruct (Hs t A) as (v & Hv). pose proof (H _ _ Hv) as [Nv Mv].
      apply (dget_In_NoDup d _ v N) in Hv. rewrite forallb_forall in E. specialize (E _ Hv). cbn [snd] in E. apply Nat.leb_le in E.
      assert (In t v) as I1 by (apply Mv; auto). assert (In t' v) as I2 by (apply Mv; auto). destruct v as [| a [| b v]]; simpl in *; try tauto; try lia. destruct I1 as [-> | []]; destruct I2 as [-> | []]; auto.
Qed.
