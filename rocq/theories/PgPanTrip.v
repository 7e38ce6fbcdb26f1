(** * Facts: PanDat objects read from Postgres, and read back. *)
From Coq Require Import ZArith Bool List String Ascii Arith Lia Permutation.
From Verif Require Import PyVal PyValFacts PyDict PyDictFacts PyStr ListFacts TypeDict TypeDictFacts Data FindTypes FindTypesFacts FK Graph GraphFacts
  Obj ObjFacts ObjMore Factory FactoryFacts InfIO InfIOFacts PanIOFacts Params ParamsFacts Names NamesFacts Utils UtilsMore Ampl Json ObjRows JsonFacts TripFacts
  Sql SqlFacts Frames FramesFacts FramesPan PanIO PanRead PanJson Pg PgFacts PgWrite PgTrip PgStore PgMore PgPan PgPanFacts.
Import ListNotations.
Local Open Scope string_scope.
Local Open Scope list_scope.

Lemma Forall2_perm {A B} (P : A -> B -> Prop) : forall l m m', Forall2 P l m -> Permutation m m' -> exists l', Permutation l l' /\ Forall2 P l' m'.
Proof.
  intros l m m' F Q. revert l F. induction Q as [| y m m' Q IH | y z m | m m1 m2 Q1 IH1 Q2 IH2]; intros l F.
  - inversion F; subst. exists []. auto.
  - inversion F as [| x ? l0 ? Px F']; subst. destruct (IH _ F') as (l' & A1 & A2). exists (x :: l'). auto.
  - inversion F as [| x ? l0 ? Px F']; subst. inversion F' as [| x' ? l1 ? Px' F'']; subst. exists (x' :: x :: l1). split; [apply perm_swap | auto].
  - destruct (IH1 _ F) as (l1 & A1 & A2). destruct (IH2 _ A2) as (l2 & B1 & B2). exists l2. split; [now transitivity l1 | auto].
Qed.

Section Read.
  Variable date_of : value -> option Z.
  Variable float_of : value -> option value.
  Variable settle : list value -> list value.
  Variable str_of : value -> string.
  Notation pan_pg_create := (pan_pg_create date_of float_of settle str_of).
  Notation sql_frame := (sql_frame settle).
  Notation sql_frames := (sql_frames settle).
  Notation post_table := (post_table date_of float_of str_of).
  Variable f : factory.
  Hypothesis Hd : decl_ok (f_decl f) = true.

  (** The rows selected from table [t]. *)
  Definition selected (active : string) (db : pgdb) (t : string) (ts : tschema) : list (list value) :=
    match dget String.eqb db t with
    | None => []
    | Some pt => select_rows pt (map pg_name (tfields ts)) (if mem_str t (active_tables db active) then Some active else None)
    end.

  Lemma sql_frames_names : forall active db, NoDup (map fst (sql_frames f active db)).
  Proof.
    intros active db. pose proof (proj1 (plain_wf f Hd)) as N. unfold PgPan.sql_frames. revert N. generalize (plain_schema f) as sch. induction sch as [| [t ts] sch IH]; intros N; [constructor |].
    cbn [map fst] in N. apply NoDup_cons_iff in N as [N1 N2]. cbn [flat_map fst snd]. destruct (dget String.eqb db t) as [pt |]; [| now apply IH]. cbn [app map fst]. constructor; [| now apply IH].
    intros H. apply N1. apply in_map_iff in H as ([u fr] & E & H). cbn [fst] in E. subst u. apply in_flat_map in H as ([u us] & Hu & H). cbn [fst snd] in H.
    destruct (dget String.eqb db u); [| contradiction]. destruct H as [H | []]. injection H as <- _. now apply (in_map fst) in Hu.
  Qed.

  Lemma sql_frames_In : forall active db t fr, In (t, fr) (sql_frames f active db) <->
    exists ts pt, In (t, ts) (plain_schema f) /\ dget String.eqb db t = Some pt /\ fr = sql_frame ts (selected active db t ts).
  Proof.
    intros active db t fr. unfold PgPan.sql_frames, selected. rewrite in_flat_map. split.
    - intros ([u us] & Hu & H). cbn [fst snd] in H. destruct (dget String.eqb db u) as [pt |] eqn:G; [| contradiction]. destruct H as [H | []]. injection H as <- <-. exists us, pt. rewrite G. auto.
    - intros (ts & pt & Hin & G & ->). exists (t, ts). split; auto. cbn [fst snd]. rewrite G. simpl. auto.
  Qed.

  Lemma row_eq : forall ts rows s row, wf_tschema ts -> List.length s = List.length (tfields ts) ->
    Forall2 (fun x v => in_col (sql_frame ts rows) ([], s) (CName x) v) (tfields ts) row -> row = s.
  Proof.
    intros ts rows s row W L F. unfold in_col, PgPan.sql_frame in F. cbn [fr_cols snd] in F. unfold wf_tschema in W.
    assert (List.length (tfields ts) = List.length row) as Lr by (eapply Forall2_length'; eauto).
    apply (list_nth_ext VNone); [lia |]. intros i Hi.
    apply (Forall2_nth_iff _ "" VNone) in F as [_ F]. specialize (F i ltac:(lia)). destruct F as (j & A & B).
    rewrite nth_error_map in A. destruct (nth_error (tfields ts) j) as [y |] eqn:Ey; [| discriminate]. cbn [option_map] in A. injection A as A.
    assert (j = i) as ->.
    { apply (proj1 (NoDup_nth_error (tfields ts)) W); [apply nth_error_Some; congruence |]. rewrite Ey, A. symmetry. apply nth_error_nth'. lia. }
    symmetry. now apply nth_error_nth.
  Qed.

  Lemma frame_whole : forall ts rows, lacking ts (sql_frame ts rows) = [].
  Proof. intros ts rows. apply lacking_none. intros x Hx. cbn [PgPan.sql_frame fr_cols]. now apply in_map. Qed.

  (** pandatio.py has the same path for frames with all fields. *)
  Lemma pan_pg_frames : forall active db,
    clean date_of float_of settle str_of false f (map (fun tf => (fst tf, PFrame (snd tf))) (sql_frames f active db)) =
    create_frames date_of float_of settle str_of false false f (sql_frames f active db).
  Proof.
    intros active db. pose proof (plain_wf f Hd) as W. set (src := sql_frames f active db).
    unfold create_frames. assert (supplied false (plain_schema f) (f_defaults f) src = Some src) as ->; auto. unfold supplied.
    assert (forall l : list (string * frame), (forall e, In e l -> In e src) -> map_opt (fun tf : string * frame => match dget String.eqb (plain_schema f) (fst tf) with
       | Some ts => match lacking ts (supply false (f_defaults f) (fst tf) ts (snd tf)) with [] => Some (fst tf, supply false (f_defaults f) (fst tf) ts (snd tf)) | _ :: _ => None end
       | None => None end) l = Some l) as G; [| apply G; auto].
    induction l as [| [t fr] l IH]; intros Hl; auto. cbn [map_opt fst snd]. assert (In (t, fr) src) as Hi by (apply Hl; simpl; auto).
    pose proof Hi as Hi'. apply sql_frames_In in Hi' as (ts & pt & Hin & _ & E). rewrite (proj2 (schema_get _ t ts (proj1 W)) Hin).
    assert (supply false (f_defaults f) t ts fr = fr) as -> by reflexivity. subst fr. rewrite frame_whole.
    rewrite IH; auto. intros; apply Hl; simpl; auto.
  Qed.

  Lemma frames_src_ok : forall active db, src_ok f (sql_frames f active db).
  Proof.
    intros active db. split; [apply sql_frames_names |]. intros t fr H. apply sql_frames_In in H as (ts & pt & Hin & _ & ->). split; [now apply (in_map fst) in Hin |]. split; auto.
    split; cbn [PgPan.sql_frame fr_rows fr_cols fr_index].
    { apply FinFun.Injective_map_NoDup; [intros a b X; congruence |]. now apply (plain_wf f Hd) in Hin. }
    intros r Hr. apply in_map_iff in Hr as (s & <- & Hs). cbn [fst snd List.length]. split; auto. rewrite map_length. eapply settled_lengths; eauto.
  Qed.

  Theorem pan_pg_eq : forall active db,
    pan_pg_create f active db =
    if String.eqb (pg_name active) active && names_ok f && match check_tables f db false with Ret _ => true | Raise => false end then
      bindO (mapO (fun tts => bindO (post_table false f (fst tts) (tfields (snd tts))
                      (settled settle (List.length (tfields (snd tts))) (selected active db (fst tts) (snd tts)))) (fun l => Ret (fst tts, l))) (plain_schema f))
        (fun l => Ret (fun t => dget_or String.eqb l t []))
    else Raise.
  Proof.
    intros active db. unfold PgPan.pan_pg_create. destruct (String.eqb (pg_name active) active && names_ok f); auto. destruct (check_tables f db false) as [missing |]; auto. cbn [bindO andb].
    pose proof (plain_wf f Hd) as W. rewrite pan_pg_frames.
    set (src := sql_frames f active db).
    assert (forall t ts fr, In (t, fr) src -> In (t, ts) (plain_schema f) -> fr = sql_frame ts (selected active db t ts)) as Hsrc.
    { intros t ts fr H Hin. apply sql_frames_In in H as (ts' & pt & H1 & _ & ->). assert (ts' = ts) as -> by (eapply pair_fst_inj; eauto; apply W). reflexivity. }
    destruct (frames_raw date_of float_of settle str_of false false f src Hd) as (raw & -> & Hraw).
    { apply frames_src_ok. }
    { intros t ts fr H Hin. rewrite (Hsrc t ts fr H Hin). apply frame_whole. }
    assert (forall t ts, In (t, ts) (plain_schema f) -> raw t = settled settle (List.length (tfields ts)) (selected active db t ts)) as Er.
    { intros t ts Hin. destruct (Hraw t ts Hin) as [R1 R2]. unfold selected. destruct (dget String.eqb db t) as [pt |] eqn:G.
      - assert (In (t, sql_frame ts (selected active db t ts)) src) as Hi by (apply sql_frames_In; eauto). specialize (R1 _ Hi). unfold selected in R1. rewrite G in R1.
        cbn [PgPan.sql_frame fr_rows] in R1. revert R1. match goal with |- context [select_rows ?a ?b ?c] => set (rows := select_rows a b c) end. intros R1.
        pose proof (settled_lengths settle (List.length (tfields ts)) rows) as Ls.
        assert (forall l m, (forall s, In s l -> List.length s = List.length (tfields ts)) ->
           Forall2 (fun r row => Forall2 (given false (f_defaults f) t (sql_frame ts rows) r) (tfields ts) row) (map (fun r : list value => ([], r)) l) m -> m = l) as X.
        { clear - W Hin. induction l as [| s l IH]; intros m L F; inversion F as [| ? row ? m' F1 F2]; subst; auto. f_equal; [| apply IH; auto; intros; apply L; simpl; auto].
          eapply (row_eq ts rows); [now apply W in Hin | apply L; simpl; auto |]. eapply Forall2_imp_in; [| exact F1]. cbv beta. intros x v _ [H | (_ & H & _)]; [exact H | discriminate]. }
        apply X; auto.
      - rewrite R2; auto. intros H. apply in_map_iff in H as ([u fr] & E & H). cbn [fst] in E. subst u. apply sql_frames_In in H as (_ & pt & _ & G' & _). congruence. }
    f_equal. assert (forall l, (forall e, In e l -> In e (plain_schema f)) -> 
      mapO (fun tts => bindO (post_table false f (fst tts) (tfields (snd tts)) (raw (fst tts))) (fun l => Ret (fst tts, l))) l =
      mapO (fun tts => bindO (post_table false f (fst tts) (tfields (snd tts)) (settled settle (List.length (tfields (snd tts))) (selected active db (fst tts) (snd tts)))) (fun l => Ret (fst tts, l))) l) as G; [| apply G; auto].
    induction l as [| [t ts] l IH]; intros Hl; auto. cbn [mapO fst snd]. rewrite (Er t ts) by (apply Hl; simpl; auto). rewrite IH; auto. intros; apply Hl; simpl; auto.
  Qed.

  Lemma frames_missing : forall active db t ts, In (t, ts) (plain_schema f) -> (In t (map fst (sql_frames f active db)) <-> dget String.eqb db t <> None).
  Proof.
    intros active db t ts Hin. split.
    - intros H. apply in_map_iff in H as ([u fr] & E & H). cbn [fst] in E. subst u. apply sql_frames_In in H as (_ & pt & _ & G & _). congruence.
    - intros H. destruct (dget String.eqb db t) as [pt |] eqn:G; [| congruence]. apply in_map_iff. exists (t, sql_frame ts (selected active db t ts)). split; auto. apply sql_frames_In. eauto.
  Qed.

  Lemma check_ret : forall db, (match check_tables f db false with Ret _ => true | Raise => false end = true) <->
    forall t ts pt x, In (t, ts) (plain_schema f) -> dget String.eqb db t = Some pt -> In x (tfields ts) -> In (pg_name x) (map c_name (pt_cols pt)).
  Proof.
    intros db. unfold check_tables. destruct (forallb _ (plain_schema f)) eqn:Fc.
    - rewrite andb_false_r. split; auto. intros _ t ts pt x Hin G Hx. rewrite forallb_forall in Fc. specialize (Fc _ Hin). cbn [fst snd] in Fc. rewrite G in Fc.
      rewrite forallb_forall in Fc. apply mem_str_iff. auto.
    - split; [discriminate |]. intros H. exfalso. apply not_true_iff_false in Fc. apply Fc. apply forallb_forall. intros [t ts] Hin. cbn [fst snd].
      destruct (dget String.eqb db t) as [pt |] eqn:G; auto. apply forallb_forall. intros x Hx. apply mem_str_iff. eauto.
  Qed.

  (** The rows [l] of the database that are read for [t]: all, or those whose active column is true. *)
  Definition read_rows (active : string) (pt : pgtable) (l : list (list value)) : Prop :=
    l = filter (fun r => String.eqb active "" || negb (mem_str active (map c_name (pt_cols pt))) || value_eqb (pg_cell pt r active) (VBool true)) (pt_rows pt).

  Theorem pan_pg_read : forall active db, params_shape f -> NoDup (map fst db) ->
    (forall t ts k, In (t, ts) (plain_schema f) -> gentle settle (Frames.column (selected active db t ts) k)) ->
    (pan_pg_create f active db = Raise <->
      pg_name active <> active \/ names_ok f = false \/
      (exists t ts pt x, In (t, ts) (plain_schema f) /\ dget String.eqb db t = Some pt /\ In x (tfields ts) /\ ~ In (pg_name x) (map c_name (pt_cols pt))) \/
      (f_flag f = VNone /\ exists t ts x, In (t, ts) (plain_schema f) /\ t <> "parameters" /\ In x (tfields ts) /\ bias_now date_of f t x = Raise)) /\
    forall e, pan_pg_create f active db = Ret e -> forall t ts, In (t, ts) (plain_schema f) ->
      (dget String.eqb db t = None -> e t = []) /\
      forall pt l, dget String.eqb db t = Some pt -> read_rows active pt l ->
        Forall2 (fun r row => Forall2 (fun x w =>
          (t <> "parameters" /\ (forall v, alike (pg_cell pt r (pg_name x)) v -> quiet date_of float_of false f t x v)) \/
          (t = "parameters" /\ (has_params f = false \/ In x (tpk ts))) ->
          alike (pg_cell pt r (pg_name x)) w) (tfields ts) row) l (e t).
  Proof.
    intros active db Hp Hn Hs. pose proof (plain_wf f Hd) as W. unfold PgPan.pan_pg_create.
    destruct (String.eqb (pg_name active) active && names_ok f) eqn:E.
    2: { split; [| discriminate]. split; auto. intros _. apply andb_false_iff in E as [E | E]; auto. left. now apply String.eqb_neq. }
    apply andb_true_iff in E as [E1 E2]. apply String.eqb_eq in E1. pose proof (check_ret db) as Hck.
    destruct (check_tables f db false) as [missing |]; cbn [bindO].
    2: { split; [| discriminate]. split; auto. intros _. right. right. left.
         assert (~ (forall t ts pt x, In (t, ts) (plain_schema f) -> dget String.eqb db t = Some pt -> In x (tfields ts) -> In (pg_name x) (map c_name (pt_cols pt)))) as Hno
           by (intros X; apply Hck in X; discriminate).
         destruct (existsb (fun tts => match dget String.eqb db (fst tts) with None => false | Some pt => existsb (fun x => negb (mem_str (pg_name x) (map c_name (pt_cols pt)))) (tfields (snd tts)) end) (plain_schema f)) eqn:Ex.
         - apply existsb_exists in Ex as ([t ts] & Hin & H). cbn [fst snd] in H. destruct (dget String.eqb db t) as [pt |] eqn:G; [| discriminate].
           apply existsb_exists in H as (x & Hx & H). exists t, ts, pt, x. split; auto. split; auto. split; auto. apply negb_true_iff in H. now apply mem_str_false in H.
         - exfalso. apply Hno. intros t ts pt x Hin G Hx. apply mem_str_iff. destruct (mem_str (pg_name x) (map c_name (pt_cols pt))) eqn:M; auto. exfalso.
           apply not_true_iff_false in Ex. apply Ex. apply existsb_exists. exists (t, ts). split; auto. cbn [fst snd]. rewrite G. apply existsb_exists. exists x. rewrite M. auto. }
    pose proof (proj1 Hck eq_refl) as Hcols. rewrite pan_pg_frames.
    destruct (frames_read date_of float_of settle str_of false false f (sql_frames f active db) Hd Hp (frames_src_ok active db)) as [Hr He]. split.
    - rewrite Hr. split.
      + intros [(t & ts & fr & x & A & B & C & D & _) | H]; auto. exfalso. apply sql_frames_In in A as (ts' & pt & A & _ & ->).
        assert (ts' = ts) as -> by (eapply pair_fst_inj; eauto; apply W). apply D. cbn [PgPan.sql_frame fr_cols]. now apply in_map.
      + intros [H | [H | [(t & ts & pt & x & A & B & C & D) | H]]]; try congruence; auto. exfalso. apply D. eauto.
    - intros e Ee t ts Hin. destruct (He e Ee t ts Hin) as [H1 H2]. split.
      + intros G. apply H2. intros X. apply (frames_missing active db t ts Hin) in X. congruence.
      + intros pt l G Hl.
        assert (In (t, sql_frame ts (selected active db t ts)) (sql_frames f active db)) as Hi by (apply sql_frames_In; eauto). specialize (H1 _ Hi).
        assert (selected active db t ts = map (fun r => pg_cells pt r (map pg_name (tfields ts))) l) as Es.
        { unfold selected. rewrite G. unfold select_rows. f_equal. rewrite Hl. apply filter_ext. intros r. rewrite active_mem by auto. rewrite G.
          destruct (String.eqb active ""); cbn [negb andb orb]; auto. now destruct (mem_str active (map c_name (pt_cols pt))). }
        assert (Forall2 (Forall2 alike) (selected active db t ts) (settled settle (List.length (tfields ts)) (selected active db t ts))) as Fs.
        { apply settled_alike; [| intros k; now apply Hs]. intros r Hr'. rewrite Es in Hr'. apply in_map_iff in Hr' as (r0 & <- & _). unfold pg_cells. now rewrite !map_length. }
        rewrite Es in Fs at 1.
        assert (forall s, In s (settled settle (List.length (tfields ts)) (selected active db t ts)) -> List.length s = List.length (tfields ts)) as Ls by (intros s; apply settled_lengths).
        set (fr := sql_frame ts (selected active db t ts)) in H1.
        assert (fr_rows fr = map (fun r => ([], r)) (settled settle (List.length (tfields ts)) (selected active db t ts))) as Er by reflexivity. rewrite Er in H1. clear Er. set (S := settled settle (List.length (tfields ts)) (selected active db t ts)) in *.
        assert (fr_cols fr = map CName (tfields ts)) as Efr by reflexivity. clearbody fr S.
        clear - H1 Fs Ls W Hin Efr. revert S H1 Fs Ls. generalize (e t) as rows. intros rows. revert rows. induction l as [| r l IH]; intros rows S H1 Fs Ls.
        * cbn [map] in Fs. inversion Fs; subst. inversion H1; subst. constructor.
        * cbn [map] in Fs. inversion Fs as [| ? s ? S' F1 F2]; subst. cbn [map] in H1. inversion H1 as [| ? row ? rows' G1 G2]; subst.
          constructor; [| apply (IH rows' S'); auto; intros; apply Ls; simpl; auto].
          assert (List.length s = List.length (tfields ts)) as L1 by (apply Ls; simpl; auto). clear IH G2 F2 H1 Fs Ls.
          apply (Forall2_nth_iff _ "" VNone) in G1 as [L2 G1]. apply (Forall2_nth_iff _ "" VNone). split; auto. intros i Hi Hq. specialize (G1 i Hi). destruct G1 as (v & [Gv | (_ & X & _)] & Hv); [| discriminate].
          destruct Gv as (j & A & B). rewrite Efr, nth_error_map in A. cbn [snd] in B. destruct (nth_error (tfields ts) j) as [y |] eqn:Ey; [| discriminate]. cbn [option_map] in A. injection A as A.
          assert (j = i) as ->.
          { apply (proj1 (NoDup_nth_error (tfields ts)) (proj2 W _ _ Hin)); [apply nth_error_Some; congruence |]. rewrite Ey, A. symmetry. now apply nth_error_nth'. }
          apply (Forall2_nth_iff _ VNone VNone) in F1 as [L3 F1]. unfold pg_cells in L3, F1. rewrite !map_length in L3, F1. specialize (F1 i Hi).
          rewrite map_map in F1. rewrite (nth_indep _ VNone ((fun x => pg_cell pt r (pg_name x)) "")) in F1 by (now rewrite map_length).
          rewrite (map_nth (fun x => pg_cell pt r (pg_name x)) (tfields ts) "" i) in F1. rewrite (nth_error_nth _ _ VNone B) in F1.
          rewrite Hv; auto. destruct Hq as [[Q1 Q2] | Q]; auto.
  Qed.
End Read.

Section Trip.
  Variable date_of : value -> option Z.
  Variable float_of : value -> option value.
  Variable settle : list value -> list value.
  Variable str_of : value -> string.
  Variable pg_text : value -> string.
  Variable pg_num : string -> option num.
  Variable pg_stamp : string -> option Z.
  Variable pg_bool : string -> option bool.
  Variable pg_int : Z -> option Z.
  Variable pg_float : Z -> Z.
  Variable pg_other : string -> value -> option value.
  Notation is_date := (is_date date_of).
  Notation coerce := (coerce pg_text pg_num pg_stamp pg_bool pg_int pg_float pg_other).
  Notation column_keeps := (column_keeps pg_int pg_float pg_other).
  Notation goes_in := (goes_in date_of).
  Notation stores := (stores date_of pg_text pg_num pg_stamp pg_bool pg_int pg_float pg_other).
  Notation pan_write_data := (pan_write_data date_of pg_text pg_num pg_stamp pg_bool pg_int pg_float pg_other).
  Notation pan_pg_create := (pan_pg_create date_of float_of settle str_of).
  Notation post_cell := (post_cell date_of float_of).
  Notation post_table := (post_table date_of float_of str_of).
  Notation pan_read_cell := (pan_read_cell date_of float_of).
  Notation fix_value := (fix_value date_of float_of str_of).
  Notation kept := (kept date_of float_of).

  (** A cell that reading leaves alone; within the flag, or valid when nulls stand for infinity. *)
  Definition stays (f : factory) (t x : string) (v : value) : Prop :=
    kept f t x v /\
    (forall m n, f_flag f = VNum m -> v = VNum n -> n = PInf \/ n = NInf \/ within m n) /\
    (f_flag f = VNone -> forall dt, field_type f t x = Some dt -> valid_data is_date dt v = true).

  (** The column of field [x] of [t] keeps what goes in for [v]. *)
  Definition column_ok (f : factory) (db : pgdb) (t x : string) (v : value) : Prop :=
    forall pt c, dget String.eqb db t = Some pt -> In c (pt_cols pt) -> c_name c = pg_name x -> column_keeps (c_type c) (goes_in f t x v).

  Lemma sql_null_value v : is_null v = false -> sql_null v = v.
  Proof. intros H. unfold sql_null. now rewrite H. Qed.
  Lemma sql_null_null v : is_null v = true -> sql_null v = VNone.
  Proof. intros H. unfold sql_null. now rewrite H. Qed.

  Lemma post_plain f b t x v : post_cell false f b t x v = pan_read_cell f b t x v.
  Proof. unfold PanIO.post_cell. now destruct (field_type f t x). Qed.

  Lemma goes_back f t fs bs x v c : t <> "parameters" -> good_flag (f_flag f) = true -> biases date_of f t fs = Ret bs -> In x fs -> stays f t x v ->
    alike (goes_in f t x v) c -> alike v (post_cell false f (bs x) t x (unflag (f_flag f) c)).
  Proof.
    intros Hne G Hb Hx (K & Hn & Hv) Hc. rewrite post_plain. apply par_neq in Hne. unfold PgPanFacts.goes_in in Hc. rewrite Hne in Hc.
    assert (forall w, sql_null (match f_flag f with
                   | VNone => match bias_now date_of f t x with Ret b => if is_bias_inf b v then VNone else v | Raise => v end
                   | flag => flagged flag v end) = w -> w = sql_null (put_cell f bs x v)) as Ep.
    { intros w <-. unfold put_cell. destruct (biases_ret date_of f t fs bs x Hb Hx) as [[F B] | [F B]].
      - rewrite F, B. now destruct (is_bias_inf (bs x) v).
      - rewrite B. cbn [is_bias_inf]. destruct (f_flag f); auto. congruence. }
    rewrite (Ep _ eq_refl) in Hc. clear Ep.
    assert (forall b, bs x = Some b -> f_flag f = VNone /\ exists dt, field_type f t x = Some dt /\ valid_data is_date dt VNone = false) as Hbias.
    { intros b Eb. destruct (biases_ret date_of _ _ _ _ _ Hb Hx) as [[F B] | [F B]]; [| congruence]. split; auto.
      rewrite Eb in B. destruct (bias_some _ _ _ _ _ B) as (dt & Hdt & _ & Hnull & _). eauto. }
    destruct (is_null v) eqn:En.
    - assert (sql_null (put_cell f bs x v) = VNone) as E.
      { unfold put_cell. destruct (is_bias_inf (bs x) v); [reflexivity |]. rewrite flagged_notnum by (intros n ->; discriminate). now apply sql_null_null. }
      rewrite E in Hc. pose proof (alike_null _ _ Hc eq_refl) as Nc. rewrite unflag_null by auto. right. split; auto.
      assert (bs x = None) as B.
      { destruct (bs x) as [b |] eqn:B; auto. destruct (Hbias b eq_refl) as (F & dt & Hdt & X). specialize (Hv F dt Hdt). destruct v; try discriminate; cbn in *; congruence. }
      rewrite B. exact (read_null date_of float_of f None t x c Nc).
    - destruct (is_bias_inf (bs x) v) eqn:Eb.
      + unfold put_cell in Hc. rewrite Eb in Hc. pose proof (alike_null _ _ Hc eq_refl) as Nc. rewrite unflag_null by auto.
        destruct (bs x) as [b |] eqn:B; [| discriminate]. cbn [is_bias_inf] in Eb. apply value_eqb_true in Eb. subst v. left.
        symmetry. exact (read_null date_of float_of f (Some b) t x c Nc).
      + unfold put_cell in Hc. rewrite Eb in Hc.
        assert (unflag (f_flag f) c = v) as Hu.
        { destruct v as [| | b | n | s | z]; try discriminate.
          - rewrite flagged_notnum in Hc by discriminate. apply alike_value in Hc; [| reflexivity]. subst c. now rewrite unflag_notnum by discriminate.
          - destruct (f_flag f) as [| | ? | m | ? | ?] eqn:F; try discriminate;
              try (rewrite unflag_other by discriminate; apply alike_value in Hc; [auto | reflexivity]).
            destruct (flag_pos m G) as (z & -> & Hz). destruct (Hn _ n eq_refl eq_refl) as [-> | [-> | W]].
            + rewrite flagged_pinf in Hc by exact Hz. apply alike_value in Hc; [| reflexivity]. subst c. now apply unflag_top.
            + rewrite flagged_ninf in Hc by exact Hz. apply alike_value in Hc; [| reflexivity]. subst c. now apply unflag_bottom.
            + rewrite flagged_within in Hc by exact W. apply alike_value in Hc; [| reflexivity]. subst c. now apply unflag_within.
          - rewrite flagged_notnum in Hc by discriminate. apply alike_value in Hc; [| reflexivity]. subst c. now rewrite unflag_notnum by discriminate.
          - rewrite flagged_notnum in Hc by discriminate. apply alike_value in Hc; [| reflexivity]. subst c. now rewrite unflag_notnum by discriminate. }
        rewrite Hu. left. symmetry. destruct (bs x); [apply pan_read_cell_bias; auto | now apply pan_read_cell_kept].
  Qed.

  (** ** Parameters *)

  (** The value [v] of the parameter [k], stored as [u]. *)
  Definition param_stays (f : factory) (k v u : value) : Prop :=
    (forall dt, param_type f k = Some dt -> valid_data is_date dt v = true) /\
    match v with
    | VNone | VNaN => is_null u = true
    | VStr s => u = v /\
        (forall dt, param_type f k = Some dt -> datetime dt = true -> date_of v = None) /\
        ((forall dt, param_type f k = Some dt -> number_allowed dt = true) -> float_of v = None)
    | VNum n => exists s, u = VStr s /\
        (forall dt, param_type f k = Some dt -> number_allowed dt = true /\ (datetime dt = true -> date_of u = None)) /\ float_of u = Some v
    | VDate z => exists s, u = VStr s /\ date_of u = Some z /\ exists dt, param_type f k = Some dt /\ datetime dt = true
    | VBool _ => False
    end.

  Lemma param_back f k v u c : param_stays f k v u -> alike u c -> alike v (fix_value false f k c).
  Proof.
    intros [Hv H] Hc. unfold PanIO.fix_value. cbn [andb].
    assert (forall w, is_null w = true -> v = w -> is_null u = true -> 
       alike v match (match param_type f k, c with
           | Some t, VStr _ => if datetime t then match adjust date_of c with Some d => if match param_type f k with Some t0 => valid_data is_date t0 (VDate d) | None => true end then Some d else None | None => None end
                               else None
           | _, _ => None
           end) with
    | Some d => VDate d
    | None => if match param_type f k with Some t => negb (number_allowed t) | None => false end
             then if negb match param_type f k with Some t => valid_data is_date t c | None => true end && match param_type f k with Some t => valid_data is_date t (VStr (str_of c)) | None => true end then VStr (str_of c) else c
             else match to_float float_of c with Some w => w | None => c end
    end) as Hnull.
    { intros w Nw -> Nu. pose proof (alike_null _ _ Hc Nu) as Nc. assert (alike w c) as Ac by now right.
      destruct (param_type f k) as [dt |] eqn:Et.
      + assert (match c with VStr _ => if datetime dt then match adjust date_of c with Some d => if valid_data is_date dt (VDate d) then Some d else None | None => None end else None | _ => None end = None) as ->
          by (destruct c; try discriminate; auto).
        destruct (number_allowed dt); cbn [negb].
        * destruct c; try discriminate; cbn [to_float]; right; auto.
        * specialize (Hv dt eq_refl). assert (valid_data is_date dt c = true) as -> by (destruct w, c; try discriminate; auto). cbn [negb andb]. auto.
      + destruct c; try discriminate; cbn [to_float]; right; auto. }
    destruct v as [| | b | n | s | z]; [now apply (Hnull VNone) | now apply (Hnull VNaN) | destruct H | | |].
    - destruct H as (s & -> & H1 & H2). apply alike_value in Hc; [| reflexivity]. subst c. left.
      destruct (param_type f k) as [dt |] eqn:Et.
      + destruct (H1 dt eq_refl) as [N1 N2]. rewrite N1. cbn [negb to_float]. rewrite H2. destruct (datetime dt); auto. cbn [adjust]. now rewrite (N2 eq_refl).
      + cbn [to_float]. now rewrite H2.
    - destruct H as (-> & H1 & H3). apply alike_value in Hc; [| reflexivity]. subst c. left.
      destruct (param_type f k) as [dt |] eqn:Et.
      + assert ((if datetime dt then match adjust date_of (VStr s) with Some d => if valid_data is_date dt (VDate d) then Some d else None | None => None end else None) = None) as ->.
        { destruct (datetime dt) eqn:Ed; auto. cbn [adjust]. now rewrite (H1 dt eq_refl Ed). }
        destruct (number_allowed dt) eqn:Na; cbn [negb].
        * cbn [to_float]. rewrite H3; auto. intros dt' X. congruence.
        * now rewrite (Hv dt eq_refl).
      + cbn [to_float]. rewrite H3; auto. discriminate.
    - destruct H as (s & -> & H1 & dt & Hdt & Hdd). apply alike_value in Hc; [| reflexivity]. subst c. left. rewrite Hdt, Hdd. cbn [adjust]. rewrite H1. now rewrite (Hv dt Hdt).
  Qed.

  (** ** Rows and tables *)

  Definition row_stays (f : factory) (db : pgdb) (t : string) (ts : tschema) (r : list value) : Prop :=
    List.length r = List.length (tfields ts) /\
    (if String.eqb t "parameters" && has_params f
     then exists s v, r = [VStr s; v] /\
            forall pt c u, dget String.eqb db t = Some pt -> In c (pt_cols pt) -> c_name c = pg_name (last (tfields ts) "") ->
              coerce (c_type c) (sql_null v) = Some u -> param_stays f (VStr s) v u
     else forall x v, In (x, v) (combine (tfields ts) r) -> column_ok f db t x v /\ (t <> "parameters" -> stays f t x v)) /\
    (String.eqb t "parameters" && has_params f = true -> forall x v, In (x, v) (combine (tpk ts) r) -> column_ok f db t x v).

  (** The cells of a stored row. *)
  Definition cells_in (f : factory) (db : pgdb) (t : string) (ts : tschema) (r s : list value) : Prop :=
    Forall2 (fun xv u => exists pt c, dget String.eqb db t = Some pt /\ In c (pt_cols pt) /\ c_name c = pg_name (fst xv) /\
               coerce (c_type c) (goes_in f t (fst xv) (snd xv)) = Some u) (combine (tfields ts) r) s.

  Lemma goes_in_param f x v : goes_in f "parameters" x v = sql_null v.
  Proof. unfold PgPanFacts.goes_in. now rewrite String.eqb_refl. Qed.

  Lemma goes_alike v c : alike (sql_null v) c -> alike v c.
  Proof. intros H. destruct (is_null v) eqn:E; [rewrite sql_null_null in H by auto; right; split; auto; now apply (alike_null _ _ H) | now rewrite sql_null_value in H by auto]. Qed.

  Lemma table_comes f db t ts l S m : wf_tschema ts -> good_flag (f_flag f) = true -> (t = "parameters" -> has_params f = true -> exists k v, ts = mkT [k] [v]) ->
    (t <> "parameters" -> exists bs, biases date_of f t (tfields ts) = Ret bs) ->
    (forall r, In r l -> row_stays f db t ts r) -> Forall2 (cells_in f db t ts) l S -> Forall2 (Forall2 alike) S m ->
    exists l', post_table false f t (tfields ts) m = Ret l' /\ Forall2 (Forall2 alike) l l'.
  Proof.
    intros W G Hp Hbs Hr Fc F. assert (PanIOFacts.rect (tfields ts) l) as R by (intros r H; now apply Hr).
    destruct (string_dec t "parameters") as [-> | Hne].
    - unfold PanIO.post_table. unfold row_stays in Hr. rewrite String.eqb_refl in *. cbn [andb] in Hr.
      destruct (has_params f) eqn:Eh.
      + destruct (Hp eq_refl eq_refl) as (k & w & ->). cbn [tfields tpk tdf app last] in *. clear Hp R. revert S m Fc F. induction l as [| r l IH]; intros S m Fc F.
        * inversion Fc; subst. inversion F; subst. exists []. split; [reflexivity | constructor].
        * inversion Fc as [| ? s0 ? S' Fc1 Fc2]; subst. inversion F as [| ? c ? m' Fr Fl]; subst.
          destruct (IH (fun r' H => Hr r' (or_intror H)) S' m' Fc2 Fl) as (l' & El & Fl').
          destruct (Hr r (or_introl eq_refl)) as (_ & (s & v & -> & Hs) & Hk).
          unfold cells_in in Fc1. cbn [tfields tpk tdf app combine] in Fc1. inversion Fc1 as [| ? u1 ? s1 C1 Fc3]; subst. inversion Fc3 as [| ? u2 ? s2 C2 Fc4]; subst. inversion Fc4; subst.
          inversion Fr as [| ? a ? r1 F1 F2]; subst. inversion F2 as [| ? b ? r2 F3 F4]; subst. inversion F4; subst.
          destruct C1 as (pt & c1 & G1 & I1 & N1 & C1). cbn [fst snd] in N1, C1.
          assert (u1 = VStr s) as ->.
          { pose proof (Hk eq_refl k (VStr s) (or_introl eq_refl) pt c1 G1 I1 N1) as Kc. apply (keeps_spec pg_text pg_num pg_stamp pg_bool pg_int pg_float pg_other) in Kc. rewrite Kc in C1. rewrite goes_in_param in C1. rewrite sql_null_value in C1 by reflexivity. congruence. }
          apply alike_value in F1; [| reflexivity]. subst a.
          destruct C2 as (pt2 & c2 & G2 & I2 & N2 & C2). cbn [fst snd] in N2, C2. rewrite goes_in_param in C2. specialize (Hs pt2 c2 u2 G2 I2 N2 C2).
          exists ([VStr s; fix_value false f (VStr s) b] :: l'). split.
          -- cbn [mapO]. rewrite El. reflexivity.
          -- constructor; auto. constructor; [apply alike_refl |]. constructor; [| constructor]. eapply param_back; eauto.
      + exists m. split; auto. clear Hp Hbs R. revert S m Fc F. induction l as [| r l IH]; intros S m Fc F; inversion Fc as [| ? s ? S' Fc1 Fc2]; subst; inversion F as [| ? c ? m' Fr Fl]; subst; constructor.
        * destruct (Hr r (or_introl eq_refl)) as (L & H & _). unfold cells_in in Fc1. clear - H Fr Fc1 L. revert r s c L H Fr Fc1. induction (tfields ts) as [| x fs IH]; intros [| v r] s c L H Fr Fc1; try discriminate; cbn [combine] in *.
          -- inversion Fc1; subst. inversion Fr; subst. constructor.
          -- inversion Fc1 as [| ? u ? s' C1 Fc2]; subst. inversion Fr as [| ? b ? c' F1 F2]; subst. constructor.
             ++ destruct C1 as (pt & c1 & G1 & I1 & N1 & C1). cbn [fst snd] in N1, C1. destruct (H x v (or_introl eq_refl)) as [Hc _].
                specialize (Hc pt c1 G1 I1 N1). apply (keeps_spec pg_text pg_num pg_stamp pg_bool pg_int pg_float pg_other) in Hc. rewrite Hc in C1. injection C1 as <-. rewrite goes_in_param in F1. now apply goes_alike.
             ++ apply (IH r s'); auto. intros y w Hy. apply H. simpl. auto.
        * eapply IH; eauto. intros r' H. apply Hr. simpl. auto.
    - destruct (Hbs Hne) as (bs & Eb). pose proof Hne as Hne'. apply par_neq in Hne'.
      assert (Forall2 (Forall2 alike) (map (mapf (tfields ts) (goes_in f t)) l) m) as F'.
      { clear - F Fc Hr Hne'. revert S m Fc F. induction l as [| r l IH]; intros S m Fc F; inversion Fc as [| ? s ? S' Fc1 Fc2]; subst; inversion F as [| ? c ? m' Fr Fl]; subst; cbn [map]; constructor; [| eapply IH; eauto; intros; apply Hr; simpl; auto].
        destruct (Hr r (or_introl eq_refl)) as (L & H & _). rewrite Hne' in H. cbn [andb] in H. unfold cells_in in Fc1. clear - H Fr Fc1 L. revert r s c L H Fr Fc1. unfold mapf. induction (tfields ts) as [| x fs IH]; intros [| v r] s c L H Fr Fc1; try discriminate; cbn [combine map] in *.
        -- inversion Fc1; subst. inversion Fr; subst. constructor.
        -- inversion Fc1 as [| ? u ? s' C1 Fc2]; subst. inversion Fr as [| ? b ? c' F1 F2]; subst. constructor.
           ++ destruct C1 as (pt & c1 & G1 & I1 & N1 & C1). cbn [fst snd] in N1, C1 |- *. destruct (H x v (or_introl eq_refl)) as [Hc _].
              specialize (Hc pt c1 G1 I1 N1). apply (keeps_spec pg_text pg_num pg_stamp pg_bool pg_int pg_float pg_other) in Hc. rewrite Hc in C1. injection C1 as <-. exact F1.
           ++ apply (IH r s'); auto. intros y w Hy. apply H. simpl. auto. }
      assert (PanIOFacts.rect (tfields ts) m) as Rm.
      { clear - F' R. revert m F'. induction l as [| r l IH]; intros m F'; inversion F' as [| ? c ? m' Fr Fl]; subst; [intros r' [] |]; intros r' [<- | H].
        - apply FramesFacts.Forall2_length in Fr. rewrite mapf_length in Fr; auto. apply R. simpl. auto.
        - apply (IH (fun r H => R r (or_intror H)) m' Fl r' H). }
      rewrite post_eq by auto. rewrite Eb. eexists. split; [reflexivity |].
      eapply (rows_mapf (stays f t)) with (g := goes_in f t); eauto.
      + intros x v c Hx Hs Hc. eapply goes_back; eauto.
      + intros r x v H Hx. apply Hr in H as (_ & H & _). rewrite Hne' in H. cbn [andb] in H. now apply H.
  Qed.

  Variable f : factory.
  Hypothesis Hd : decl_ok (f_decl f) = true.
  Hypothesis Hw : fks_within (f_fks f) (map fst (plain_schema f)).

  Theorem pan_pg_round_trip : forall auto go pre active active' d db db2 db3, good_flag (f_flag f) = true -> params_shape f -> db_wf db ->
    (forall i, go i = true) ->
    (forall t ts, In (t, ts) (plain_schema f) -> deleted pre t = true) ->
    (active = "" \/ forall t ts x, In (t, ts) (plain_schema f) -> In x (tfields ts) -> pg_name x <> active) ->
    (active' = "" \/ active' = active /\ forall t pt c, dget String.eqb db t = Some pt -> In c (pt_cols pt) -> c_name c = active -> c_type c = CBool) ->
    (forall t ts r, In (t, ts) (plain_schema f) -> In r (d t) -> row_stays f db t ts r) ->
    pan_write_data f auto go pre active d db = (true, db2) -> NoDup (map fst db3) -> same_rows db2 db3 ->
    (forall t ts k, In (t, ts) (plain_schema f) -> gentle settle (Frames.column (selected active' db3 t ts) k)) ->
    exists e, pan_pg_create f active' db3 = Ret e /\
      forall t ts, In (t, ts) (plain_schema f) -> exists l, Permutation (d t) l /\ Forall2 (Forall2 alike) l (e t).
  Proof.
    intros auto go pre active active' d db db2 db3 G Hp Hdb Hgo Hpre Hclash Hact Hr Hwr N3 Hlike Hs.
    pose proof (plain_wf f Hd) as W.
    assert (rows_fit f d) as Hfit by (intros t ts r Hin H; now apply (Hr t ts r Hin H)).
    assert (forall t ts, In (t, ts) (plain_schema f) -> t <> "parameters" -> exists bs, biases date_of f t (tfields ts) = Ret bs) as Hbs.
    { intros t ts Hin Hne. unfold PgPan.pan_write_data in Hwr. destruct (String.eqb (pg_name active) active && names_ok f && _); [| discriminate].
      destruct (handle_preexisting f pre db) as [[|] db1]; [| discriminate]. destruct (frame_data date_of f active (active_tables db active) d) as [l |] eqn:L; [| discriminate].
      apply (frame_data_spec date_of f Hd Hw) in L as [_ L]. destruct (L _ _ Hin) as (w & Ew & _).
      destruct (pan_write_eq date_of f t (tfields ts) (d t) w Hne G (proj2 W _ _ Hin)) as (bs & E & _); eauto. intros r H. now apply (Hfit t ts). }
    destruct (pan_write_ok date_of pg_text pg_num pg_stamp pg_bool pg_int pg_float pg_other f Hd Hw auto go pre active d db db2 G Hdb Hfit Hwr)
      as (Hn & Ha & l1 & l2 & El & _ & Hstop & Hst & _).
    assert (l2 = []) as -> by (destruct l2; auto; destruct Hstop as (k & _ & X); [discriminate |]; rewrite Hgo in X; discriminate).
    rewrite app_nil_r in El.
    assert (pg_name active' = active') as Ha' by (destruct Hact as [-> | [-> _]]; auto).
    (* rows selected *)
    assert (forall t ts, In (t, ts) (plain_schema f) -> exists l, Permutation (d t) l /\ Forall2 (cells_in f db t ts) l (selected active' db3 t ts)) as Hsel.
    { intros t ts Hin. destruct (Hst _ _ Hin) as (pt & rows & Gp & Hcols & G2 & F & _). rewrite (Hpre _ _ Hin) in G2. cbn [app] in G2.
      assert (In t l1) as Ht by (rewrite <- El; apply (ordered_In f Hd Hw); now apply (in_map fst) in Hin). specialize (F Ht).
      destruct (Hlike _ _ G2) as (rows3 & G3 & P). cbn [pt_rows with_rows] in P.
      destruct (Forall2_perm _ _ _ _ F P) as (l & Pl & Fl). exists l. split; auto.
      unfold selected. rewrite G3. unfold select_rows. cbn [pt_rows with_rows].
      rewrite filter_all.
      - assert (forall r, In r l -> List.length r = List.length (tfields ts)) as Lr by (intros r H; apply (Hfit t ts); auto; eapply Permutation_in; [symmetry |]; eauto).
        change (Forall2 (cells_in f db t ts) l (map (fun r => pg_cells pt r (map pg_name (tfields ts))) rows3)).
        clear - Fl Lr Gp Hcols Hclash Hin. induction Fl as [| r r' l m S _ IH]; simpl; constructor; [| apply IH; intros; apply Lr; simpl; auto].
        destruct S as [_ S]. assert (List.length r = List.length (tfields ts)) as L by (apply Lr; simpl; auto). unfold cells_in, pg_cells. rewrite map_map.
        assert (forall fs (q : list value), List.length q = List.length fs -> (forall x v, In (x, v) (combine fs q) -> In (x, v) (combine (tfields ts) r)) ->
          Forall2 (fun (xv : string * value) (u : value) => exists pt c, dget String.eqb db t = Some pt /\ In c (pt_cols pt) /\ c_name c = pg_name (fst xv) /\ coerce (c_type c) (goes_in f t (fst xv) (snd xv)) = Some u)
            (combine fs q) (map (fun x => pg_cell pt r' (pg_name x)) fs)) as X; [| apply X; auto].
        induction fs as [| x fs IHf]; intros [| v q] Lq Hq; try discriminate; cbn [combine map]; constructor.
        + assert (In (x, v) (combine (tfields ts) r)) as Hxv by (apply Hq; simpl; auto). assert (In x (tfields ts)) as Hx by (eapply in_combine_l; eauto).
          specialize (Hcols x Hx). apply in_map_iff in Hcols as (c & Ec & Hc). exists pt, c. split; auto. split; auto. split; auto. cbn [fst snd].
          destruct (S c Hc) as (_ & _ & S3 & _). rewrite <- Ec. apply S3 with (x := x); auto.
          rewrite Ec. destruct Hclash as [-> | Hclash]; auto. left. eapply Hclash; eauto.
        + apply IHf; auto. intros y w Hy. apply Hq. simpl. auto.
      - intros r Hr3. rewrite active_mem by auto. rewrite G3. cbn [pt_cols with_rows].
        destruct (negb (String.eqb active' "") && mem_str active' (map c_name (pt_cols pt))) eqn:M; auto.
        apply andb_true_iff in M as [M1 M2]. destruct Hact as [-> | [-> Hb]]; [discriminate |].
        apply mem_str_iff in M2. apply in_map_iff in M2 as (c & Ec & Hcin).
        destruct (Forall2_In_r _ _ _ _ Fl Hr3) as (r0 & _ & _ & S). destruct (S c Hcin) as (_ & S2 & _).
        apply negb_true_iff, String.eqb_neq in M1. specialize (S2 Ec M1). rewrite (Hb t pt c Gp Hcin Ec) in S2. cbn [Pg.coerce] in S2. injection S2 as S2.
        unfold pg_cell. cbn [pt_cols with_rows]. fold (pg_cell pt r active). rewrite <- Ec, <- S2. reflexivity. }
    rewrite (pan_pg_eq date_of float_of settle str_of f Hd active' db3). rewrite Ha', String.eqb_refl, Hn. cbn [andb].
    assert (exists missing, check_tables f db3 false = Ret missing) as (missing & ->).
    { unfold check_tables. destruct (forallb _ (plain_schema f)) eqn:Fc.
      - rewrite andb_false_r. eauto.
      - exfalso. apply not_true_iff_false in Fc. apply Fc. apply forallb_forall. intros [t ts] H. cbn [fst snd].
        destruct (Hst _ _ H) as (pt & rows & _ & Hcols & G2 & _). destruct (Hlike _ _ G2) as (rows3 & -> & _). cbn [pt_cols with_rows].
        apply forallb_forall. intros x Hx. apply mem_str_iff. auto. }
    assert (forall t ts, In (t, ts) (plain_schema f) -> exists l l', Permutation (d t) l /\
       post_table false f t (tfields ts) (settled settle (List.length (tfields ts)) (selected active' db3 t ts)) = Ret l' /\ Forall2 (Forall2 alike) l l') as Htab.
    { intros t ts Hin. destruct (Hsel t ts Hin) as (l & Pl & Fl).
      destruct (table_comes f db t ts l (selected active' db3 t ts) (settled settle (List.length (tfields ts)) (selected active' db3 t ts))) as (l' & E & F); auto.
      - now apply W in Hin.
      - intros -> Hh. destruct (Hp Hh) as (k & v & Hk). exists k, v. eapply pair_fst_inj; eauto. apply W.
      - intros r H. apply (Hr t ts r Hin). eapply Permutation_in; [symmetry |]; eauto.
      - apply settled_alike; [| intros k; now apply Hs]. intros r H. unfold selected in H. destruct (dget String.eqb db3 t) as [pt |]; [| contradiction].
        unfold select_rows in H. apply in_map_iff in H as (r0 & <- & _). unfold pg_cells. now rewrite !map_length.
      - exists l, l'. auto. }
    assert (exists L, mapO (fun tts => bindO (post_table false f (fst tts) (tfields (snd tts))
                      (settled settle (List.length (tfields (snd tts))) (selected active' db3 (fst tts) (snd tts)))) (fun l => Ret (fst tts, l))) (plain_schema f) = Ret L) as (L & EL).
    { apply mapO_total. intros [t ts] Hin. cbn [fst snd]. destruct (Htab t ts Hin) as (l & l' & _ & -> & _). simpl. eauto. }
    rewrite EL. cbn [bindO]. eexists. split; [reflexivity |]. intros t ts Hin.
    pose proof (tables_ret (fun tts => post_table false f (fst tts) (tfields (snd tts)) (settled settle (List.length (tfields (snd tts))) (selected active' db3 (fst tts) (snd tts)))) _ L t ts [] (proj1 W) EL Hin) as Et.
    cbn [fst snd] in Et. destruct (Htab t ts Hin) as (l & l' & Pl & El' & Fl). exists l. split; auto. congruence.
  Qed.
End Trip.
