(** * CSV directories of objects with generic tables are read back. *)
From Coq Require Import ZArith Bool List String Arith Lia Permutation.
From Verif Require Import PyVal PyValFacts PyDict PyDictFacts PyStr ListFacts TypeDict Data FindTypes FindTypesFacts FK Obj ObjFacts ObjMore
  Factory FactoryFacts InfIO InfIOFacts Params Names NamesFacts Utils UtilsMore Json ObjRows JsonFacts JsonDups TripFacts Csv CsvFacts CsvRows CsvTrip CsvMore Generic GenericFacts.
Import ListNotations.
Local Open Scope string_scope.
Local Open Scope list_scope.

Section Csv.
  Variable date_of : value -> option Z.
  Variable float_of : value -> option value.
  Variable show_num : num -> string.
  Variable show_date : Z -> string.
  Notation text := (csv_text show_num show_date).
  Variable f : factory.
  Variable g : generics.

  Lemma nonblank_lines : forall (fs : list string) (lines : list (list string)), fs <> [] -> (forall l, In l lines -> List.length l = List.length fs) -> filter nonblank lines = lines.
  Proof.
    intros fs lines Hne B. induction lines as [| l lines IH]; auto. simpl. assert (nonblank l = true) as ->.
    - destruct l; auto. specialize (B [] (or_introl eq_refl)). destruct fs; [contradiction | discriminate].
    - f_equal. apply IH. intros; apply B; simpl; auto.
  Qed.

  Lemma text_rows_back : forall t ts tb rows', tfields ts <> [] -> NoDup (map lower (tfields ts)) -> table_ok ts tb ->
    Forall2 (fun r r' => Forall2 (fun fx v' => text_trip date_of float_of show_num show_date f t ts (fst fx) (snd fx) v') (combine (tfields ts) r) r') (full_rows tb) rows' ->
    csv_rows date_of float_of f true t ts (text_lines show_num show_date true (tfields ts) (full_rows tb)) = Ret rows'.
  Proof.
    intros t ts tb rows' Hne N Hok H. unfold text_lines.
    assert (forall r, In r (full_rows tb) -> List.length r = List.length (tfields ts)) as L by (intros r; now apply full_length).
    assert (forall l, In l (map (map text) (full_rows tb)) -> List.length l = List.length (tfields ts)) as Ll.
    { intros l Hl. apply in_map_iff in Hl as (r & <- & Hr). rewrite map_length. auto. }
    rewrite (rows_found date_of float_of f t ts (tfields ts) (map (map text) (full_rows tb)) (map (map VStr) (map (map text) (full_rows tb)))).
    - clear Ll Hok. induction H as [| r r' rows rows' Hr _ IH]; auto. cbn [map mapO]. rewrite IH by (intros; apply L; simpl; auto).
      assert (mapO (fun xv => csv_cell date_of float_of f t (fst xv) (snd xv)) (combine (tfields ts) (map VStr (map text r))) = Ret r') as ->; auto.
      specialize (L r (or_introl eq_refl)). clear IH. revert r r' L Hr. generalize (tfields ts). clear. induction l as [| x fs IH]; intros [| v r] r' L Hr; try discriminate; simpl in *.
      + now inversion Hr.
      + inversion Hr as [| ? ? ? ? A B]; subst. unfold text_trip in A. cbn [fst snd] in *. rewrite A, (IH r _ (eq_add_S _ _ L) B). reflexivity.
    - intros x Hx. now apply header_own.
    - rewrite (nonblank_lines (tfields ts)); auto. revert Ll. generalize (map (map text) (full_rows tb)). clear - N. induction l as [| l0 l IH]; intros Ll; constructor.
      + apply full_line; auto. apply Ll; simpl; auto.
      + apply IH. intros; apply Ll; simpl; auto.
  Qed.

  (** The cell of a generic table is written as text and read. *)
  Definition gen_text_kept (t x : string) (v : value) : Prop := gen_csv_cell date_of float_of f t x (VStr (text v)) = Ret v.

  Lemma own_columns : forall (h : list string) x, NoDup (map lower h) -> In x h -> List.length (columns_of h x) = 1.
  Proof.
    intros h x N H. unfold columns_of. induction h as [| a h IH]; [contradiction |]. cbn [map] in N. apply NoDup_cons_iff in N as [Ha N]. cbn [filter].
    destruct (String.eqb_spec (lower a) (lower x)) as [E | E].
    - cbn [List.length]. f_equal. assert (filter (fun k => String.eqb (lower k) (lower x)) h = []) as ->; auto.
      apply filter_none'. intros b Hb. apply String.eqb_neq. intros E'. apply Ha. rewrite E, <- E'. now apply in_map.
    - destruct H as [-> | H]; [contradiction | auto].
  Qed.

  Lemma gen_row_back : forall t (h : list string) r, NoDup (map lower h) -> List.length r = List.length h ->
    (forall x v, In (x, v) (combine h r) -> gen_text_kept t x v) -> gen_csv_row date_of float_of f t h (map text r) = Ret r.
  Proof.
    intros t h r N L H. unfold gen_csv_row. rewrite map_length, L, Nat.ltb_irrefl.
    rewrite short_full by (now rewrite map_length).
    rewrite (dict_of_distinct String.eqb).
    - cbv zeta.
      assert (map fst (combine h (map VStr (map text r))) = h) as Eh.
      { clear - L. revert r L. induction h as [| x h IH]; intros [| v r] L; try discriminate; simpl; auto. f_equal. apply IH. now injection L. }
      rewrite Eh.
      assert (forallb (fun x => Nat.eqb (List.length (columns_of h x)) 1) h = true) as ->.
      { apply forallb_forall. intros x Hx. now rewrite own_columns. }
      clear - H L. revert r L H. induction h as [| x h IH]; intros [| v r] L H; try discriminate; auto. simpl. unfold gen_text_kept in H.
      rewrite (H x v) by (simpl; auto). rewrite (IH r); auto. intros. apply H. simpl. auto.
    - apply (keys_distinct_NoDup String.eqb String.eqb_eq).
      assert (map fst (combine h (map VStr (map text r))) = h) as ->.
      { clear - L. revert r L. induction h as [| x h IH]; intros [| v r] L; try discriminate; simpl; auto. f_equal. apply IH. now injection L. }
      now apply NoDup_lower.
  Qed.

  Lemma gen_frame_back : forall t (h : list string) rows, h <> [] -> NoDup (map lower h) -> rows <> [] -> (forall r, In r rows -> List.length r = List.length h) ->
    (forall r x v, In r rows -> In (x, v) (combine h r) -> gen_text_kept t x v) ->
    gen_csv_frame date_of float_of f t (text_lines show_num show_date true h rows) = Ret (mkG h rows).
  Proof.
    intros t h rows Hne N Hr L H. unfold gen_csv_frame, text_lines.
    rewrite (nonblank_lines h); auto; [| intros l Hl; apply in_map_iff in Hl as (r & <- & Hl); rewrite map_length; auto].
    assert (mapO (gen_csv_row date_of float_of f t h) (map (map text) rows) = Ret rows) as ->.
    { clear Hr. induction rows as [| r rows IH]; auto. cbn [map mapO]. rewrite (gen_row_back t h r); auto; [| apply L; simpl; auto | intros; eapply H; simpl; eauto].
      rewrite IH; auto; intros; [apply L | eapply H]; simpl; eauto. }
    cbn [bindO].
    assert (map fst (dict_of String.eqb (map (fun x : string => (x, tt)) h)) = h) as ->.
    { rewrite (dict_of_distinct String.eqb).
      - rewrite map_map. cbn [fst]. apply map_id.
      - apply (keys_distinct_NoDup String.eqb String.eqb_eq). rewrite map_map. cbn [fst]. rewrite map_id. now apply NoDup_lower. }
    destruct rows; [contradiction | reflexivity].
  Qed.

  (** Reading the tables with fields. *)
  Lemma csv_read_back : forall hdr dir (d d1 : obj), decl_ok (f_decl f) = true ->
    obj_ok (plain_schema f) d1 -> obj_keys (plain_schema f) d1 -> proper_keys (plain_schema f) d1 ->
    (forall t ts, In (t, ts) (plain_schema f) -> adjust_params date_of float_of f d1 t = d t) ->
    (forall t ts, In (t, ts) (plain_schema f) -> exists file, file_of dir t = Ret (Some file) /\ csv_rows date_of float_of f hdr t ts file = Ret (full_rows (d1 t))) ->
    exists e, csv_create date_of float_of f hdr dir = Ret e /\ forall t ts, In (t, ts) (plain_schema f) -> e t = d t.
  Proof.
    intros hdr dir d d1 Hd Hok1 Hks1 Hpr1 Hadj Hfile.
    destruct (created_ok date_of float_of f (csv_input date_of float_of f hdr dir) d1) as (d2 & E & F); auto.
    - intros t ts Hin. destruct (Hfile _ _ Hin) as (file & B & A). unfold gives, csv_input. cbn [fst snd]. rewrite B. cbn [bindO]. rewrite A. cbn [bindO].
      assert (rows_table ts (full_rows (d1 t)) = d1 t) as Et.
      { apply rows_table_full; [now apply Hok1 |]. specialize (Hks1 _ _ Hin). specialize (Hpr1 _ _ Hin). destruct (d1 t); auto. }
      destruct (full_rows (d1 t)) as [| r0 rs0] eqn:Er.
      + left. split; [reflexivity |]. rewrite <- Et. unfold rows_table, no_rows. now destruct (tpk ts).
      + right. rewrite <- Er in *. eexists. split; [reflexivity |].
        destruct (built_ok (f_defaults f) t ts (full_rows (d1 t))) as [X Y]; [intros r Hr; now apply (full_length ts (d1 t) r (Hok1 _ _ Hin)) |].
        rewrite X, Y, Et. auto.
    - exists (adjust_params date_of float_of f d2). split; [exact E |]. intros t ts Hin. rewrite <- (Hadj t ts Hin).
      unfold adjust_params. now rewrite (F t ts Hin).
  Qed.

  Definition gen_cells_kept : Prop := forall t r x v, In t (generic_tables f) -> In r (g_rows (g t)) -> In (x, v) (combine (g_cols (g t)) r) -> gen_text_kept t x v.

  Theorem gen_csv_trip : forall d, decl_ok (f_decl f) = true -> has_generics f = true -> frames_ok f g ->
    obj_ok (plain_schema f) d -> obj_keys (plain_schema f) d -> proper_keys (plain_schema f) d ->
    cells_kept f (text_trip date_of float_of show_num show_date f) d ->
    params_kept date_of float_of f (text_trip date_of float_of show_num show_date f) d -> gen_cells_kept ->
    forall dir others, Permutation dir (new_files show_num show_date f g true d ++ others) -> unrelated f others ->
    exists e l, gen_csv_create date_of float_of f true dir = Ret (e, l) /\ (forall t ts, In (t, ts) (plain_schema f) -> e t = d t) /\
      map fst l = generic_tables f /\
      forall t fr, In (t, fr) l -> fr = frame_from (g_cols (g t)) (g_rows (g t)).
  Proof.
    intros d Hd Hgen Hfr Hok Hks Hpr Hc Hp Hg dir others P Ho.
    destruct (free_exists f g Hd Hfr) as (f' & Hf). destruct (free_spec f g f' Hf) as (Hd' & Ed' & Es & Hpl & _).
    set (new := new_files show_num show_date f g true d) in *.
    assert (map fst (f_decl f') = map fst (plain_schema f) ++ filled f g) as En by (rewrite Ed'; apply decl_names).
    assert (unrelated f' others) as Ho'.
    { intros name file t Hin Ht. apply (Ho name file t Hin). apply names_split. rewrite En in Ht. apply in_app_iff in Ht as [Ht | Ht]; auto. apply filled_In in Ht. tauto. }
    assert (map fst new = map (fun t => (csv_name false (map fst (f_decl f')) t, true)) (map fst (f_decl f'))) as Hn.
    { rewrite En. unfold new, new_files. rewrite !map_app, !map_map. reflexivity. }
    assert (forall t file, In (append t ".csv", true, file) new -> In t (map fst (f_decl f')) -> file_of dir t = Ret (Some file)) as Hff.
    { intros t file Hin Ht. eapply (file_found f' false new dir others); eauto. }
    destruct (before_adjustment date_of float_of f (text_trip date_of float_of show_num show_date f) d) as (d1 & Hok1 & Hks1 & Hpr1 & Hrows & Hadj); auto.
    destruct (csv_read_back true dir d d1) as (e & Ee & He); auto.
    { intros t ts Hin. exists (text_lines show_num show_date true (tfields ts) (full_rows (d t))). split.
      - apply Hff.
        + unfold new, new_files. apply in_app_iff. left. apply in_map_iff. exists (t, ts). auto.
        + rewrite En. apply in_app_iff. left. now apply (in_map fst) in Hin.
      - destruct (plain_fields f t ts Hd Hin) as [Hne N]. apply text_rows_back; auto. }
    set (rd := fun t => bindO (file_of dir t) (fun file =>
                 match file with
                 | None => Ret (t, mkG [] [])
                 | Some file => bindO (gen_csv_frame date_of float_of f t file) (fun fr => Ret (t, fr))
                 end)).
    assert (forall t, In t (generic_tables f) -> rd t = Ret (t, frame_from (g_cols (g t)) (g_rows (g t)))) as Hrd.
    { intros t Hin. unfold rd. destruct (g_rows (g t)) as [| r0 rows0] eqn:Er.
      - assert (file_of dir t = Ret None) as ->; [| reflexivity]. unfold file_of, get_file_path.
        assert (filter (fun e0 : string * bool => snd e0 && csv_match t (fst e0)) (map fst dir) = []) as ->; [| reflexivity].
        apply filter_none'. intros [n b] Hnb. cbn [fst snd]. apply in_map_iff in Hnb as ([[n' b'] file] & E & Hnb). cbn [fst] in E. injection E as -> ->.
        destruct b; auto. cbn [andb]. apply (Permutation_in _ P) in Hnb. apply in_app_iff in Hnb as [Hnb | Hnb].
        + apply not_true_iff_false. intros Hm.
          assert (exists t', In t' (map fst (plain_schema f) ++ filled f g) /\ n = append t' ".csv") as (t' & Ht' & ->).
          { unfold new, new_files in Hnb. apply in_app_iff in Hnb as [Hnb | Hnb]; apply in_map_iff in Hnb as (p & E & Hp'); injection E as <- <-; eexists; (split; [| reflexivity]);
              apply in_app_iff; [left; now apply in_map | right; auto]. }
          assert (t = t') as ->.
          { apply (csv_match_own false (map fst (f_decl f)) t' t); auto.
            - now apply decl_ok_legal.
            - apply names_split. apply in_app_iff in Ht' as [Ht' | Ht']; auto. apply filled_In in Ht'. tauto.
            - apply names_split. auto. }
          apply in_app_iff in Ht' as [Ht' | Ht'].
          * apply in_map_iff in Ht' as ([t1 ts1] & E & Ht'). cbn [fst] in E. subst t1. pose proof (plain_not_generic f t' ts1 Hd Ht') as X. rewrite (generic_is f t' Hd Hin) in X. discriminate.
          * apply filled_In in Ht'. tauto.
        + unfold csv_match. apply String.eqb_neq. apply (Ho n file t Hnb). apply names_split. auto.
      - assert (g_rows (g t) <> []) as Hne by (rewrite Er; discriminate). rewrite <- Er.
        rewrite (Hff t (text_lines show_num show_date true (g_cols (g t)) (g_rows (g t)))).
        + cbn [bindO]. destruct (Hfr t Hin Hne) as (G1 & G2 & G3). rewrite (gen_frame_back t); auto; [| intros; eapply Hg; eauto].
          cbn [bindO]. rewrite Er. reflexivity.
        + unfold new, new_files. apply in_app_iff. right. apply in_map_iff. exists t. split; auto. apply filled_In. auto.
        + rewrite En. apply in_app_iff. right. apply filled_In. auto. }
    exists e, (map (fun t => (t, frame_from (g_cols (g t)) (g_rows (g t)))) (generic_tables f)).
    unfold gen_csv_create. rewrite Hgen. cbn [andb negb]. rewrite Ee. cbn [bindO]. fold rd.
    assert (mapO rd (generic_tables f) = Ret (map (fun t => (t, frame_from (g_cols (g t)) (g_rows (g t)))) (generic_tables f))) as ->.
    { clear - Hrd. induction (generic_tables f) as [| t l IH]; auto. cbn [mapO map]. rewrite Hrd by (simpl; auto). rewrite IH; auto. intros; apply Hrd; simpl; auto. }
    split; [reflexivity |]. split; [exact He |]. split; [rewrite map_map; apply map_id |].
    intros t fr H. apply in_map_iff in H as (t' & E & _). now injection E as <- <-.
  Qed.
End Csv.
