(** * CSV directories: round trip, and duplicated keys. *)
From Coq Require Import ZArith Bool List String Arith Lia Permutation.
From Verif Require Import PyVal PyValFacts PyDict PyDictFacts PyStr ListFacts TypeDict Data FindTypes FindTypesFacts FK Obj ObjFacts ObjMore
  Factory FactoryFacts InfIO InfIOFacts Params Names NamesFacts Utils UtilsMore Json ObjRows JsonFacts JsonDups TripFacts Csv CsvFacts CsvRows CsvTrip.
Import ListNotations.
Local Open Scope string_scope.
Local Open Scope list_scope.

(** No generic tables. *)
Definition all_plain (f : factory) : Prop := forall t d, In (t, d) (f_decl f) -> d <> Generic.

Lemma plain_names : forall f, all_plain f -> map fst (plain_schema f) = map fst (f_decl f).
Proof.
  intros f H. unfold plain_schema, all_plain in *. induction (f_decl f) as [| [t d] l IH]; auto. simpl. destruct d as [| ts] eqn:E; simpl.
  - exfalso. now apply (H t Generic); simpl; auto.
  - f_equal. apply IH. intros t0 d0 Hin. apply (H t0 d0). simpl. auto.
Qed.

Lemma plain_fields : forall f t ts, decl_ok (f_decl f) = true -> In (t, ts) (plain_schema f) ->
  tfields ts <> [] /\ NoDup (map lower (tfields ts)).
Proof.
  intros f t ts Hd Hin. unfold decl_ok in Hd. rewrite !andb_true_iff in Hd. destruct Hd as [_ Hd].
  unfold plain_schema in Hin. apply in_flat_map in Hin as ([t' d] & Hin & H). cbn [fst snd] in H. destruct d as [| ts']; simpl in H; try contradiction.
  destruct H as [E | []]. injection E as <- <-. rewrite forallb_forall in Hd. specialize (Hd _ Hin). cbn [snd decl_table_ok] in Hd.
  rewrite !andb_true_iff in Hd. destruct Hd as [[H1 _] H2]. apply distinct_b_iff in H2. unfold tfields. split; auto.
  intros E. rewrite E in H1. discriminate.
Qed.

Lemma header_own : forall fs x, NoDup (map lower fs) -> In x fs -> one_column fs x.
Proof.
  intros fs x N Hx. apply In_nth_error in Hx as [j Hj]. exists j, x. split; [auto |]. split; [auto |]. intros j' k' Hj' E.
  assert (nth_error (map lower fs) j' = nth_error (map lower fs) j) as En by (rewrite !nth_error_map, Hj', Hj; simpl; congruence).
  eapply NoDup_nth_error; [exact N | | exact En]. rewrite map_length. apply nth_error_Some. congruence.
Qed.

Lemma full_line : forall ts (line : list string), List.length line = List.length (tfields ts) ->
  NoDup (map lower (tfields ts)) -> line_shows ts (tfields ts) line (map VStr line).
Proof.
  intros ts line L N. split; [lia |]. split; [now rewrite map_length |]. intros i x j k Hi Hj E.
  assert (i = j) as <-.
  { eapply NoDup_nth_error; [exact N | rewrite map_length; apply nth_error_Some; congruence |]. rewrite !nth_error_map, Hi, Hj. simpl. congruence. }
  rewrite nth_error_map. destruct (nth_error line i) eqn:El; auto. apply nth_error_None in El.
  assert (i < List.length (tfields ts)) by (apply nth_error_Some; congruence). lia.
Qed.

Lemma short_full : forall n (line : list string), List.length line = n -> short n line = map VStr line.
Proof. intros n line <-. unfold short. now rewrite Nat.sub_diag, app_nil_r. Qed.

Section Trip.
  Variable date_of : value -> option Z.
  Variable float_of : value -> option value.
  Variable show_num : num -> string.
  Variable show_date : Z -> string.
  Variable f : factory.

  Let W := fun t x v => fst (write_cell date_of (mkIO f []) t x v).
  Let R := csv_cell date_of float_of f.
  Let text := csv_text show_num show_date.

  (** A cell is written as text and read. *)
  Definition csv_trip (t : string) (ts : tschema) (x : string) (v w : value) : Prop :=
    exists u, W t x v = Ret u /\ R t x (VStr (text u)) = Ret w.

  Lemma line_trip : forall t ts fs r r', List.length r = List.length fs ->
    Forall2 (fun fx v' => csv_trip t ts (fst fx) (snd fx) v') (combine fs r) r' ->
    exists line, mapO (fun xv => bindO (W t (fst xv) (snd xv)) (fun u => Ret (text u))) (combine fs r) = Ret line /\
      List.length line = List.length fs /\ mapO (fun xv => R t (fst xv) (snd xv)) (combine fs (map VStr line)) = Ret r'.
  Proof.
    intros t ts fs. induction fs as [| x fs IH]; intros [| v r] r' L H; try discriminate; simpl in *.
    - inversion H; subst. exists []. auto.
    - injection L as L. inversion H as [| ? v' ? r1 (u & A & B) Hr]; subst. destruct (IH _ _ L Hr) as (line & C & D & E). cbn [fst snd] in *.
      exists (text u :: line). rewrite A. cbn [bindO]. rewrite C. split; auto. split; [simpl; auto |]. simpl. rewrite B, E. reflexivity.
  Qed.

  Lemma lines_trip : forall t ts rows rows', (forall r, In r rows -> List.length r = List.length (tfields ts)) ->
    Forall2 (fun r r' => Forall2 (fun fx v' => csv_trip t ts (fst fx) (snd fx) v') (combine (tfields ts) r) r') rows rows' ->
    exists lines, mapO (fun r => mapO (fun xv => bindO (W t (fst xv) (snd xv)) (fun u => Ret (text u))) (combine (tfields ts) r)) rows = Ret lines /\
      (forall line, In line lines -> List.length line = List.length (tfields ts)) /\
      mapO (fun line => mapO (fun xv => R t (fst xv) (snd xv)) (combine (tfields ts) (map VStr line))) lines = Ret rows'.
  Proof.
    intros t ts rows rows' L H. induction H as [| r r' rows rows' Hr _ IH]; [exists []; simpl; repeat split; auto; intros ? [] |].
    destruct IH as (lines & A & B & C). { intros; apply L; simpl; auto. }
    destruct (line_trip t ts _ _ _ (L r (or_introl eq_refl)) Hr) as (line & D & E & F).
    exists (line :: lines). cbn [mapO]. rewrite D, A, F, C. split; auto. split; auto. intros l [<- | Hl]; auto.
  Qed.

  (** The rows read from the file written for a table. *)
  Lemma table_trip : forall hdr t ts tb rows', tfields ts <> [] -> NoDup (map lower (tfields ts)) -> table_ok ts tb ->
    Forall2 (fun r r' => Forall2 (fun fx v' => csv_trip t ts (fst fx) (snd fx) v') (combine (tfields ts) r) r') (full_rows tb) rows' ->
    exists file, csv_lines date_of show_num show_date f hdr t ts tb = Ret file /\ csv_rows date_of float_of f hdr t ts file = Ret rows'.
  Proof.
    intros hdr t ts tb rows' Hne N Hok H.
    destruct (lines_trip t ts (full_rows tb) rows') as (lines & A & B & C); auto. { intros r Hr. now apply (full_length ts tb). }
    exists (if hdr then tfields ts :: lines else lines). unfold csv_lines. fold W. split.
    { unfold W, text in A. rewrite A. reflexivity. }
    assert (filter nonblank lines = lines) as Ef.
    { clear - B Hne. induction lines as [| l lines IH]; auto. simpl. assert (nonblank l = true) as ->.
      - destruct l; auto. specialize (B [] (or_introl eq_refl)). destruct (tfields ts); [contradiction | discriminate].
      - f_equal. apply IH. intros; apply B; simpl; auto. }
    destruct hdr.
    - rewrite (rows_found date_of float_of f t ts (tfields ts) lines (map (map VStr) lines)).
      + unfold R in C. rewrite <- C. clear. induction lines as [| l lines IH]; auto. cbn [map mapO]. now rewrite IH.
      + intros x Hx. now apply header_own.
      + rewrite Ef. clear - B N. induction lines as [| l lines IH]; constructor; [apply full_line; auto; apply B; simpl; auto | apply IH; intros; apply B; simpl; auto].
    - rewrite plain_found by (intros l Hl _; rewrite (B l Hl); auto). rewrite Ef. unfold R in C. rewrite <- C. apply mapO_ext.
      intros l Hl. now rewrite (short_full _ l (B l Hl)).
  Qed.

  (** Files beside the ones written, for no table. *)
  Definition unrelated (others : directory) : Prop :=
    forall name file t, In (name, true, file) others -> In t (map fst (f_decl f)) -> unspace name <> (lower t ++ ".csv")%string.

  Lemma file_found : forall pretty (dir dir' others : directory) t file, decl_ok (f_decl f) = true -> all_plain f ->
    map fst dir = map (fun t => (csv_name pretty (map fst (f_decl f)) t, true)) (map fst (f_decl f)) ->
    Permutation dir' (dir ++ others) -> unrelated others -> In t (map fst (f_decl f)) ->
    In (csv_name pretty (map fst (f_decl f)) t, true, file) dir -> file_of dir' t = Ret (Some file).
  Proof.
    intros pretty dir dir' others t file Hd Hpl Hn P Ho Ht Hin. unfold file_of.
    pose proof (decl_ok_legal _ Hd) as Hleg. set (names := map fst (f_decl f)) in *.
    rewrite (get_file_path_own pretty names (map fst dir') (map fst others) t); auto.
    - cbn [bindO]. destruct (find _ dir') as [[[n b] file'] |] eqn:E.
      + apply find_some in E as [Hf E]. cbn [fst snd] in E. apply andb_true_iff in E as [E1 E2]. apply String.eqb_eq in E1. subst n b.
        cbn [option_map snd]. do 2 f_equal. apply (Permutation_in _ P) in Hf. apply in_app_iff in Hf as [Hf | Hf].
        * assert (NoDup (map fst dir)) as Nd.
          { rewrite Hn. destruct Hleg as [Hl1 Hl2].
            assert (NoDup names) as Nn by (eapply NoDup_map_inv'; eauto).
            assert (forall l, NoDup l -> (forall t0, In t0 l -> In t0 names) -> NoDup (map (fun t0 => (csv_name pretty names t0, true)) l)) as Hg.
            { induction l as [| a l IH]; intros Nl Hl; simpl; constructor.
              - intros Hc. apply in_map_iff in Hc as (b & E & Hb). injection E as E. inversion Nl as [| ? ? Hx _]; subst.
                assert (b = a) as ->; [| contradiction]. apply (csv_match_own pretty names a b); [split; auto | apply Hl; simpl; auto | apply Hl; simpl; auto |].
                rewrite <- E. apply (csv_match_own pretty names b b); auto; [split; auto | |]; apply Hl; simpl; auto.
              - apply IH; [now inversion Nl | intros; apply Hl; simpl; auto]. }
            apply Hg; auto. }
          pose proof (NoDup_map_inj_in fst dir _ _ Nd Hf Hin eq_refl) as X. now injection X.
        * exfalso. apply (Ho _ _ t Hf Ht). assert (csv_match t (csv_name pretty names t) = true) as X.
          { now apply (csv_match_own pretty names t t). }
          unfold csv_match in X. now apply String.eqb_eq in X.
      + exfalso. assert (In (csv_name pretty names t, true, file) dir') as Hin'.
        { apply (Permutation_in _ (Permutation_sym P)). apply in_app_iff. auto. }
        apply (find_none _ _ E) in Hin'. cbn [fst snd] in Hin'. rewrite String.eqb_refl in Hin'. discriminate.
    - rewrite <- Hn. rewrite <- map_app. now apply Permutation_map.
    - intros n t' Hin' Ht'. apply in_map_iff in Hin' as ([[n' b'] file'] & E & Hin'). cbn [fst] in E. injection E as -> ->. eauto.
  Qed.

  (** The table built from the rows of an object. *)
  Lemma rows_table_full : forall ts tb, table_ok ts tb ->
    match tb with
    | OKeyed l => no_equal_keys (map fst l) /\ forall k r, In (k, r) l -> k = packed (key_cells k)
    | OListed _ => True
    end -> rows_table ts (full_rows tb) = tb.
  Proof.
    intros ts tb Hok Hk. unfold rows_table. unfold table_ok in Hok. destruct (tpk ts) as [| p pk] eqn:Ep; destruct tb as [l | l]; try contradiction; auto.
    rewrite <- Ep in *. destruct Hk as [Hk1 Hk2]. cbn [full_rows]. f_equal. rewrite map_map.
    assert (map (fun kr => (key_of ts (key_cells (fst kr) ++ snd kr), skipn (List.length (tpk ts)) (key_cells (fst kr) ++ snd kr))) l = l) as E.
    { rewrite <- (map_id l) at 2. apply map_ext_in. intros [k r] Hin. cbn [fst snd]. destruct (Hok _ _ Hin) as [H1 H2].
      assert (List.length (tpk ts) = List.length (key_cells k)) as El by (destruct k; simpl in *; auto).
      unfold key_of. rewrite El. rewrite firstn_app, Nat.sub_diag, firstn_all, skipn_app, Nat.sub_diag, skipn_all. cbn [firstn skipn app].
      rewrite app_nil_r. f_equal. transitivity (packed (key_cells k)); [| symmetry; exact (Hk2 _ _ Hin)].
      now destruct (key_cells k) as [| v1 [| v2 vs]]. }
    etransitivity; [| apply (dict_of_distinct pkey_eqb); apply no_equal_keys_iff; exact Hk1].
    f_equal. exact E.
  Qed.

  Theorem csv_round_trip : forall hdr pretty d, decl_ok (f_decl f) = true -> all_plain f ->
    obj_ok (plain_schema f) d -> obj_keys (plain_schema f) d -> proper_keys (plain_schema f) d ->
    cells_kept f csv_trip d -> params_kept date_of float_of f csv_trip d ->
    exists dir, csv_write date_of show_num show_date f hdr pretty d = Ret dir /\
      forall dir' others, Permutation dir' (dir ++ others) -> unrelated others ->
        exists e, csv_create date_of float_of f hdr dir' = Ret e /\ forall t ts, In (t, ts) (plain_schema f) -> e t = d t.
  Proof.
    intros hdr pretty d Hd Hpl Hok Hks Hpr Hc Hp. pose proof (plain_wf f Hd) as Hwf.
    destruct (before_adjustment date_of float_of f csv_trip d) as (d1 & Hok1 & Hks1 & Hpr1 & Hrows & Hadj); auto.
    set (names := map fst (f_decl f)).
    assert (forall t ts, In (t, ts) (plain_schema f) -> exists file, csv_lines date_of show_num show_date f hdr t ts (d t) = Ret file /\
              csv_rows date_of float_of f hdr t ts file = Ret (full_rows (d1 t))) as Hf.
    { intros t ts Hin. destruct (plain_fields f t ts Hd Hin) as [Hne N]. apply table_trip; auto. }
    set (out := fun tts : string * tschema => bindO (csv_lines date_of show_num show_date f hdr (fst tts) (snd tts) (d (fst tts)))
                       (fun file => Ret (csv_name pretty names (fst tts), true, file))).
    assert (exists dir, mapO out (plain_schema f) = Ret dir) as [dir Edir].
    { apply mapO_total. intros [t ts] Hin. destruct (Hf _ _ Hin) as (file & A & _). unfold out. cbn [fst snd]. rewrite A. simpl. eauto. }
    exists dir. split; [exact Edir |]. apply mapO_Forall2 in Edir. intros dir' others P Ho.
    assert (map fst dir = map (fun t => (csv_name pretty names t, true)) names) as Hn.
    { unfold names at 2. rewrite <- (plain_names f Hpl). clear - Edir. induction Edir as [| [t ts] e l dir E _ IH]; auto. simpl. rewrite IH. f_equal.
      unfold out in E. cbn [fst snd] in E. apply bindO_ret in E as (file & _ & E). now injection E as <-. }
    assert (forall t ts, In (t, ts) (plain_schema f) -> exists file, csv_rows date_of float_of f hdr t ts file = Ret (full_rows (d1 t)) /\
              file_of dir' t = Ret (Some file)) as Hfile.
    { intros t ts Hin. destruct (Hf _ _ Hin) as (file & A & B). exists file. split; auto.
      destruct (Forall2_In_l _ _ _ _ Edir Hin) as (e & He & E). unfold out in E. cbn [fst snd] in E. rewrite A in E. cbn [bindO] in E. injection E as <-.
      apply (file_found pretty dir dir' others t file); auto. rewrite <- (plain_names f Hpl). now apply (in_map fst) in Hin. }
    destruct (created_ok date_of float_of f (csv_input date_of float_of f hdr dir') d1) as (d2 & E & F); auto.
    - intros t ts Hin. destruct (Hfile _ _ Hin) as (file & A & B). unfold gives, csv_input. cbn [fst snd]. rewrite B. cbn [bindO]. rewrite A. cbn [bindO].
      assert (rows_table ts (full_rows (d1 t)) = d1 t) as Et.
      { apply rows_table_full; [now apply Hok1 |]. specialize (Hks1 _ _ Hin). specialize (Hpr1 _ _ Hin). destruct (d1 t); auto. }
      destruct (full_rows (d1 t)) as [| r0 rs0] eqn:Er.
      + left. split; [reflexivity |]. rewrite <- Et. unfold rows_table, no_rows. now destruct (tpk ts).
      + right. rewrite <- Er in *. eexists. split; [reflexivity |].
        destruct (built_ok (f_defaults f) t ts (full_rows (d1 t))) as [X Y]; [intros r Hr; now apply (full_length ts (d1 t) r (Hok1 _ _ Hin)) |].
        rewrite X, Y, Et. auto.
    - exists (adjust_params date_of float_of f d2). split; [exact E |]. intros t ts Hin. rewrite <- (Hadj t ts Hin).
      unfold adjust_params. now rewrite (F t ts Hin).
  Qed.

  (** ** Duplicated keys *)

  Definition table_rows (hdr : bool) (dir : directory) (t : string) (ts : tschema) (rs : list (list value)) : Prop :=
    (file_of dir t = Ret None /\ rs = []) \/ exists file, file_of dir t = Ret (Some file) /\ csv_rows date_of float_of f hdr t ts file = Ret rs.

  Lemma rows_length : forall hdr t ts file rs r, csv_rows date_of float_of f hdr t ts file = Ret rs -> In r rs -> List.length r = List.length (tfields ts).
  Proof.
    assert (forall g fs (r : list value), mapO g fs = Ret r -> List.length r = List.length (fs : list string)) as M.
    { intros g fs r H. apply mapO_Forall2 in H. symmetry. eapply Forall2_length'; eauto. }
    intros hdr t ts file rs r H Hr. unfold csv_rows in H. destruct hdr.
    - destruct file as [| h body]; [injection H as <-; contradiction |]. apply mapO_Forall2 in H. destruct (Forall2_In_r _ _ _ _ H Hr) as (line & _ & E).
      unfold header_row in E. destruct (Nat.ltb _ _); [discriminate |]. cbv zeta in E. destruct (forallb _ _); [| discriminate]. eapply M; eauto.
    - apply mapO_Forall2 in H. destruct (Forall2_In_r _ _ _ _ H Hr) as (line & _ & E). unfold plain_row in E.
      destruct (Nat.ltb _ _) eqn:El; [discriminate |]. apply Nat.ltb_ge in El. apply mapO_Forall2 in E. apply Forall2_length' in E.
      rewrite <- E, combine_length, short_length by auto. lia.
  Qed.

  (** If every file can be read, an object is created whatever the duplicates,
      and its tables are those of the rows. *)
  Theorem csv_created : forall hdr dir (rows : string -> list (list value)), decl_ok (f_decl f) = true ->
    (forall t ts, In (t, ts) (plain_schema f) -> table_rows hdr dir t ts (rows t)) ->
    exists e, csv_create date_of float_of f hdr dir = Ret e /\
      forall t ts, In (t, ts) (plain_schema f) -> treats_params f t = false -> e t = rows_table ts (rows t).
  Proof.
    intros hdr dir rows Hd H. pose proof (plain_wf f Hd) as Hwf.
    set (d0 := fun t => match dget String.eqb (plain_schema f) t with Some ts => rows_table ts (rows t) | None => OListed [] end).
    assert (forall t ts, In (t, ts) (plain_schema f) -> d0 t = rows_table ts (rows t)) as D.
    { intros t ts Hin. unfold d0. now rewrite (proj2 (schema_get _ t ts (proj1 Hwf)) Hin). }
    destruct (created_ok date_of float_of f (csv_input date_of float_of f hdr dir) d0) as (d2 & E & F); auto.
    - intros t ts Hin. rewrite (D t ts Hin). unfold gives, csv_input. cbn [fst snd]. destruct (H t ts Hin) as [[A B] | (file & A & B)]; rewrite A; cbn [bindO].
      + left. split; auto. rewrite B. unfold rows_table, no_rows. now destruct (tpk ts).
      + rewrite B. cbn [bindO]. destruct (rows t) as [| r0 rs0] eqn:Er.
        * left. split; [reflexivity |]. unfold rows_table, no_rows. now destruct (tpk ts).
        * right. rewrite <- Er in *. eexists. split; [reflexivity |].
          destruct (built_ok (f_defaults f) t ts (rows t)) as [X Y]; [intros r Hr; eapply rows_length; eauto |]. rewrite X, Y. auto.
    - exists (adjust_params date_of float_of f d2). split; [exact E |]. intros t ts Hin Hp. unfold adjust_params.
      unfold treats_params in Hp. rewrite Hp. rewrite (F t ts Hin). now apply D.
  Qed.

  Theorem csv_report : forall hdr dir (rows : string -> list (list value)), decl_ok (f_decl f) = true ->
    (forall t ts, In (t, ts) (plain_schema f) -> tpk ts <> [] -> table_rows hdr dir t ts (rows t)) ->
    exists rep, csv_duplicates date_of float_of f hdr dir = Ret rep /\
      forall t l, In (t, l) rep <-> exists ts, In (t, ts) (plain_schema f) /\ tpk ts <> [] /\ l = counted (map (key_of ts) (rows t)) /\ l <> [].
  Proof.
    intros hdr dir rows Hd H. unfold csv_duplicates.
    set (g := fun tts : string * tschema => bindO (file_of dir (fst tts)) _).
    assert (forall l, (forall t ts, In (t, ts) l -> In (t, ts) (plain_schema f) /\ tpk ts <> []) -> exists parts, mapO g l = Ret parts /\
       forall t x, In (t, x) (List.concat parts) <-> exists ts, In (t, ts) l /\ x = counted (map (key_of ts) (rows t)) /\ x <> []) as Hl.
    { induction l as [| [t ts] l IH]; intros Hsub.
      - exists []. split; auto. simpl. intros t x. split; [intros [] | intros (ts & [] & _)].
      - destruct IH as (parts & A & B). { intros; apply Hsub; simpl; auto. }
        assert (g (t, ts) = Ret (match counted (map (key_of ts) (rows t)) with [] => [] | l => [(t, l)] end)) as E.
        { unfold g. cbn [fst snd]. destruct (Hsub t ts (or_introl eq_refl)) as [S1 S2]. destruct (H t ts S1 S2) as [[X Y] | (file & X & Y)]; rewrite X; cbn [bindO].
          - now rewrite Y.
          - now rewrite Y. }
        cbn [mapO]. rewrite E, A. eexists. split; [reflexivity |]. intros t0 x. cbn [List.concat]. rewrite in_app_iff, B. split.
        + intros [X | (ts0 & X & Y)]; [| exists ts0; simpl; auto].
          destruct (counted (map (key_of ts) (rows t))) as [| c cs] eqn:Ec; [contradiction |]. destruct X as [X | []]. injection X as <- <-.
          exists ts. split; [simpl; auto |]. rewrite Ec. split; auto. discriminate.
        + intros (ts0 & [X | X] & Y & Z); [| right; eauto]. injection X as <- <-. left. rewrite <- Y. destruct x; [contradiction | simpl; auto]. }
    destruct (Hl (keyed_tables (plain_schema f))) as (parts & A & B). { intros t ts Hin. now apply keys_tables_In in Hin. }
    rewrite A. cbn [bindO]. eexists. split; [reflexivity |]. intros t l. rewrite B. split.
    - intros (ts & X & Y & Z). apply keys_tables_In in X as [X1 X2]. eauto 6.
    - intros (ts & X1 & X2 & Y & Z). exists ts. split; auto. now apply keys_tables_In.
  Qed.
End Trip.
