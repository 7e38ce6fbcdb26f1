(** * Excel files: round trip, and duplicated keys. *)
From Coq Require Import ZArith Bool List String Arith Lia Permutation.
From Verif Require Import PyVal PyValFacts PyDict PyDictFacts PyStr ListFacts TypeDict Data FindTypes FindTypesFacts FK Obj ObjFacts ObjMore
  Factory FactoryFacts InfIO InfIOFacts Params Names NamesFacts Utils UtilsMore Json ObjRows JsonFacts JsonDups TripFacts Csv CsvFacts CsvRows CsvTrip CsvMore CsvCells
  Xls XlsFacts.
Import ListNotations.
Local Open Scope string_scope.
Local Open Scope list_scope.

Lemma mapO_combine_firstn {B} (g : string * B -> outcome value) : forall a c (idx : list B) r, List.length idx = List.length (a ++ c) ->
  mapO g (combine (a ++ c) idx) = Ret r -> mapO g (combine a idx) = Ret (firstn (List.length a) r).
Proof.
  induction a as [| x a IH]; intros c idx r L H.
  - now destruct idx.
  - destruct idx as [| i idx]; [discriminate |]. cbn [app combine mapO] in *. destruct (g (x, i)) as [v |]; [| discriminate].
    destruct (mapO g (combine (a ++ c) idx)) as [r' |] eqn:E; [| discriminate]. injection H as <-. injection L as L.
    rewrite (IH c idx r' L E). reflexivity.
Qed.

Section Trip.
  Variable date_of : value -> option Z.
  Variable float_of : value -> option value.
  Variable show_date : Z -> string.
  Variable saved : value -> outcome value.
  Variable f : factory.
  Variable xldate : option (value -> option Z).
  Notation xls := (match xldate with Some _ => true | None => false end).

  Let W := fun t x v => bindO (clean_for_write date_of show_date f xls t x v) saved.
  Let R := fun inf t x v => xls_with date_of float_of f (dv_dt f t x) xldate inf t x v.

  (** A cell is written, kept in the file, and read. *)
  Definition xls_trip (inf : bool) (t : string) (ts : tschema) (x : string) (v w : value) : Prop :=
    exists u u', clean_for_write date_of show_date f xls t x v = Ret u /\ saved u = Ret u' /\ R inf t x u' = Ret w.

  Lemma xline_trip : forall inf t ts fs r r', List.length r = List.length fs ->
    Forall2 (fun fx v' => xls_trip inf t ts (fst fx) (snd fx) v') (combine fs r) r' ->
    exists line, mapO (fun xv => W t (fst xv) (snd xv)) (combine fs r) = Ret line /\
      List.length line = List.length fs /\ mapO (fun xv => R inf t (fst xv) (snd xv)) (combine fs line) = Ret r'.
  Proof.
    intros inf t ts fs. induction fs as [| x fs IH]; intros [| v r] r' L H; try discriminate; simpl in *.
    - inversion H; subst. exists []. auto.
    - injection L as L. inversion H as [| ? v' ? r1 (u & u' & A & A' & B) Hr]; subst. destruct (IH _ _ L Hr) as (line & C & D & E). cbn [fst snd] in *.
      exists (u' :: line). unfold W at 1. rewrite A. cbn [bindO]. rewrite A', C. split; auto. split; [simpl; auto |]. cbn [combine mapO fst snd]. rewrite B, E. reflexivity.
  Qed.

  Lemma xlines_trip : forall inf t ts rows rows', (forall r, In r rows -> List.length r = List.length (tfields ts)) ->
    Forall2 (fun r r' => Forall2 (fun fx v' => xls_trip inf t ts (fst fx) (snd fx) v') (combine (tfields ts) r) r') rows rows' ->
    exists lines, mapO (fun r => mapO (fun xv => W t (fst xv) (snd xv)) (combine (tfields ts) r)) rows = Ret lines /\
      (forall line, In line lines -> List.length line = List.length (tfields ts)) /\
      mapO (fun line => mapO (fun xv => R inf t (fst xv) (snd xv)) (combine (tfields ts) line)) lines = Ret rows'.
  Proof.
    intros inf t ts rows rows' L H. induction H as [| r r' rows rows' Hr _ IH]; [exists []; simpl; repeat split; auto; intros ? [] |].
    destruct IH as (lines & A & B & C). { intros; apply L; simpl; auto. }
    destruct (xline_trip inf t ts _ _ _ (L r (or_introl eq_refl)) Hr) as (line & D & E & F).
    exists (line :: lines). cbn [mapO]. rewrite D, A, F, C. split; auto. split; auto. intros l [<- | Hl]; auto.
  Qed.

  (** No row is stored as empty cells only. *)
  Definition rows_visible (d : obj) : Prop := forall t ts r l, In (t, ts) (plain_schema f) -> In r (full_rows (d t)) ->
    mapO (fun xv => W t (fst xv) (snd xv)) (combine (tfields ts) r) = Ret l -> empty_row l = false.

  Lemma read_all : forall prune h lines, empty_row h = false -> (forall l, In l lines -> empty_row l = false) ->
    rows_read prune (mkSheet 1 (h :: lines)) 1 = lines.
  Proof.
    intros prune h lines Hh Hl. unfold rows_read. cbn [sh_rows].
    assert (wrapped_max_row prune (mkSheet 1 (h :: lines)) = List.length (h :: lines)) as ->.
    { unfold wrapped_max_row. destruct prune; auto. unfold nrows. cbn [sh_rows sh_min].
      replace (List.length (h :: lines) - 1 + 1) with (S (List.length lines)) by (simpl; lia).
      cbn [scan_down sh_rows]. assert (empty_row (nth (List.length lines) (h :: lines) []) = false) as ->; auto.
      destruct (nth_in_or_default (List.length lines) (h :: lines) []) as [[E | E] | E].
      - now rewrite <- E.
      - auto.
      - exfalso. destruct lines as [| l0 lines]; [simpl in E; subst; discriminate |].
        destruct (nth_In (h :: l0 :: lines) [] (n := List.length (l0 :: lines))) as [X | X]; [simpl; lia | |].
        + rewrite E in X. subst h. discriminate.
        + rewrite E in X. specialize (Hl _ X). discriminate. }
    rewrite firstn_all. reflexivity.
  Qed.

  Lemma header_rows : forall fs, fs <> [] -> empty_row (map VStr fs) = false.
  Proof. intros [| x fs] H; [contradiction | reflexivity]. Qed.

  Lemma own_header : forall fs x j, NoDup (map lower fs) -> header_at (map VStr fs) x j -> forall i, nth_error fs i = Some x -> j = i.
  Proof.
    intros fs x j N (k & E & El) i Hi. rewrite nth_error_map in E. destruct (nth_error fs j) as [k' |] eqn:Ej; [| discriminate]. injection E as ->.
    eapply NoDup_nth_error; [exact N | rewrite map_length; apply nth_error_Some; congruence |]. rewrite !nth_error_map, Ej, Hi. simpl. congruence.
  Qed.

  Lemma xtable_trip : forall b inf t ts tb rows', bk_xldate b = xldate -> tfields ts <> [] -> NoDup (map lower (tfields ts)) -> table_ok ts tb ->
    (forall r l, In r (full_rows tb) -> mapO (fun xv => W t (fst xv) (snd xv)) (combine (tfields ts) r) = Ret l -> empty_row l = false) ->
    Forall2 (fun r r' => Forall2 (fun fx v' => xls_trip inf t ts (fst fx) (snd fx) v') (combine (tfields ts) r) r') (full_rows tb) rows' ->
    exists s, xls_sheet date_of show_date saved f xls t ts tb = Ret s /\ xls_rows date_of float_of f b true inf 0 t ts s = Ret rows'.
  Proof.
    intros b inf t ts tb rows' Hb Hne N Hok Hvis H.
    destruct (xlines_trip inf t ts (full_rows tb) rows') as (lines & A & B & C); auto. { intros r Hr. now apply (full_length ts tb). }
    exists (mkSheet 1 (map VStr (tfields ts) :: lines)). unfold xls_sheet. split.
    { unfold W in A. rewrite A. reflexivity. }
    rewrite (xls_found date_of float_of f b inf t ts _ 0 lines).
    - unfold R in C. unfold xls_cell. rewrite Hb. exact C.
    - unfold book_nrows, nrows. cbn [sh_rows sh_min List.length]. destruct (is_xls b); lia.
    - cbn [sh_rows nth]. intros x Hx. apply In_nth_error in Hx as [i Hi]. exists i. split.
      + exists x. split; auto. rewrite nth_error_map, Hi. reflexivity.
      + intros j' Hj'. eapply own_header; eauto.
    - unfold data_lines, first_row. cbn [Nat.add]. rewrite read_all.
      + cbn [sh_rows nth]. clear - B N. induction lines as [| l lines IH]; constructor.
        * split; [apply B; simpl; auto |]. intros i x j Hi Hj. now rewrite (own_header _ _ _ N Hj i Hi).
        * apply IH. intros; apply B; simpl; auto.
      + now apply header_rows.
      + intros l Hl. apply mapO_Forall2 in A. destruct (Forall2_In_r _ _ _ _ A Hl) as (r & Hr & E). eapply Hvis; eauto.
  Qed.

  Definition unrelated_sheets (others : list (string * sheet)) : Prop :=
    forall name s t, In (name, s) others -> In t (map fst (f_decl f)) -> stake longest_sheet (unspace name) <> stake longest_sheet (lower t).

  Theorem xls_round_trip : forall pretty inf d names, decl_ok (f_decl f) = true -> all_plain f ->
    write_sheets pretty (map fst (f_decl f)) = Ret names ->
    obj_ok (plain_schema f) d -> obj_keys (plain_schema f) d -> proper_keys (plain_schema f) d ->
    cells_kept f (xls_trip inf) d -> params_kept date_of float_of f (xls_trip inf) d -> rows_visible d ->
    exists sheets, xls_write date_of show_date saved f xls pretty d = Ret sheets /\
      forall sheets' others, Permutation sheets' (sheets ++ others) -> NoDup (map fst sheets') -> unrelated_sheets others ->
        exists e, xls_create date_of float_of f (mkBook xldate sheets') true inf (fun _ => 0) = Ret e /\
          forall t ts, In (t, ts) (plain_schema f) -> e t = d t.
  Proof.
    intros pretty inf d names0 Hd Hpl Hw Hok Hks Hpr Hc Hp Hvis. pose proof (plain_wf f Hd) as Hwf. pose proof (decl_ok_legal _ Hd) as Hleg.
    destruct (before_adjustment date_of float_of f (xls_trip inf) d) as (d1 & Hok1 & Hks1 & Hpr1 & Hrows & Hadj); auto.
    set (names := map fst (f_decl f)) in *.
    assert (forall b t ts, bk_xldate b = xldate -> In (t, ts) (plain_schema f) -> exists s, xls_sheet date_of show_date saved f xls t ts (d t) = Ret s /\
              xls_rows date_of float_of f b true inf 0 t ts s = Ret (full_rows (d1 t))) as Hf.
    { intros b t ts Hb Hin. destruct (plain_fields f t ts Hd Hin) as [Hne N]. apply xtable_trip; auto. intros r l Hr. eapply Hvis; eauto. }
    set (out := fun tts : string * tschema => bindO (xls_sheet date_of show_date saved f xls (fst tts) (snd tts) (d (fst tts)))
                       (fun s => Ret (sheet_name pretty names (fst tts), s))).
    assert (exists sheets, mapO out (plain_schema f) = Ret sheets) as [sheets Es].
    { apply mapO_total. intros [t ts] Hin. destruct (Hf (mkBook xldate []) t ts eq_refl Hin) as (s & A & _). unfold out. cbn [fst snd]. rewrite A. simpl. eauto. }
    exists sheets. unfold xls_write. fold names. rewrite Hw. cbn [bindO]. split; [exact Es |]. apply mapO_Forall2 in Es. intros sheets' others P Nd Ho.
    assert (map fst sheets = names0) as Hn.
    { destruct (write_sheets_spec _ _ _ Hw) as [-> _]. unfold names at 2. rewrite <- (plain_names f Hpl). clear - Es.
      induction Es as [| [t ts] e l sheets E _ IH]; auto. simpl. rewrite IH. f_equal.
      unfold out in E. cbn [fst snd] in E. apply bindO_ret in E as (s & _ & E). now injection E as <-. }
    set (b := mkBook xldate sheets').
    assert (forall t ts, In (t, ts) (plain_schema f) -> exists s, xls_rows date_of float_of f b true inf 0 t ts s = Ret (full_rows (d1 t)) /\
              sheet_of b t = Ret (Some s)) as Hsheet.
    { intros t ts Hin. destruct (Hf b t ts eq_refl Hin) as (s & A & B). exists s. split; auto.
      destruct (Forall2_In_l _ _ _ _ Es Hin) as (e & He & E). unfold out in E. cbn [fst snd] in E. rewrite A in E. cbn [bindO] in E. injection E as <-.
      assert (In t names) as Ht by (unfold names; rewrite <- (plain_names f Hpl); now apply (in_map fst) in Hin).
      unfold sheet_of, b. cbn [bk_sheets]. rewrite (get_sheet_own pretty names names0 (map fst sheets') (map fst others) t); auto.
      - cbn [bindO]. f_equal. apply In_dget; [apply String.eqb_refl | |].
        + apply (keys_distinct_NoDup String.eqb String.eqb_eq). exact Nd.
        + apply (Permutation_in _ (Permutation_sym P)). apply in_app_iff. auto.
      - rewrite <- Hn, <- map_app. now apply Permutation_map.
      - intros n t' Hin' Ht'. apply in_map_iff in Hin' as ([n' s'] & E & Hin'). cbn [fst] in E. subst n'. eauto. }
    unfold xls_create. fold names.
    assert (sheets_differ names = true) as -> by (unfold write_sheets in Hw; destruct (sheets_differ names); [auto | discriminate]).
    destruct (created_ok date_of float_of f (xls_input date_of float_of f b true inf (fun _ => 0)) d1) as (d2 & E & F); auto.
    - intros t ts Hin. destruct (Hsheet _ _ Hin) as (s & A & B). unfold gives, xls_input. cbn [fst snd]. rewrite B. cbn [bindO]. rewrite A. cbn [bindO].
      assert (rows_table ts (full_rows (d1 t)) = d1 t) as Et.
      { apply rows_table_full; [now apply Hok1 |]. specialize (Hks1 _ _ Hin). specialize (Hpr1 _ _ Hin). destruct (d1 t); auto. }
      right. eexists. split; [reflexivity |].
      destruct (xls_built_ok (f_defaults f) t ts (full_rows (d1 t))) as [X Y]; [intros r Hr; now apply (full_length ts (d1 t) r (Hok1 _ _ Hin)) |].
      rewrite X, Y, Et. auto.
    - exists (adjust_params date_of float_of f d2). split; [exact E |]. intros t ts Hin. rewrite <- (Hadj t ts Hin).
      unfold adjust_params. now rewrite (F t ts Hin).
  Qed.

  (** ** Duplicated keys *)

  Variable b : workbook.

  Definition sheet_rows (hdr inf : bool) (offsets : string -> nat) (t : string) (ts : tschema) (rs : list (list value)) : Prop :=
    (sheet_of b t = Ret None /\ rs = []) \/
    exists s, sheet_of b t = Ret (Some s) /\ xls_rows date_of float_of f b hdr inf (offsets t) t ts s = Ret rs.

  Lemma indices_length : forall hdr s off fs idx, field_indices b hdr s off fs = Ret idx -> List.length idx = List.length fs.
  Proof.
    intros hdr s off fs idx H. unfold field_indices in H. destruct hdr.
    - destruct (Nat.leb _ _); [destruct fs; [now injection H as <- | discriminate] |]. apply mapO_Forall2 in H. symmetry. eapply Forall2_length'; eauto.
    - destruct (if Nat.ltb _ _ then _ else _) as [n |]; [| discriminate]. destruct (Nat.leb _ _); [| discriminate]. injection H as <-. apply seq_length.
  Qed.

  Lemma xls_rows_length : forall hdr inf off t ts s rs r, xls_rows date_of float_of f b hdr inf off t ts s = Ret rs -> In r rs -> List.length r = List.length (tfields ts).
  Proof.
    intros hdr inf off t ts s rs r H Hr. unfold xls_rows in H. apply bindO_ret in H as (idx & E & H). apply indices_length in E.
    apply mapO_Forall2 in H. destruct (Forall2_In_r _ _ _ _ H Hr) as (line & _ & E'). apply mapO_Forall2 in E'. apply Forall2_length' in E'.
    rewrite <- E', combine_length, E. lia.
  Qed.

  Theorem xls_created : forall hdr inf offsets (rows : string -> list (list value)), decl_ok (f_decl f) = true ->
    sheets_differ (map fst (f_decl f)) = true ->
    (forall t ts, In (t, ts) (plain_schema f) -> sheet_rows hdr inf offsets t ts (rows t)) ->
    exists e, xls_create date_of float_of f b hdr inf offsets = Ret e /\
      forall t ts, In (t, ts) (plain_schema f) -> treats_params f t = false -> e t = rows_table ts (rows t).
  Proof.
    intros hdr inf offsets rows Hd Hs H. pose proof (plain_wf f Hd) as Hwf. unfold xls_create. rewrite Hs.
    set (d0 := fun t => match dget String.eqb (plain_schema f) t with Some ts => rows_table ts (rows t) | None => OListed [] end).
    assert (forall t ts, In (t, ts) (plain_schema f) -> d0 t = rows_table ts (rows t)) as D.
    { intros t ts Hin. unfold d0. now rewrite (proj2 (schema_get _ t ts (proj1 Hwf)) Hin). }
    destruct (created_ok date_of float_of f (xls_input date_of float_of f b hdr inf offsets) d0) as (d2 & E & F); auto.
    - intros t ts Hin. rewrite (D t ts Hin). unfold gives, xls_input. cbn [fst snd]. destruct (H t ts Hin) as [[A B] | (s & A & B)]; rewrite A; cbn [bindO].
      + left. split; auto. rewrite B. unfold rows_table, no_rows. now destruct (tpk ts).
      + right. rewrite B. cbn [bindO]. eexists. split; [reflexivity |].
        destruct (xls_built_ok (f_defaults f) t ts (rows t)) as [X Y]; [intros r Hr; eapply xls_rows_length; eauto |]. rewrite X, Y. auto.
    - exists (adjust_params date_of float_of f d2). split; [exact E |]. intros t ts Hin Hp. unfold adjust_params.
      unfold treats_params in Hp. rewrite Hp. rewrite (F t ts Hin). now apply D.
  Qed.

  Theorem xls_report : forall hdr offsets (rows : string -> list (list value)), decl_ok (f_decl f) = true ->
    sheets_differ (map fst (f_decl f)) = true ->
    (forall t ts, In (t, ts) (plain_schema f) -> tpk ts <> [] -> sheet_rows hdr true offsets t ts (rows t)) ->
    exists rep, xls_duplicates date_of float_of f b hdr offsets = Ret rep /\
      forall t l, In (t, l) rep <-> exists ts, In (t, ts) (plain_schema f) /\ tpk ts <> [] /\ l = counted (map (key_of ts) (rows t)) /\ l <> [].
  Proof.
    intros hdr offsets rows Hd Hs H. unfold xls_duplicates. rewrite Hs.
    set (g := fun tts : string * tschema => bindO (sheet_of b (fst tts)) _).
    assert (forall l, (forall t ts, In (t, ts) l -> In (t, ts) (plain_schema f) /\ tpk ts <> []) -> exists parts, mapO g l = Ret parts /\
       forall t x, In (t, x) (List.concat parts) <-> exists ts, In (t, ts) l /\ x = counted (map (key_of ts) (rows t)) /\ x <> []) as Hl.
    { induction l as [| [t ts] l IH]; intros Hsub.
      - exists []. split; auto. simpl. intros t x. split; [intros [] | intros (ts & [] & _)].
      - destruct IH as (parts & A & B). { intros; apply Hsub; simpl; auto. }
        assert (g (t, ts) = Ret (match counted (map (key_of ts) (rows t)) with [] => [] | l => [(t, l)] end)) as E.
        { unfold g. cbn [fst snd]. destruct (Hsub t ts (or_introl eq_refl)) as [S1 S2]. destruct (H t ts S1 S2) as [[X Y] | (s & X & Y)]; rewrite X; cbn [bindO].
          - now rewrite Y.
          - unfold xls_rows in Y. apply bindO_ret in Y as (idx & Ei & Y). rewrite Ei. cbn [bindO].
            apply indices_length in Ei. unfold tfields in Ei.
            set (cell := fun r (xi : string * nat) => match nth_error r (snd xi) with Some v => xls_cell date_of float_of f b true t (fst xi) v | None => Raise end).
            change (mapO (fun r => mapO (cell r) (combine (tfields ts) idx)) (rows_read (pruned f b) s (offsets t + (if hdr then 1 else 0))) = Ret (rows t)) in Y.
            assert (mapO (fun r => mapO (cell r) (combine (tpk ts) idx)) (rows_read (pruned f b) s (offsets t + (if hdr then 1 else 0))) =
                    Ret (map (firstn (List.length (tpk ts))) (rows t))) as Ek.
            { revert Y. generalize (rows t). generalize (rows_read (pruned f b) s (offsets t + (if hdr then 1 else 0))).
              induction l0 as [| line lines IHl]; intros rs Y; cbn [mapO] in *; [now injection Y as <- |].
              destruct (mapO (cell line) (combine (tfields ts) idx)) as [r |] eqn:Er; [| discriminate].
              destruct (mapO _ lines) as [rs' |] eqn:Ers; [| discriminate]. injection Y as <-.
              unfold tfields in Er. rewrite (mapO_combine_firstn _ _ _ _ _ Ei Er), (IHl rs' eq_refl). reflexivity. }
            unfold cell in Ek. rewrite Ek. cbn [bindO]. rewrite map_map.
            assert (map (fun r => key_of ts (firstn (List.length (tpk ts)) r)) (rows t) = map (key_of ts) (rows t)) as ->; auto.
            apply map_ext. intros r. unfold key_of. now rewrite firstn_firstn, Nat.min_id. }
        cbn [mapO]. rewrite E, A. eexists. split; [reflexivity |]. intros t0 x. cbn [List.concat]. rewrite in_app_iff, B. split.
        + intros [X | (ts0 & X & Y)]; [| exists ts0; simpl; auto].
          destruct (counted (map (key_of ts) (rows t))) as [| c cs] eqn:Ec; [contradiction |]. destruct X as [X | []]. injection X as <- <-.
          exists ts. split; [simpl; auto |]. rewrite Ec. split; auto. discriminate.
        + intros (ts0 & [X | X] & Y & Z); [| right; eauto]. injection X as <- <-. left. rewrite <- Y. destruct x; [contradiction | simpl; auto]. }
    destruct (Hl (keyed_tables (plain_schema f))) as (parts & A & B). { intros t ts Hin. now apply keys_tables_In in Hin. }
    rewrite A. cbn [bindO]. eexists. split; [reflexivity |]. intros t l. rewrite B. split.
    - intros (ts & X & Y & Z). apply keys_tables_In in X as [X1 X2]. eauto 6.
    - intros (ts & X1 & X2 & Y & Z). exists ts. split; auto. now apply keys_tables_In.
  Qed.
End Trip.
