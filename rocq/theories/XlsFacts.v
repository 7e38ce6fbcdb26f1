(** * Facts about Excel files. *)
From Coq Require Import ZArith Bool List String Arith Lia Permutation.
From Verif Require Import PyVal PyValFacts PyDict PyDictFacts PyStr ListFacts TypeDict Data FindTypes FindTypesFacts FK Obj ObjFacts ObjMore
  Factory FactoryFacts InfIO InfIOFacts Params Names NamesFacts Utils UtilsMore Json ObjRows JsonFacts JsonDups TripFacts Csv CsvFacts CsvRows CsvTrip CsvMore CsvCells Xls.
Import ListNotations.
Local Open Scope string_scope.
Local Open Scope list_scope.

(** ** Columns *)

(** Column [j] of the header row is headed by the field, whatever the case. *)
Definition header_at (h : list value) (x : string) (j : nat) : Prop := exists k, nth_error h j = Some (VStr k) /\ lower k = lower x.
Definition one_header (h : list value) (x : string) (j : nat) : Prop := header_at h x j /\ forall j', header_at h x j' -> j' = j.

Lemma is_header_iff : forall h x j, (exists v, nth_error h j = Some v /\ is_header x v = true) <-> header_at h x j.
Proof.
  intros h x j. unfold header_at. split.
  - intros (v & E & H). destruct v; try discriminate. simpl in H. apply String.eqb_eq in H. eauto.
  - intros (k & E & H). exists (VStr k). split; auto. simpl. now apply String.eqb_eq.
Qed.

Lemma hits_In : forall h i x j, In j (hits_from i x h) <-> i <= j /\ header_at h x (j - i).
Proof.
  induction h as [| v h IH]; intros i x j; cbn [hits_from].
  - split; [intros [] |]. intros (_ & k & E & _). destruct (j - i); discriminate.
  - rewrite <- is_header_iff. assert (In j (hits_from (S i) x h) <-> S i <= j /\ exists w, nth_error h (j - S i) = Some w /\ is_header x w = true) as IH'.
    { rewrite IH, <- is_header_iff. reflexivity. }
    destruct (is_header x v) eqn:E.
    + cbn [In]. rewrite IH'. split.
      * intros [<- | (A & w & B & C)]; [split; auto; exists v; rewrite Nat.sub_diag; auto |].
        split; [lia |]. exists w. replace (j - i) with (S (j - S i)) by lia. auto.
      * intros (A & w & B & C). destruct (Nat.eq_dec i j) as [| N]; auto. right. split; [lia |]. exists w.
        replace (j - i) with (S (j - S i)) in B by lia. auto.
    + rewrite IH'. split.
      * intros (A & w & B & C). split; [lia |]. exists w. replace (j - i) with (S (j - S i)) by lia. auto.
      * intros (A & w & B & C). destruct (Nat.eq_dec i j) as [-> | N].
        -- rewrite Nat.sub_diag in B. injection B as <-. congruence.
        -- split; [lia |]. exists w. replace (j - i) with (S (j - S i)) in B by lia. auto.
Qed.

Lemma hits_NoDup : forall h i x, NoDup (hits_from i x h).
Proof.
  induction h as [| v h IH]; intros i x; cbn [hits_from]; [constructor |]. destruct (is_header x v); auto.
  constructor; auto. rewrite hits_In. lia.
Qed.

Theorem hits_one : forall h x j, hits_from 0 x h = [j] <-> one_header h x j.
Proof.
  intros h x j. unfold one_header.
  assert (forall j', In j' (hits_from 0 x h) <-> header_at h x j') as H.
  { intros j'. rewrite hits_In, Nat.sub_0_r. split; [now intros [] | split; auto; lia]. }
  pose proof (hits_NoDup h 0 x) as N. split.
  - intros E. rewrite E in H. split; [apply H; simpl; auto |]. intros j' Hj. apply H in Hj as [-> | []]. auto.
  - intros [A B]. destruct (hits_from 0 x h) as [| a l]; [now apply H in A |].
    assert (a = j) as -> by (apply B, H; simpl; auto). f_equal. destruct l as [| b l]; auto. exfalso.
    assert (b = j) as -> by (apply B, H; simpl; auto). inversion N as [| ? ? N1 _]; subst. apply N1. simpl. auto.
Qed.

(** The line of a sheet holds the cells [r], given in the order of the fields. *)
Definition cells_of (ts : tschema) (h line r : list value) : Prop :=
  List.length r = List.length (tfields ts) /\
  forall i x j, nth_error (tfields ts) i = Some x -> header_at h x j -> nth_error line j = nth_error r i.

Section Columns.
  Variable date_of : value -> option Z.
  Variable float_of : value -> option value.
  Variable f : factory.
  Variable b : workbook.
  Notation cell := (xls_cell date_of float_of f b).

  Definition first_row (headers : bool) (offset : nat) : nat := offset + (if headers then 1 else 0).
  Definition data_lines (headers : bool) (offset : nat) (s : sheet) : list (list value) := rows_read (pruned f b) s (first_row headers offset).

  Lemma row_cells : forall inf t fs idx (line r : list value), List.length idx = List.length fs -> List.length r = List.length fs ->
    (forall i j, nth_error idx i = Some j -> nth_error line j = nth_error r i) ->
    mapO (fun xi => match nth_error line (snd xi) with Some v => cell inf t (fst xi) v | None => Raise end) (combine fs idx) =
    mapO (fun xv => cell inf t (fst xv) (snd xv)) (combine fs r).
  Proof.
    intros inf t. induction fs as [| x fs IH]; intros [| j idx] line [| v r] L1 L2 H; try discriminate; auto. cbn [combine mapO fst snd].
    rewrite (H 0 j eq_refl). cbn [nth_error]. rewrite (IH idx line r); auto. intros i j' Hi. apply (H (S i) j' Hi).
  Qed.

  Lemma indices_found : forall s offset fs, (forall x, In x fs -> exists j, one_header (nth offset (sh_rows s) []) x j) ->
    exists idx, mapO (fun x => match hits_from 0 x (nth offset (sh_rows s) []) with [i] => Ret i | _ => Raise end) fs = Ret idx /\
      List.length idx = List.length fs /\ forall i j x, nth_error idx i = Some j -> nth_error fs i = Some x -> header_at (nth offset (sh_rows s) []) x j.
  Proof.
    intros s offset fs. induction fs as [| x fs IH]; intros H.
    - exists []. simpl. repeat split; auto. intros [| i] j x E; discriminate.
    - destruct IH as (idx & A & B & C). { intros; apply H; simpl; auto. }
      destruct (H x (or_introl eq_refl)) as (j & Hj). pose proof (proj2 (hits_one _ _ _) Hj) as E.
      exists (j :: idx). cbn [mapO]. rewrite E, A. split; auto. split; [simpl; auto |].
      intros [| i] j' x' E1 E2; cbn [nth_error] in *; [injection E1 as <-; injection E2 as <-; apply Hj | eauto].
  Qed.

  Theorem xls_found : forall inf t ts s offset rs, offset < book_nrows b s ->
    (forall x, In x (tfields ts) -> exists j, one_header (nth offset (sh_rows s) []) x j) ->
    Forall2 (cells_of ts (nth offset (sh_rows s) [])) (data_lines true offset s) rs ->
    xls_rows date_of float_of f b true inf offset t ts s =
    mapO (fun r => mapO (fun xv => cell inf t (fst xv) (snd xv)) (combine (tfields ts) r)) rs.
  Proof.
    intros inf t ts s offset rs Hn Hone H. unfold xls_rows, field_indices. apply Nat.leb_gt in Hn. rewrite Hn.
    destruct (indices_found s offset (tfields ts) Hone) as (idx & A & B & C). rewrite A. cbn [bindO].
    unfold data_lines, first_row in H. induction H as [| line r lines rs (L & Hr) _ IH]; auto. cbn [mapO].
    rewrite (row_cells inf t (tfields ts) idx line r B L).
    - destruct (mapO _ (combine (tfields ts) r)); auto. now rewrite IH.
    - intros i j Hi. destruct (nth_error (tfields ts) i) as [x |] eqn:Ex; [eapply Hr; eauto |].
      exfalso. apply nth_error_None in Ex. assert (i < List.length idx) by (apply nth_error_Some; congruence). lia.
  Qed.

  Theorem xls_refused : forall inf t ts s offset x, In x (tfields ts) ->
    (book_nrows b s <= offset \/ (forall j, ~ header_at (nth offset (sh_rows s) []) x j) \/
     exists j j', j <> j' /\ header_at (nth offset (sh_rows s) []) x j /\ header_at (nth offset (sh_rows s) []) x j') ->
    xls_rows date_of float_of f b true inf offset t ts s = Raise.
  Proof.
    intros inf t ts s offset x Hx H. unfold xls_rows, field_indices. destruct (Nat.leb (book_nrows b s) offset) eqn:E.
    - destruct (tfields ts); [contradiction | reflexivity].
    - apply Nat.leb_gt in E. destruct H as [H | H]; [lia |].
      assert (mapO (fun x => match hits_from 0 x (nth offset (sh_rows s) []) with [i] => Ret i | _ => Raise end) (tfields ts) = Raise) as ->; auto.
      apply mapO_raise with (x := x); auto. destruct (hits_from 0 x _) as [| j [| j' l]] eqn:Eh; auto.
      apply hits_one in Eh as [Eh1 Eh2]. exfalso. destruct H as [H | (a & c & N & H1 & H2)]; [eapply H; eauto |].
      apply N. rewrite (Eh2 a H1), (Eh2 c H2). auto.
  Qed.

  (** Without headers the cells are taken by position. *)
  Theorem xls_plain_found : forall inf t ts s offset, (forall r, In r (sh_rows s) -> List.length (tfields ts) <= List.length r) -> offset < List.length (sh_rows s) ->
    xls_rows date_of float_of f b false inf offset t ts s =
    mapO (fun line => mapO (fun xv => cell inf t (fst xv) (snd xv)) (combine (tfields ts) (firstn (List.length (tfields ts)) line))) (data_lines false offset s).
  Proof.
    intros inf t ts s offset Hw Ho. unfold xls_rows, field_indices.
    destruct (nth_error (sh_rows s) offset) as [r |] eqn:E; [| apply nth_error_None in E; lia].
    assert (match (if Nat.ltb 0 (book_nrows b s) then Some (List.length r) else Some (List.length (tfields ts))) with
            | None => Raise
            | Some n => if Nat.leb (List.length (tfields ts)) n then Ret (seq 0 (List.length (tfields ts))) else Raise
            end = Ret (seq 0 (List.length (tfields ts)))) as ->.
    { destruct (Nat.ltb _ _); [| now rewrite Nat.leb_refl]. apply nth_error_In in E. apply Hw in E. apply Nat.leb_le in E. now rewrite E. }
    cbn [bindO]. apply mapO_ext. intros line Hl. apply row_cells; auto using seq_length.
    - rewrite firstn_length. assert (List.length (tfields ts) <= List.length line); [| lia]. apply Hw.
      unfold rows_read in Hl.
      assert (forall n (l : list (list value)) a, In a (skipn n l) -> In a l) as S1.
      { intros n l a Ha. rewrite <- (firstn_skipn n l). apply in_app_iff. auto. }
      assert (forall n (l : list (list value)) a, In a (firstn n l) -> In a l) as S2.
      { intros n l a Ha. rewrite <- (firstn_skipn n l). apply in_app_iff. auto. }
      eauto.
    - intros i j Hi.
      assert (i < List.length (tfields ts)) as Hlt by (rewrite <- (seq_length (List.length (tfields ts)) 0); apply nth_error_Some; congruence).
      assert (j = i) as ->.
      { apply (nth_error_nth _ _ 0) in Hi. rewrite seq_nth in Hi; auto. }
      clear - Hlt. revert line Hlt. generalize (List.length (tfields ts)). induction i as [| i IH]; intros [| n] [| v line] Hlt; simpl in *; auto; try lia.
      apply IH. lia.
  Qed.
End Columns.

(** ** The table built *)

Lemma sub_row_ok : forall dv t ts r, List.length r = List.length (tdf ts) ->
  row_factory dv t ts (sub_row r) = Some r /\ match sub_row r with RSeq l => List.length l = List.length (tdf ts) | RAtom _ => List.length (tdf ts) = 1 | RDict _ => False end.
Proof.
  intros dv t ts r L. unfold sub_row. destruct r as [| v [| v' r]].
  - split; [now apply row_factory_seq | exact L].
  - simpl in L. split; [| lia]. unfold row_factory. destruct (tdf ts) as [| x [| x' fs]]; try discriminate. reflexivity.
  - split; [now apply row_factory_seq | exact L].
Qed.

Theorem xls_built_ok : forall dv t ts rs, (forall r, In r rs -> List.length r = List.length (tfields ts)) ->
  init_one dv t ts (xls_built ts rs) = Some (rows_table ts rs) /\ in_length (xls_built ts rs) = out_length (rows_table ts rs).
Proof.
  intros dv t ts rs L. unfold xls_built, rows_table, init_one. destruct (tpk ts) as [| p pk] eqn:Ep.
  - assert (tfields ts = tdf ts) as Ef by (unfold tfields; now rewrite Ep). rewrite Ef in L.
    split; [| simpl; apply map_length].
    assert (good_rows (tdf ts) (map sub_row rs) = true) as ->.
    { apply good_rows_iff. intros x Hx. apply in_map_iff in Hx as (r & <- & Hr). destruct (sub_row_ok dv t ts r (L _ Hr)) as [_ H].
      destruct (sub_row r); simpl; auto. contradiction. }
    assert (map_opt (row_factory dv t ts) (map sub_row rs) = Some rs) as ->; auto.
    clear - L. induction rs as [| r rs IH]; simpl; auto. destruct (sub_row_ok dv t ts r (L r (or_introl eq_refl))) as [-> _]. rewrite IH; auto.
    intros; apply L; simpl; auto.
  - rewrite <- Ep. assert (tpk ts <> []) as Hne by congruence. clear p pk Ep.
    set (pairs := map (fun r => (key_of ts r, skipn (List.length (tpk ts)) r)) rs).
    assert (map (fun r => (key_of ts r, sub_row (skipn (List.length (tpk ts)) r))) rs = map (fun kv => (fst kv, sub_row (snd kv))) pairs) as ->.
    { unfold pairs. now rewrite map_map. }
    rewrite dict_of_map. set (l := dict_of pkey_eqb pairs). split; [| simpl; apply map_length].
    assert (forall k r, In (k, r) l -> key_shape ts k /\ k = packed (key_cells k) /\ List.length r = List.length (tdf ts)) as H2.
    { intros k r H. apply dict_of_In in H as [A B]. unfold pairs in A, B. rewrite map_map in A, B.
      apply in_map_iff in A as (r1 & <- & A). apply in_map_iff in B as (r2 & <- & B). cbn [fst snd].
      destruct (key_of_shape ts r1 Hne (L _ A)) as (S1 & S2 & _). split; [exact S1 |]. split; [exact S2 |].
      rewrite skipn_length, (L _ B). unfold tfields. rewrite app_length. lia. }
    assert (forallb (fun kr : pkey * rowin => Nat.eqb (keylen (fst kr)) (List.length (tpk ts))) (map (fun kr => (fst kr, sub_row (snd kr))) l) = true) as ->.
    { apply forallb_forall. intros [k x] Hin. apply in_map_iff in Hin as ([k' r] & E & Hin). injection E as <- <-.
      destruct (H2 _ _ Hin) as [H3 _]. apply Nat.eqb_eq. destruct k'; simpl in *; auto. }
    assert (good_rows (tdf ts) (map snd (map (fun kr => (fst kr, sub_row (snd kr))) l)) = true) as ->.
    { apply good_rows_iff. intros x Hin. rewrite map_map in Hin. apply in_map_iff in Hin as ([k r] & <- & Hin). cbn [fst snd].
      destruct (sub_row_ok dv t ts r) as [_ H]; [now apply (H2 k r Hin) |]. destruct (sub_row r); simpl; auto. contradiction. }
    assert (forallb (fun kr : pkey * rowin => key_len_ok (List.length (tpk ts)) (fst kr)) (map (fun kr => (fst kr, sub_row (snd kr))) l) = true) as ->.
    { apply forallb_forall. intros [k x] Hin. apply in_map_iff in Hin as ([k' r] & E & Hin). injection E as <- <-. cbn [fst snd].
      destruct (H2 _ _ Hin) as (H3 & H4 & _). unfold key_len_ok, key_shape in *. destruct k' as [v | lv].
      - rewrite H3. apply orb_true_r.
      - rewrite <- H3. rewrite Nat.eqb_refl. destruct lv as [| v1 [| v2 lv]]; simpl in *; auto; try discriminate.
        exfalso. destruct (tpk ts); [contradiction | discriminate]. }
    cbn [andb].
    assert (map_opt (fun kr : pkey * rowin => option_map (pair (fst kr)) (row_factory dv t ts (snd kr))) (map (fun kr => (fst kr, sub_row (snd kr))) l) = Some l) as ->;
      [| now destruct (tpk ts)].
    assert (forall k r, In (k, r) l -> List.length r = List.length (tdf ts)) as H5 by (intros k r Hin; now apply (H2 k r Hin)).
    clear - H5. induction l as [| [k r] l IH]; cbn [map map_opt fst snd]; auto. destruct (sub_row_ok dv t ts r) as [-> _]; [eapply H5; simpl; eauto |]. cbn [option_map].
    rewrite IH; auto. intros; eapply H5; simpl; eauto.
Qed.
