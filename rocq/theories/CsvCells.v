(** * Cells in CSV files, and files that exist already. *)
From Coq Require Import ZArith Bool List String Arith Lia Permutation.
From Verif Require Import PyVal PyValFacts PyDict PyDictFacts PyStr ListFacts TypeDict Data FindTypes FindTypesFacts FK Obj ObjFacts ObjMore
  Factory FactoryFacts InfIO InfIOFacts Params Names NamesFacts Utils UtilsMore Json ObjRows JsonFacts JsonDups TripFacts Csv CsvFacts CsvRows CsvTrip CsvMore.
Import ListNotations.
Local Open Scope string_scope.
Local Open Scope list_scope.

Lemma not_params : forall f t, treats_params f t = false <-> t <> "parameters" \/ f_params f = [].
Proof.
  intros f t. unfold treats_params, has_params. rewrite andb_false_iff, String.eqb_neq, negb_false_iff, Nat.eqb_eq. split; intros [H | H]; auto; right.
  - now apply length_zero_iff_nil.
  - now rewrite H.
Qed.

Section Cells.
  Variable date_of : value -> option Z.
  Variable float_of : value -> option value.
  Variable show_num : num -> string.
  Variable show_date : Z -> string.
  Variable f : factory.
  Notation R := (csv_cell date_of float_of f).
  Notation text := (csv_text show_num show_date).

  (** The text of the cell is read as the cell before the general conversions. *)
  Definition told_apart (t x : string) (u : value) : Prop :=
    match u with
    | VNum n => show_num n <> "" /\ try_float (dv_dt f t x) = true /\ float_of (VStr (show_num n)) = Some (VNum n)
    | VStr y => y <> "" /\ (try_float (dv_dt f t x) = false \/ float_of (VStr y) = None)
    | VNone => blank_is_none (dv_dt f t x) = true \/ exists w, general date_of float_of f t x VNone = Ret w /\ is_number w = true
    | _ => False
    end.

  Lemma neq_eqb : forall y, y <> "" -> value_eqb (VStr y) (VStr "") = false.
  Proof. intros y H. destruct (value_eqb (VStr y) (VStr "")) eqn:E; auto. apply value_eqb_eq in E. now injection E. Qed.

  Theorem cell_told_apart : forall t x u, treats_params f t = false -> told_apart t x u ->
    R t x (VStr (text u)) = general date_of float_of f t x u.
  Proof.
    intros t x u Hp H. unfold csv_cell, csv_with. rewrite Hp. unfold csv_inner. destruct u; cbn [csv_text told_apart] in *; try contradiction.
    - assert (value_eqb (VStr "") (VStr "") = true) as -> by (now apply value_eqb_eq).
      destruct H as [-> | (w & Hg & Hw)]; [reflexivity |]. destruct (blank_is_none _); auto. rewrite Hg, Hw. cbn [bindO]. exact Hg.
    - destruct H as (H1 & H2 & H3). rewrite (neq_eqb _ H1), H2. cbn [to_float]. now rewrite H3.
    - destruct H as (H1 & H2). rewrite (neq_eqb _ H1). destruct H2 as [-> | H2]; auto. cbn [to_float]. rewrite H2. now destruct (try_float _).
  Qed.

  (** A datetime in a field for datetimes. *)
  Theorem cell_date : forall t x d dt, treats_params f t = false -> t <> "parameters" -> is_table f t = true ->
    field_type f t x = Some dt -> datetime dt = true -> number_allowed dt = false ->
    show_date d <> "" -> date_of (VStr (show_date d)) = Some d ->
    R t x (VStr (text (VDate d))) = Ret (VDate d).
  Proof.
    intros t x d dt Hp Ht Hi E Hd Hn Hne Hs. unfold csv_cell, csv_with. rewrite Hp. unfold csv_inner. cbn [csv_text]. rewrite (neq_eqb _ Hne).
    assert (try_float (dv_dt f t x) = false) as ->.
    { unfold try_float, dv_dt. unfold field_type in E. rewrite E. now destruct (dget2 (f_defaults f) t x) as [[] |]. }
    cbn [bindO]. unfold general, read_cell. cbn [io_fac]. rewrite Hi. cbn [negb].
    apply String.eqb_neq in Ht. rewrite Ht, E, Hd. cbn [is_null negb andb adjust]. rewrite Hs. reflexivity.
  Qed.

  (** The texts of a number or boolean in a field that takes no numbers, and of the
      empty string in a field that takes None, are read as something else. *)
  Theorem cell_string : forall t x y w, treats_params f t = false -> t <> "parameters" -> try_float (dv_dt f t x) = false -> y <> "" ->
    (forall dt, field_type f t x = Some dt -> datetime dt = false /\ number_allowed dt = false) ->
    R t x (VStr y) = Ret w -> w = VStr y.
  Proof.
    intros t x y w Hp Ht Hf Hy Hdt. unfold csv_cell, csv_with. rewrite Hp. unfold csv_inner. rewrite (neq_eqb _ Hy), Hf. cbn [bindO].
    unfold general, read_cell. cbn [io_fac]. destruct (is_table f t); [| discriminate]. cbn [negb]. apply String.eqb_neq in Ht. rewrite Ht.
    unfold munge. destruct (field_type f t x) as [dt |] eqn:E.
    - destruct (Hdt _ eq_refl) as [A B]. rewrite A, B. cbn [andb negb]. rewrite andb_false_r. cbn [andb].
      intros H. destruct (f_flag f); cbn [unflag fst] in H; congruence.
    - intros H. destruct (f_flag f); cbn [unflag fst] in H; congruence.
  Qed.

  Theorem cell_blank : forall t x dt, treats_params f t = false -> field_type f t x = Some dt -> nullable dt = true ->
    R t x (VStr "") = general date_of float_of f t x VNone.
  Proof.
    intros t x dt Hp E Hn. unfold csv_cell, csv_with. rewrite Hp. unfold csv_inner.
    assert (value_eqb (VStr "") (VStr "") = true) as -> by (now apply value_eqb_eq).
    assert (blank_is_none (dv_dt f t x) = true) as ->; [| reflexivity].
    unfold blank_is_none, dv_dt. unfold field_type in E. rewrite E. now destruct (dget2 (f_defaults f) t x) as [[] |].
  Qed.

  (** Fields in which an empty cell is None, and in which texts are tried as numbers. *)
  Definition blank_field (t x : string) : Prop :=
    (exists dt, shown_type f t x = Some dt /\ nullable dt = true) \/ (shown_type f t x = None /\ shown_default f t x = Some VNone).
  Definition number_field (t x : string) : Prop :=
    (exists dt, shown_type f t x = Some dt /\ number_allowed dt = true) \/
    (shown_type f t x = None /\ exists n, shown_default f t x = Some (VNum n)) \/
    (shown_type f t x = None /\ shown_default f t x = Some VNaN).

  Lemma blank_field_iff : forall t x, blank_is_none (dv_dt f t x) = true <-> blank_field t x.
  Proof.
    intros t x. unfold blank_is_none, dv_dt, blank_field, shown_type, shown_default.
    destruct (dget2 (f_types f) t x) as [dt |], (dget2 (f_defaults f) t x) as [[] |]; cbn; split; intros H; try discriminate; auto;
      try (left; eauto; fail); destruct H as [(dt' & E & H) | (E & H)]; congruence.
  Qed.

  Lemma number_field_iff : forall t x, try_float (dv_dt f t x) = true <-> number_field t x.
  Proof.
    intros t x. unfold try_float, dv_dt, number_field, shown_type, shown_default.
    destruct (dget2 (f_types f) t x) as [dt |], (dget2 (f_defaults f) t x) as [[] |]; cbn; split; intros H; try discriminate; auto;
      try (left; eauto; fail); try (right; left; eauto; fail);
      destruct H as [(dt' & E & H) | [(E & m & H) | (E & H)]]; congruence.
  Qed.

  (** What the texts of a file are read as, under the flag N/A, outside datetime fields. *)
  Theorem cell_texts : forall t x y, t <> "parameters" -> is_table f t = true -> f_flag f = VStr "N/A" ->
    (forall dt, shown_type f t x = Some dt -> datetime dt = false) -> float_of (VStr "") = None ->
    (y = "" -> blank_field t x -> R t x (VStr y) = Ret VNone) /\
    (y = "" -> ~ blank_field t x -> R t x (VStr y) = Ret (VStr "")) /\
    (forall w, number_field t x -> float_of (VStr y) = Some w -> is_number w = true -> float_of w = Some w -> R t x (VStr y) = Ret w) /\
    (y <> "" -> ~ number_field t x \/ float_of (VStr y) = None -> R t x (VStr y) = Ret (VStr y)).
  Proof.
    intros t x y Ht Hi Hfl Hdt H0.
    assert (treats_params f t = false) as Hp by (unfold treats_params; apply String.eqb_neq in Ht; now rewrite Ht).
    assert (forall v, general date_of float_of f t x v = Ret (munge float_of f t x v)) as Hg.
    { intros v. unfold general, read_cell. cbn [io_fac]. rewrite Hi. cbn [negb]. apply String.eqb_neq in Ht. rewrite Ht, Hfl.
      unfold field_type. change (dget2 (f_types f) t x) with (shown_type f t x).
      destruct (shown_type f t x) as [dt |]; [rewrite (Hdt _ eq_refl); cbn [andb] |]; cbn [unflag];
        destruct (munge float_of f t x v); reflexivity. }
    assert (forall v, (v = VNone \/ (is_number v = true /\ forall w, to_float float_of v = Some w -> w = v) \/ to_float float_of v = None \/ ~ number_field t x) -> munge float_of f t x v = v) as Hm.
    { intros v Hv. unfold munge. change (field_type f t x) with (shown_type f t x).
      destruct (shown_type f t x) as [dt |] eqn:E; auto. destruct (_ && _) eqn:Ec; auto.
      destruct Hv as [-> | [[_ Hv] | [Hv | Hv]]].
      - reflexivity.
      - destruct (to_float float_of v) as [w |]; auto.
      - now rewrite Hv.
      - exfalso. apply Hv. left. exists dt. split; [exact E |]. apply andb_true_iff in Ec as [Ec _]. now apply andb_true_iff in Ec as [_ Ec]. }
    assert (forall v, csv_inner date_of float_of f (dv_dt f t x) t x (VStr y) = Ret v -> R t x (VStr y) = Ret (munge float_of f t x v)) as Hr.
    { intros v E. unfold csv_cell, csv_with. rewrite Hp, E. cbn [bindO]. apply Hg. }
    split; [| split; [| split]].
    - intros -> Hb. rewrite (Hr VNone); [now rewrite Hm by auto |]. unfold csv_inner.
      apply blank_field_iff in Hb. rewrite Hb. reflexivity.
    - intros -> Hb. rewrite (Hr (VStr "")); [rewrite Hm; [auto |]; right; right; left; exact H0 |]. unfold csv_inner.
      assert (blank_is_none (dv_dt f t x) = false) as -> by (apply not_true_iff_false; now rewrite blank_field_iff).
      assert (value_eqb (VStr "") (VStr "") = true) as -> by (now apply value_eqb_eq).
      rewrite Hg, Hm by auto. cbn [is_number to_float]. rewrite H0. now destruct (try_float _).
    - intros w Hn Hw Hnum Hfw. assert (y <> "") as Hy by congruence. rewrite (Hr w).
      + rewrite Hm; auto. right. left. split; auto. intros w'. destruct w as [| | | [] | |]; cbn in *; try discriminate; congruence.
      + unfold csv_inner. rewrite (neq_eqb _ Hy). apply number_field_iff in Hn. rewrite Hn. cbn [to_float]. now rewrite Hw.
    - intros Hy Hn. rewrite (Hr (VStr y)).
      + rewrite Hm; auto. destruct Hn as [Hn | Hn]; auto.
      + unfold csv_inner. rewrite (neq_eqb _ Hy). destruct Hn as [Hn | Hn].
        * assert (try_float (dv_dt f t x) = false) as -> by (apply not_true_iff_false; now rewrite number_field_iff). reflexivity.
        * cbn [to_float]. rewrite Hn. now destruct (try_float _).
  Qed.

  (** ** Files that exist *)

  Lemma put_keeps : forall (dir dir' : directory) name file e, put dir name file = Ret dir' -> In e dir -> fst (fst e) <> name -> In e dir'.
  Proof.
    intros dir dir' name file e H Hin Hne. unfold put in H. destruct (existsb _ dir).
    - apply mapO_Forall2 in H. destruct (Forall2_In_l _ _ _ _ H Hin) as (e' & He & E). cbv beta in E.
      apply String.eqb_neq in Hne. rewrite Hne in E. now injection E as <-.
    - injection H as <-. apply in_app_iff. auto.
  Qed.

  Lemma put_adds : forall (dir dir' : directory) name file, put dir name file = Ret dir' -> In (name, true, file) dir'.
  Proof.
    intros dir dir' name file H. unfold put in H. destruct (existsb _ dir) eqn:E.
    - apply existsb_exists in E as (e & Hin & E). apply mapO_Forall2 in H. destruct (Forall2_In_l _ _ _ _ H Hin) as (e' & He & E').
      cbv beta in E'. rewrite E in E'. destruct (snd (fst e)); [| discriminate]. now injection E' as <-.
    - injection H as <-. apply in_app_iff. simpl. auto.
  Qed.

  Lemma puts_keep : forall (new : directory) acc dir' e,
    fold_left (fun acc (n : string * bool * csv_file) => bindO acc (fun dir => put dir (fst (fst n)) (snd n))) new acc = Ret dir' ->
    (forall n, In n new -> fst (fst e) <> fst (fst n)) -> (forall dir, acc = Ret dir -> In e dir) -> In e dir'.
  Proof.
    induction new as [| n new IH]; intros acc dir' e H Hn Ha; cbn [fold_left] in H; [auto |].
    apply (IH _ _ _ H); [intros; apply Hn; simpl; auto |]. intros dir E. apply bindO_ret in E as (dir0 & E1 & E2).
    eapply put_keeps; eauto. apply Hn. simpl. auto.
  Qed.

  Lemma puts_add : forall (new : directory) acc dir' n,
    fold_left (fun acc (n : string * bool * csv_file) => bindO acc (fun dir => put dir (fst (fst n)) (snd n))) new acc = Ret dir' ->
    NoDup (map (fun e : string * bool * csv_file => fst (fst e)) new) -> In n new -> snd (fst n) = true -> In n dir'.
  Proof.
    induction new as [| m new IH]; intros acc dir' n H N Hin Hb; [contradiction |]. cbn [fold_left map] in *. inversion N as [| ? ? N1 N2]; subst.
    destruct Hin as [<- | Hin]; [| eapply IH; eauto].
    apply (puts_keep _ _ _ _ H).
    - intros n Hn E. apply N1. rewrite E. now apply (in_map (fun e : string * bool * csv_file => fst (fst e))).
    - intros dir E. apply bindO_ret in E as (dir0 & E1 & E2). apply put_adds in E2. destruct m as [[a b] c]. cbn [fst snd] in *. now subst b.
  Qed.

  Lemma written_names : forall hdr pretty d new, csv_write date_of show_num show_date f hdr pretty d = Ret new ->
    forall n, In n new -> exists t, In t (map fst (plain_schema f)) /\ fst (fst n) = csv_name pretty (map fst (f_decl f)) t.
  Proof.
    intros hdr pretty d new H n Hn. unfold csv_write in H. apply mapO_Forall2 in H. destruct (Forall2_In_r _ _ _ _ H Hn) as ([t ts] & Hin & E).
    cbv beta in E. cbn [fst snd] in E. apply bindO_ret in E as (file & _ & E). injection E as <-. exists t. split; auto. now apply (in_map fst) in Hin.
  Qed.

  Lemma plain_declared : forall t, In t (map fst (plain_schema f)) -> In t (map fst (f_decl f)).
  Proof.
    intros t H. apply in_map_iff in H as ([t0 ts] & E & H). cbn [fst] in E. subst t0. unfold plain_schema in H. apply in_flat_map in H as ([t' d'] & H & H').
    cbn [fst snd] in H'. destruct d' as [| ts']; simpl in H'; [contradiction |]. destruct H' as [E | []]. injection E as <- <-. now apply (in_map fst) in H.
  Qed.

  (** Entries under other names stay. *)
  Theorem others_stay : forall hdr pretty allow dir d dir' e,
    csv_save date_of show_num show_date f hdr pretty allow dir d = Ret dir' -> In e dir ->
    (forall t, In t (map fst (f_decl f)) -> fst (fst e) <> csv_name pretty (map fst (f_decl f)) t) -> In e dir'.
  Proof.
    intros hdr pretty allow dir d dir' e H Hin Hne. unfold csv_save in H. destruct (_ && _); [discriminate |].
    apply bindO_ret in H as (new & E & H). apply (puts_keep _ _ _ _ H).
    - intros n Hn. destruct (written_names _ _ _ _ E n Hn) as (t & Ht & ->). apply Hne. now apply plain_declared.
    - intros dir0 E0. now injection E0 as <-.
  Qed.

  (** If the tables keep their names nothing is overwritten. *)
  Theorem nothing_overwritten : forall hdr pretty dir d dir' e,
    (forall t, In t (map fst (f_decl f)) -> csv_name pretty (map fst (f_decl f)) t = append t ".csv") ->
    csv_save date_of show_num show_date f hdr pretty false dir d = Ret dir' -> In e dir -> In e dir'.
  Proof.
    intros hdr pretty dir d dir' e Hnames H Hin. eapply others_stay; eauto. intros t Ht E. rewrite (Hnames t Ht) in E.
    unfold csv_save in H. cbn [negb andb] in H.
    assert (existsb (fun t => existsb (fun e : string * bool * csv_file => String.eqb (fst (fst e)) (append t ".csv")) dir) (map fst (f_decl f)) = true) as X.
    { apply existsb_exists. exists t. split; auto. apply existsb_exists. exists e. split; auto. rewrite E. apply String.eqb_refl. }
    rewrite X in H. discriminate.
  Qed.
End Cells.
