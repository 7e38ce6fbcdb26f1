(** * Objects with generic tables: facts. *)
From Coq Require Import ZArith Bool List String Arith Lia Permutation.
From Verif Require Import PyVal PyValFacts PyDict PyDictFacts PyStr ListFacts TypeDict Data FindTypes FindTypesFacts FK Obj ObjFacts ObjMore
  Factory FactoryFacts InfIO InfIOFacts Params Names NamesFacts Utils UtilsMore Json ObjRows JsonFacts JsonDups TripFacts Csv CsvFacts CsvRows CsvTrip CsvMore Generic.
Import ListNotations.
Local Open Scope string_scope.
Local Open Scope list_scope.

(** The DataFrames of the generic tables that have rows can be made into tables. *)
Definition frames_ok (f : factory) (g : generics) : Prop := forall t, In t (generic_tables f) -> g_rows (g t) <> [] ->
  g_cols (g t) <> [] /\ NoDup (map lower (g_cols (g t))) /\ forall r, In r (g_rows (g t)) -> List.length r = List.length (g_cols (g t)).

Definition nonempty (g : generics) (t : string) : bool := match g_rows (g t) with [] => false | _ => true end.
(** The generic tables that have rows. *)
Definition filled (f : factory) (g : generics) : list string := filter (nonempty g) (generic_tables f).

Lemma filled_In : forall f g t, In t (filled f g) <-> In t (generic_tables f) /\ g_rows (g t) <> [].
Proof.
  intros f g t. unfold filled, nonempty. rewrite filter_In. destruct (g_rows (g t)); split; intros [A B]; split; auto; try discriminate; congruence.
Qed.

Lemma generic_In : forall f t, In t (generic_tables f) <-> In (t, Generic) (f_decl f).
Proof.
  intros f t. unfold generic_tables. rewrite in_flat_map. split.
  - intros ([t' [|]] & H & Hin); cbn in Hin; [destruct Hin as [<- | []]; auto | contradiction].
  - intros H. exists (t, Generic). split; auto. simpl. auto.
Qed.

Lemma plain_In : forall f t ts, In (t, ts) (plain_schema f) <-> In (t, Fields ts) (f_decl f).
Proof.
  intros f t ts. unfold plain_schema. rewrite in_flat_map. split.
  - intros ([t' [| ts']] & H & Hin); cbn in Hin; [contradiction |]. destruct Hin as [E | []]. now injection E as <- <-.
  - intros H. exists (t, Fields ts). split; auto. simpl. auto.
Qed.

Lemma names_split : forall f t, In t (map fst (f_decl f)) <-> In t (map fst (plain_schema f)) \/ In t (generic_tables f).
Proof.
  intros f t. rewrite generic_In. split.
  - intros H. apply in_map_iff in H as ([t' d] & <- & H). destruct d as [| ts]; [auto | left]. apply plain_In in H. now apply (in_map fst) in H.
  - intros [H | H].
    + apply in_map_iff in H as ([t' ts] & <- & H). apply plain_In in H. now apply (in_map fst) in H.
    + now apply (in_map fst) in H.
Qed.

Lemma free_decl_alt : forall f g, free_decl f g =
  map (fun tts => (fst tts, Fields (snd tts))) (plain_schema f ++ map (fun t => (t, mkT [] (g_cols (g t)))) (filled f g)).
Proof.
  intros f g. unfold free_decl, filled, nonempty. rewrite map_app, map_map. f_equal. cbn [fst snd].
  induction (generic_tables f) as [| t l IH]; simpl; auto. destruct (g_rows (g t)); simpl; auto. now rewrite IH.
Qed.

Lemma plain_of_decl : forall (sch : schema) f', f_decl f' = map (fun tts => (fst tts, Fields (snd tts))) sch -> plain_schema f' = sch /\ all_plain f' /\ generic_tables f' = [].
Proof.
  intros sch f' E. unfold plain_schema, all_plain, generic_tables. rewrite E. clear E. split; [| split].
  - induction sch as [| [t ts] sch IH]; simpl; auto. now rewrite IH.
  - intros t d H. apply in_map_iff in H as (p & E' & _). injection E' as _ <-. discriminate.
  - induction sch as [| [t ts] sch IH]; simpl; auto.
Qed.

Lemma NoDup_lower : forall l, NoDup (map lower l) -> NoDup l.
Proof. intros l H. eapply NoDup_map_inv'; eauto. Qed.

Lemma decl_names : forall f g, map fst (free_decl f g) = map fst (plain_schema f) ++ filled f g.
Proof. intros f g. rewrite free_decl_alt, map_map, map_app, map_map. cbn [fst]. now rewrite map_id. Qed.

Lemma lower_nodup : forall f g, decl_ok (f_decl f) = true -> NoDup (map lower (map fst (plain_schema f) ++ filled f g)).
Proof.
  intros f g Hd. apply decl_ok_legal in Hd as [Hd _]. unfold plain_schema, filled, generic_tables.
  induction (f_decl f) as [| [t d] l IH]; simpl in *; [constructor |]. apply NoDup_cons_iff in Hd as [Hx Hd]. specialize (IH Hd).
  assert (forall b : string, In b (map fst (flat_map (fun td => match snd td with Generic => [] | Fields ts => [(fst td, ts)] end) l) ++
            filter (nonempty g) (flat_map (fun td => match snd td with Generic => [fst td] | Fields _ => [] end) l)) -> In b (map fst l)) as Hsub.
  { intros b Hb. apply in_app_iff in Hb as [Hb | Hb].
    - apply in_map_iff in Hb as ([t' ts'] & <- & Hb). apply in_flat_map in Hb as ([t2 [|]] & H2 & Hb); cbn in Hb; [contradiction |].
      destruct Hb as [E | []]. injection E as <- <-. now apply (in_map fst) in H2.
    - apply filter_In in Hb as [Hb _]. apply in_flat_map in Hb as ([t2 [|]] & H2 & Hb); cbn in Hb; [| contradiction].
      destruct Hb as [<- | []]. now apply (in_map fst) in H2. }
  destruct d as [| ts]; cbn [app map fst filter].
  - destruct (nonempty g t); auto. eapply Permutation_NoDup; [apply Permutation_map, Permutation_middle |]. cbn [map]. constructor; auto.
    intros Hin. apply Hx. apply in_map_iff in Hin as (b & E & Hin). rewrite <- E. apply in_map. auto.
  - constructor; auto. intros Hin. apply Hx. apply in_map_iff in Hin as (b & E & Hin). rewrite <- E. apply in_map. auto.
Qed.

Lemma plain_not_generic : forall f t ts, decl_ok (f_decl f) = true -> In (t, ts) (plain_schema f) -> is_generic f t = false.
Proof.
  intros f t ts Hd H. apply plain_In in H. unfold is_generic.
  assert (dget String.eqb (f_decl f) t = Some (Fields ts)) as ->; auto. apply In_dget; auto; [apply String.eqb_refl |].
  apply (keys_distinct_NoDup String.eqb String.eqb_eq). apply legal_NoDup. now apply decl_ok_legal.
Qed.

Lemma generic_is : forall f t, decl_ok (f_decl f) = true -> In t (generic_tables f) -> is_generic f t = true.
Proof.
  intros f t Hd H. apply generic_In in H. unfold is_generic.
  assert (dget String.eqb (f_decl f) t = Some Generic) as ->; auto. apply In_dget; auto; [apply String.eqb_refl |].
  apply (keys_distinct_NoDup String.eqb String.eqb_eq). apply legal_NoDup. now apply decl_ok_legal.
Qed.

(** ** The factory without generic tables *)

Theorem free_exists : forall f g, decl_ok (f_decl f) = true -> frames_ok f g -> exists f', free_factory f g = Some f'.
Proof.
  intros f g Hd Hg. unfold free_factory, init. assert (decl_ok (free_decl f g) = true) as ->; [| eauto].
  pose proof (lower_nodup f g Hd) as N. pose proof Hd as Hd0. unfold decl_ok in *. rewrite !andb_true_iff in *. destruct Hd as [[[A B] C] D].
  rewrite forallb_forall in A, B, D.
  assert (forall t d, In (t, d) (free_decl f g) -> In t (map fst (f_decl f))) as Hin.
  { intros t d H. apply (in_map fst) in H. cbn [fst] in H. rewrite decl_names in H. apply names_split. apply in_app_iff in H as [H | H]; auto.
    right. now apply filled_In in H. }
  assert (forall t, In t (map fst (f_decl f)) -> exists d, In (t, d) (f_decl f)) as Hex.
  { intros t H. apply in_map_iff in H as ([t' d] & <- & H). eauto. }
  repeat apply conj.
  - apply forallb_forall. intros [t d] H. destruct (Hex _ (Hin _ _ H)) as (d' & H'). exact (A _ H').
  - apply forallb_forall. intros [t d] H. destruct (Hex _ (Hin _ _ H)) as (d' & H'). exact (B _ H').
  - apply distinct_b_iff. rewrite <- (map_map fst lower), decl_names. exact N.
  - apply forallb_forall. intros [t d] H. rewrite free_decl_alt in H. apply in_map_iff in H as ([t' ts] & E & H). injection E as <- <-. cbn [snd].
    apply in_app_iff in H as [H | H].
    + apply plain_In in H. exact (D _ H).
    + apply in_map_iff in H as (t2 & E & H). injection E as <- <-. apply filled_In in H as [H1 H2]. destruct (Hg _ H1 H2) as (G1 & G2 & _).
      cbn [decl_table_ok tpk tdf app]. rewrite !andb_true_iff. split; [split |].
      * destruct (g_cols (g t2)); [contradiction | reflexivity].
      * apply distinct_b_iff. now apply NoDup_lower.
      * now apply distinct_b_iff.
Qed.

Theorem free_spec : forall f g f', free_factory f g = Some f' ->
  decl_ok (f_decl f') = true /\ f_decl f' = free_decl f g /\ plain_schema f' = plain_schema f ++ map (fun t => (t, mkT [] (g_cols (g t)))) (filled f g) /\
  all_plain f' /\ generic_tables f' = [] /\ f_flag f' = VStr "N/A" /\ f_params f' = [] /\ f_fks f' = [] /\ f_types f' = [].
Proof.
  intros f g f' H. unfold free_factory, init in H. destruct (decl_ok (free_decl f g)) eqn:E; [| discriminate].
  assert (f_decl f' = free_decl f g) as Ed by (injection H as <-; reflexivity).
  destruct (plain_of_decl _ f' (eq_trans Ed (free_decl_alt f g))) as (A & B & C).
  rewrite A. repeat (split; [auto; try (rewrite Ed; exact E); try (injection H as <-; reflexivity) |]). injection H as <-. reflexivity.
Qed.

Section Cells.
  Variable date_of : value -> option Z.

  (** The factory without generic tables changes no cell. *)
  Lemma free_write : forall f g f' t x v, free_factory f g = Some f' -> fst (write_cell date_of (mkIO f' []) t x v) = Ret v.
  Proof.
    intros f g f' t x v H. apply free_spec in H as (_ & _ & _ & _ & _ & Hf & Hp & _). unfold write_cell. cbn [io_fac].
    unfold has_params. rewrite Hp. cbn [List.length Nat.eqb negb]. rewrite andb_false_r, Hf. reflexivity.
  Qed.
End Cells.

Lemma free_obj_plain : forall f g d t ts, decl_ok (f_decl f) = true -> In (t, ts) (plain_schema f) -> free_obj f g d t = d t.
Proof. intros f g d t ts Hd H. unfold free_obj. now rewrite (plain_not_generic f t ts Hd H). Qed.
Lemma free_obj_generic : forall f g d t, decl_ok (f_decl f) = true -> In t (generic_tables f) -> free_obj f g d t = OListed (g_rows (g t)).
Proof. intros f g d t Hd H. unfold free_obj. now rewrite (generic_is f t Hd H). Qed.

Lemma free_obj_ok : forall f g d f', decl_ok (f_decl f) = true -> frames_ok f g -> obj_ok (plain_schema f) d -> free_factory f g = Some f' ->
  obj_ok (plain_schema f') (free_obj f g d).
Proof.
  intros f g d f' Hd Hg Hok Hf t ts Hin. apply free_spec in Hf as (_ & _ & E & _). rewrite E in Hin. apply in_app_iff in Hin as [Hin | Hin].
  - rewrite (free_obj_plain f g d t ts Hd Hin). now apply Hok.
  - apply in_map_iff in Hin as (t' & E' & Hin). injection E' as -> <-. apply filled_In in Hin as [H1 H2]. rewrite (free_obj_generic f g d t Hd H1).
    unfold table_ok. cbn [tpk tdf]. intros r Hr. now apply (Hg t H1 H2).
Qed.

(** ** CSV *)

Lemma fold_put_new : forall (new dir : directory), NoDup (map (fun e => fst (fst e)) (dir ++ new)) -> (forall e, In e new -> snd (fst e) = true) ->
  fold_left (fun acc e => bindO acc (fun dir => put dir (fst (fst e)) (snd e))) new (Ret dir) = Ret (dir ++ new).
Proof.
  induction new as [| [[n b] file] new IH]; intros dir N Hb; cbn [fold_left].
  - now rewrite app_nil_r.
  - cbn [bindO fst snd]. unfold put.
    assert (existsb (fun e : string * bool * csv_file => String.eqb (fst (fst e)) n) dir = false) as ->.
    { apply not_true_iff_false. intros H. apply existsb_exists in H as (e & He & E). apply String.eqb_eq in E. rewrite map_app in N.
      eapply NoDup_app_disj; [exact N | apply in_map_iff; exists e; split; [exact E | exact He] | simpl; auto]. }
    specialize (Hb _ (or_introl eq_refl)) as Eb. cbn in Eb. subst b. rewrite IH; [now rewrite <- app_assoc | now rewrite <- app_assoc |].
    intros; apply Hb; simpl; auto.
Qed.

Section Csv.
  Variable date_of : value -> option Z.
  Variable float_of : value -> option value.
  Variable show_num : num -> string.
  Variable show_date : Z -> string.
  Notation text := (csv_text show_num show_date).
  Variable f : factory.
  Variable g : generics.

  (** A cell of an object with generic tables is written as it is. *)
  Definition text_trip (t : string) (ts : tschema) (x : string) (v w : value) : Prop :=
    csv_cell date_of float_of f t x (VStr (text v)) = Ret w.

  Definition text_lines (headers : bool) (fs : list string) (rows : list (list value)) : csv_file :=
    if headers then fs :: map (map text) rows else map (map text) rows.

  Lemma free_lines : forall f' headers t ts tb, free_factory f g = Some f' -> table_ok ts tb ->
    csv_lines date_of show_num show_date f' headers t ts tb = Ret (text_lines headers (tfields ts) (full_rows tb)).
  Proof.
    intros f' headers t ts tb Hf Hok. unfold csv_lines, text_lines.
    assert (mapO (fun r => mapO (fun xv => bindO (fst (write_cell date_of (mkIO f' []) t (fst xv) (snd xv))) (fun u => Ret (text u)))
              (combine (tfields ts) r)) (full_rows tb) = Ret (map (map text) (full_rows tb))) as ->.
    { assert (forall r, In r (full_rows tb) -> List.length r = List.length (tfields ts)) as L by (intros r; now apply full_length).
      induction (full_rows tb) as [| r l IH]; auto. cbn [mapO map]. rewrite IH by (intros; apply L; simpl; auto). specialize (L r (or_introl eq_refl)).
      assert (mapO (fun xv => bindO (fst (write_cell date_of (mkIO f' []) t (fst xv) (snd xv))) (fun u => Ret (text u))) (combine (tfields ts) r)
        = Ret (map text r)) as ->; auto. clear IH. revert r L. induction (tfields ts) as [| x fs IH]; intros [| v r] L; try discriminate; auto.
      cbn [combine mapO fst snd map]. rewrite (free_write date_of f g f' t x v Hf). cbn [bindO]. rewrite IH by (now injection L). reflexivity. }
    reflexivity.
  Qed.

  (** What is written into an empty directory: one file per table with fields, and one per generic table that has rows. *)
  Definition new_files (headers : bool) (d : obj) : directory :=
    map (fun tts : string * tschema => (append (fst tts) ".csv", true, text_lines headers (tfields (snd tts)) (full_rows (d (fst tts))))) (plain_schema f) ++
    map (fun t => (append t ".csv", true, text_lines headers (g_cols (g t)) (g_rows (g t)))) (filled f g).

  Lemma csv_name_plain : forall names t, csv_name false names t = append t ".csv".
  Proof. reflexivity. Qed.

  Theorem gen_csv_written : forall headers d, decl_ok (f_decl f) = true -> has_generics f = true -> frames_ok f g -> obj_ok (plain_schema f) d ->
    forall pretty allow, gen_csv_save date_of show_num show_date f headers pretty allow [] g d = Ret (new_files headers d).
  Proof.
    intros headers d Hd Hg Hfr Hok pretty allow. unfold gen_csv_save. rewrite Hg.
    destruct (free_exists f g Hd Hfr) as (f' & Hf). rewrite Hf. pose proof (free_obj_ok f g d f' Hd Hfr Hok Hf) as Hok'.
    destruct (free_spec f g f' Hf) as (Hd' & _ & Es & _).
    assert (csv_write date_of show_num show_date f' headers false (free_obj f g d) = Ret (new_files headers d)) as Ew.
    { unfold csv_write. rewrite Es.
      assert (new_files headers d = map (fun tts : string * tschema => (append (fst tts) ".csv", true, text_lines headers (tfields (snd tts)) (full_rows (free_obj f g d (fst tts)))))
        (plain_schema f ++ map (fun t => (t, mkT [] (g_cols (g t)))) (filled f g))) as ->.
      { unfold new_files. rewrite map_app. f_equal.
        - apply map_ext_in. intros [t ts] Hin. cbn [fst snd]. now rewrite (free_obj_plain f g d t ts Hd Hin).
        - rewrite map_map. apply map_ext_in. intros t Hin. cbn [fst snd]. apply filled_In in Hin as [Hin _]. now rewrite (free_obj_generic f g d t Hd Hin). }
      rewrite <- Es. unfold obj_ok in Hok'. revert Hok'. generalize (plain_schema f') as sch. induction sch as [| [t ts] sch IH]; intros Hok'; auto.
      cbn [mapO map fst snd]. rewrite (free_lines f' headers t ts _ Hf) by (apply Hok'; simpl; auto). cbn [bindO].
      rewrite IH by (intros; apply Hok'; simpl; auto). rewrite csv_name_plain. reflexivity. }
    unfold csv_save. rewrite Ew. cbn [bindO existsb].
    assert (existsb (fun _ : string => false) (map fst (f_decl f')) = false) as -> by (induction (map fst (f_decl f')); auto).
    rewrite andb_false_r. apply (fold_put_new (new_files headers d) []).
    - cbn [app]. assert (map (fun e : string * bool * csv_file => fst (fst e)) (new_files headers d) = map (fun t => append t ".csv") (map fst (plain_schema f) ++ filled f g)) as ->.
      { unfold new_files. rewrite !map_app, !map_map. reflexivity. }
      apply NoDup_map_inj; [apply NoDup_lower; now apply lower_nodup |]. intros a b _ _ E. now apply append_inj_r in E.
    - unfold new_files. intros e H. apply in_app_iff in H as [H | H]; apply in_map_iff in H as (p & <- & _); reflexivity.
  Qed.
End Csv.
