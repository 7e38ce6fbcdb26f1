(** * Cells in Excel files. *)
From Coq Require Import ZArith Bool List String Arith Lia.
From Verif Require Import PyVal PyValFacts PyDict PyStr TypeDict Data FindTypes FK Obj Factory InfIO InfIOFacts Params Names Utils Json Csv Xls XlsMore.
Import ListNotations.
Local Open Scope string_scope.
Local Open Scope list_scope.

Section Cells.
  Variable date_of : value -> option Z.
  Variable float_of : value -> option value.
  Variable show_date : Z -> string.
  Variable saved : value -> outcome value.
  Variable f : factory.
  Variable xldate : option (value -> option Z).
  Notation xls := (match xldate with Some _ => true | None => false end).
  Notation R inf t x v := (xls_with date_of float_of f (dv_dt f t x) xldate inf t x v).

  (** The cell gets no treatment but that common to every format. *)
  Definition ordinary (inf : bool) (t x : string) (u : value) : Prop :=
    match u with
    | VStr y => y <> "" /\ (lower y = "inf" \/ lower y = "-inf" -> inf = false \/ f_flag f <> VStr "N/A" \/ treats_params f t = true)
    | VNum _ | VNaN => xldate = None \/ forall dt, field_type f t x = Some dt -> datetime dt = false
    | _ => True
    end.

  Theorem ordinary_cell : forall inf t x u, ordinary inf t x u -> R inf t x u = general date_of float_of f t x u.
  Proof.
    intros inf t x u H. unfold xls_with, dv_dt. cbn [snd]. fold (field_type f t x).
    assert (forall g, is_number u = false \/ xldate = None \/ (forall dt, field_type f t x = Some dt -> datetime dt = false) ->
      match field_type f t x, xldate with
      | Some dt, Some g0 => if datetime dt && is_number u then general date_of float_of f t x (g g0) else general date_of float_of f t x u
      | _, _ => general date_of float_of f t x u
      end = general date_of float_of f t x u) as Hg.
    { intros g Hd. destruct (field_type f t x) as [dt |] eqn:E; auto. destruct xldate; auto. destruct Hd as [-> | [Hd | Hd]]; [now rewrite andb_false_r | discriminate |].
      now rewrite (Hd dt eq_refl). }
    destruct u; cbn [ordinary] in H; try (apply (Hg (fun g0 => _)); auto; fail).
    destruct H as [H1 H2]. apply String.eqb_neq in H1. rewrite H1.
    assert ((inf && value_eqb (f_flag f) (VStr "N/A") && negb (treats_params f t)) && (String.eqb (lower s) "inf" || String.eqb (lower s) "-inf") = false) as ->; auto.
    destruct (String.eqb (lower s) "inf" || String.eqb (lower s) "-inf") eqn:E; [| apply andb_false_r]. rewrite andb_true_r.
    apply orb_true_iff in E. rewrite !String.eqb_eq in E. destruct (H2 E) as [-> | [H3 | ->]]; [reflexivity | | apply andb_false_r].
    destruct (value_eqb (f_flag f) (VStr "N/A")) eqn:Ev; [apply value_eqb_eq in Ev; contradiction |]. now rewrite andb_false_r.
  Qed.

  (** A cell that comes back through the infinity flag comes back from the file if
      the libraries keep what is written. *)
  Theorem xls_cell_kept : forall inf t ts x v u, clean_for_write date_of show_date f xls t x v = Ret u -> saved u = Ret u ->
    ordinary inf t x u -> general date_of float_of f t x u = Ret v -> xls_trip date_of float_of show_date saved f xldate inf t ts x v v.
  Proof. intros inf t ts x v u A B C D. exists u, u. split; auto. split; auto. now rewrite ordinary_cell. Qed.

  (** Infinities in an .xlsx file. *)
  Theorem xlsx_infinity : forall t ts x n, xldate = None -> f_flag f = VStr "N/A" -> treats_params f t = false ->
    n = PInf \/ n = NInf -> (forall y, y = "inf" \/ y = "-inf" -> saved (VStr y) = Ret (VStr y)) ->
    xls_trip date_of float_of show_date saved f xldate true t ts x (VNum n) (VNum n).
  Proof.
    intros t ts x n Hx Hf Hp Hn Hs. exists (VStr (match n with PInf => "inf" | _ => "-inf" end)), (VStr (match n with PInf => "inf" | _ => "-inf" end)).
    split; [| split].
    - unfold clean_for_write. rewrite Hx, Hf, Hp. replace (value_eqb (VStr "N/A") (VStr "N/A")) with true by (symmetry; now apply value_eqb_eq).
      cbn [negb orb bindO]. destruct Hn as [-> | ->]; reflexivity.
    - apply Hs. destruct Hn as [-> | ->]; auto.
    - unfold xls_with. rewrite Hf, Hp. replace (value_eqb (VStr "N/A") (VStr "N/A")) with true by (symmetry; now apply value_eqb_eq).
      cbn [negb andb]. destruct Hn as [-> | ->]; reflexivity.
  Qed.

  (** Datetimes. *)
  Theorem xls_date : forall inf t ts x d dt, treats_params f t = false -> t <> "parameters" -> is_table f t = true ->
    field_type f t x = Some dt -> datetime dt = true -> f_flag f <> VNone ->
    show_date d <> "" -> lower (show_date d) <> "inf" -> lower (show_date d) <> "-inf" ->
    saved (VStr (show_date d)) = Ret (VStr (show_date d)) -> date_of (VStr (show_date d)) = Some d ->
    xls_trip date_of float_of show_date saved f xldate inf t ts x (VDate d) (VDate d).
  Proof.
    intros inf t ts x d dt Hp Ht Hi E Hd Hfl Hne H1 H2 Hs Hdate. apply xls_cell_kept with (u := VStr (show_date d)); auto.
    - unfold clean_for_write. destruct xldate; auto. rewrite Hp, orb_false_r. destruct (value_eqb (f_flag f) (VStr "N/A")); auto. cbn [negb].
      unfold write_cell. cbn [io_fac]. apply String.eqb_neq in Ht. rewrite Ht. cbn [andb]. destruct (f_flag f); try contradiction; cbn [flagged fst bindO]; reflexivity.
    - cbn [ordinary]. split; auto. intros [X | X]; contradiction.
    - unfold general, read_cell. cbn [io_fac]. rewrite Hi. cbn [negb]. apply String.eqb_neq in Ht. rewrite Ht, E, Hd. cbn [is_null negb andb adjust].
      rewrite Hdate. reflexivity.
  Qed.
End Cells.
