(** * Blank cells of Excel files and CSV files when None stands for infinity. *)
From Coq Require Import ZArith Bool List String Arith Lia.
From Verif Require Import PyVal PyValFacts PyDict PyStr TypeDict Data FindTypes FK Obj Factory InfIO InfIOFacts Params Names Utils Json Csv Xls XlsMore.
Import ListNotations.
Local Open Scope string_scope.
Local Open Scope list_scope.

(** The field takes numbers and exactly one infinity, and does not take None. *)
Definition one_infinity (date_of : value -> option Z) (f : factory) (t x : string) (b : bool) : Prop :=
  exists dt, field_type f t x = Some dt /\ number_allowed dt = true /\ valid_data (is_date date_of) dt VNone = false /\
    valid_data (is_date date_of) dt (inf_of b) = true /\ valid_data (is_date date_of) dt (inf_of (negb b)) = false.

Section Blank.
  Variable date_of : value -> option Z.
  Variable float_of : value -> option value.
  Variable show_date : Z -> string.
  Variable saved : value -> outcome value.
  Variable f : factory.
  Variable xldate : option (value -> option Z).

  Lemma one_infinity_bias : forall t x b, f_flag f = VNone -> is_table f t = true -> one_infinity date_of f t x b ->
    fst (bias date_of (mkIO f []) t x) = Ret (Some b).
  Proof.
    intros t x b Hf Ht (dt & E & N & V & I & J). unfold bias. cbn [io_fac io_cache]. rewrite Hf, Ht. cbn [dget]. unfold bias_now. rewrite E, N, V.
    cbn [negb andb]. destruct b; cbn [inf_of negb] in I, J; unfold inf_of in I, J; rewrite I, J; reflexivity.
  Qed.

  Lemma general_none : forall t x b, t <> "parameters" -> f_flag f = VNone -> is_table f t = true -> one_infinity date_of f t x b ->
    general date_of float_of f t x VNone = Ret (inf_of b).
  Proof.
    intros t x b Hp Hf Ht H. pose proof (one_infinity_bias t x b Hf Ht H) as Hb. destruct H as (dt & E & _). unfold general, read_cell. cbn [io_fac io_cache].
    rewrite Ht. apply String.eqb_neq in Hp. rewrite Hp. cbn [negb]. rewrite E. cbn [is_null negb]. rewrite andb_false_r.
    assert (munge float_of f t x VNone = VNone) as ->. { unfold munge. rewrite E. destruct (_ && truthy (f_auto f)); reflexivity. }
    rewrite Hf. cbn [unflag]. destruct (bias date_of (mkIO f []) t x) as [o c]. cbn [fst] in Hb. rewrite Hb. reflexivity.
  Qed.

  Lemma blank_not_none : forall t x b, one_infinity date_of f t x b -> blank_is_none (dv_dt f t x) = false.
  Proof.
    intros t x b (dt & E & N & V & _). unfold dv_dt, blank_is_none. fold (field_type f t x). rewrite E.
    destruct (dget2 (f_defaults f) t x) as [[] |]; exact V.
  Qed.

  (** The cells found in a workbook. *)
  Theorem xls_blank : forall inf t x b v, t <> "parameters" -> f_flag f = VNone -> is_table f t = true -> one_infinity date_of f t x b ->
    v = VNone \/ v = VStr "" -> xls_with date_of float_of f (dv_dt f t x) xldate inf t x v = Ret (inf_of b).
  Proof.
    intros inf t x b v Hp Hf Ht H [-> | ->]; unfold xls_with.
    - destruct (snd (dv_dt f t x)) as [dt |]; [| now apply general_none]. destruct xldate; [| now apply general_none].
      cbn [is_number]. rewrite andb_false_r. now apply general_none.
    - cbn [String.eqb]. rewrite (blank_not_none _ _ _ H), (general_none t x b) by auto. reflexivity.
  Qed.

  Theorem xls_none_trip : forall inf t ts x b, t <> "parameters" -> f_flag f = VNone -> is_table f t = true -> one_infinity date_of f t x b ->
    saved VNone = Ret VNone \/ saved VNone = Ret (VStr "") ->
    xls_trip date_of float_of show_date saved f xldate inf t ts x (inf_of b) (inf_of b).
  Proof.
    intros inf t ts x b Hp Hf Ht H Hs.
    assert (fst (write_cell date_of (mkIO f []) t x (inf_of b)) = Ret VNone) as Hw.
    { unfold write_cell. cbn [io_fac]. pose proof Hp as Hp'. apply String.eqb_neq in Hp'. rewrite Hp', Hf. cbn [andb].
      pose proof (one_infinity_bias t x b Hf Ht H) as Hb. destruct (bias date_of (mkIO f []) t x) as [o c]. cbn [fst] in Hb. rewrite Hb. cbn [fst].
      destruct b; reflexivity. }
    exists VNone. destruct Hs as [Hs | Hs]; [exists VNone | exists (VStr "")]; (split; [| split; [exact Hs | apply xls_blank; auto]]);
      unfold clean_for_write; destruct xldate; cbn [inf_of] in *; unfold inf_of in *; try exact Hw; rewrite Hf; cbn [value_eqb negb orb]; rewrite Hw; reflexivity.
  Qed.

  (** The texts found in a CSV file. *)
  Theorem csv_blank : forall t x b, t <> "parameters" -> f_flag f = VNone -> is_table f t = true -> one_infinity date_of f t x b ->
    csv_cell date_of float_of f t x (VStr "") = Ret (inf_of b).
  Proof.
    intros t x b Hp Hf Ht H. unfold csv_cell, csv_with. assert (treats_params f t = false) as -> by (unfold treats_params; apply String.eqb_neq in Hp; now rewrite Hp).
    unfold csv_inner. assert (value_eqb (VStr "") (VStr "") = true) as -> by reflexivity. rewrite (blank_not_none _ _ _ H), (general_none t x b) by auto.
    cbn [bindO is_number inf_of]. unfold inf_of. cbn [is_number]. now apply general_none.
  Qed.
End Blank.
