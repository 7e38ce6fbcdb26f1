(** * Concrete CSV directories and workbooks. *)
From Coq Require Import ZArith Bool List String Ascii Arith Lia Permutation.
From Verif Require Import PyVal PyValFacts PyDict PyDictFacts PyStr TypeDict Data FindTypes FindTypesFacts FK Obj ObjFacts ObjMore WfCheck
  Factory InfIO InfIOFacts Params Names NamesFacts Utils UtilsMore Json ObjRows JsonFacts TripFacts Csv CsvFacts CsvRows CsvTrip CsvMore CsvCells
  Xls XlsFacts XlsMore XlsCells InfWitness JsonWitness SqlWitness.
Import ListNotations.
Local Open Scope string_scope.
Local Open Scope list_scope.

(** A few numbers with their texts. *)
Definition wc_nums : list (Z * string) := [(0, "0"); (1, "1"); (2, "2"); (3, "3"); (7, "7"); (999, "999"); (1000, "1000")]%Z.
Definition wc_num (n : num) : string :=
  match n with
  | PInf => "inf"
  | NInf => "-inf"
  | Fin _ => match find (fun zs => value_eqb (VNum (of_int (fst zs))) (VNum n)) wc_nums with Some (_, s) => s | None => "?" end
  end.
Definition wc_float (v : value) : option value :=
  match v with
  | VStr s => if String.eqb s "inf" then Some (VNum PInf)
              else option_map (fun zs => VNum (of_int (fst zs))) (find (fun zs => String.eqb (snd zs) s) wc_nums)
  | _ => Some v
  end.
Definition wc_show (z : Z) : string := "2020-01-01".

(** The factory of the database example: numeric flag 1000, a number type for Cap,
    datetimes in Day, one parameter. *)
Definition wc_fac : factory := ws_fac.
Definition wc_obj : obj := fun t =>
  if String.eqb t "items" then
    OKeyed [(KAtom (VStr "b"), [int 3; VNum PInf; VDate 5]); (KAtom (VStr "7"), [VStr "x"; int 999; VDate 5])]
  else if String.eqb t "log" then OListed [[VStr "it's"; int 1]; [VStr "7"; VStr "seven"]]
  else if String.eqb t "parameters" then OKeyed [(KAtom (VStr "Big"), [int 7])]
  else OListed [].

Definition csv_trip_b (f : factory) (t : string) (x : string) (v w : value) : bool :=
  match fst (write_cell wi_date (mkIO f []) t x v) with
  | Ret u => match csv_cell wi_date wc_float f t x (VStr (csv_text wc_num wc_show u)) with Ret w' => value_eqb w' w | Raise => false end
  | Raise => false
  end.
Lemma csv_trip_ok : forall f t ts x v w, csv_trip_b f t x v w = true -> csv_trip wi_date wc_float wc_num wc_show f t ts x v w.
Proof.
  intros f t ts x v w H. unfold csv_trip_b in H. destruct (fst (write_cell _ _ _ _ _)) as [u |] eqn:E; [| discriminate].
  destruct (csv_cell _ _ _ _ _ _) as [w' |] eqn:E'; [| discriminate]. apply value_eqb_eq in H. subst w'. exists u. auto.
Qed.

Lemma wc_all_plain : all_plain wc_fac.
Proof.
  assert (forallb (fun td => match snd td with Generic => false | Fields _ => true end) (f_decl wc_fac) = true) as H by (vm_compute; reflexivity).
  intros t d Hin. rewrite forallb_forall in H. specialize (H _ Hin). cbn [snd] in H. intros ->. discriminate.
Qed.

Lemma wc_cells : cells_kept wc_fac (csv_trip wi_date wc_float wc_num wc_show wc_fac) wc_obj.
Proof.
  intros t ts r x v Hin Hp Hr Hx. apply csv_trip_ok. unfold wc_fac in *. rewrite ws_plain in Hin. destruct Hin as [E | [E | [E | []]]]; injection E as <- <-.
  - exfalso. apply Hp; reflexivity.
  - assert (forallb (fun r => forallb (fun xv => csv_trip_b ws_fac "items" (fst xv) (snd xv) (snd xv))
              (combine (tfields (mkT ["Name"] ["Cost"; "Cap"; "Day"])) r)) (full_rows (wc_obj "items")) = true) as H
      by (vm_compute; reflexivity).
    rewrite forallb_forall in H. specialize (H _ Hr). rewrite forallb_forall in H. exact (H _ Hx).
  - assert (forallb (fun r => forallb (fun xv => csv_trip_b ws_fac "log" (fst xv) (snd xv) (snd xv))
              (combine (tfields (mkT [] ["What"; "Amount"])) r)) (full_rows (wc_obj "log")) = true) as H
      by (vm_compute; reflexivity).
    rewrite forallb_forall in H. specialize (H _ Hr). rewrite forallb_forall in H. exact (H _ Hx).
Qed.

Lemma wc_params : params_kept wi_date wc_float wc_fac (csv_trip wi_date wc_float wc_num wc_show wc_fac) wc_obj.
Proof.
  intros _ ts Hin. unfold wc_fac in *. rewrite ws_plain in Hin. destruct Hin as [E | [E | [E | []]]]; try discriminate. injection E as <-.
  exists "Key", "Value", [(KAtom (VStr "Big"), [int 7])]. split; [reflexivity |]. split; [reflexivity |].
  intros k r [E | []]. injection E as <- <-. exists (VStr "Big"), (int 7), (VStr "7").
  refine (conj eq_refl (conj eq_refl (conj _ (conj _ _)))); [apply csv_trip_ok | apply csv_trip_ok |]; vm_compute; reflexivity.
Qed.

Lemma wc_obj_ok : obj_ok (plain_schema wc_fac) wc_obj /\ obj_keys (plain_schema wc_fac) wc_obj /\ proper_keys (plain_schema wc_fac) wc_obj.
Proof.
  unfold wc_fac. rewrite ws_plain. split; [| split].
  - intros t ts [E | [E | [E | []]]]; injection E as <- <-; unfold table_ok; simpl; intros;
      repeat match goal with H : _ \/ _ |- _ => destruct H as [H | H] | H : False |- _ => destruct H | H : (_, _) = (_, _) |- _ => injection H as <- <- end; subst; simpl; auto.
  - intros t ts [E | [E | [E | []]]]; injection E as <- <-; unfold no_equal_keys; simpl; auto.
    + repeat constructor. intros [].
    + repeat constructor; simpl; intuition congruence.
  - intros t ts [E | [E | [E | []]]]; injection E as <- <-; simpl; auto; intros k r H;
      repeat destruct H as [H | H]; try contradiction; injection H as <- <-; reflexivity.
Qed.

(** ** Excel *)

(** XlsxWriter and openpyxl: empty strings are not kept, NaN is refused. *)
Definition wx_saved (v : value) : outcome value :=
  match v with
  | VNaN => Raise
  | VStr s => if String.eqb s "" then Ret VNone else Ret v
  | _ => Ret v
  end.

Definition xls_trip_b (f : factory) (inf : bool) (t x : string) (v w : value) : bool :=
  match bindO (clean_for_write wi_date wc_show f false t x v) wx_saved with
  | Ret u => match xls_with wi_date wc_float f (dv_dt f t x) None inf t x u with Ret w' => value_eqb w' w | Raise => false end
  | Raise => false
  end.
Lemma xls_trip_ok : forall f inf t ts x v w, xls_trip_b f inf t x v w = true -> xls_trip wi_date wc_float wc_show wx_saved f None inf t ts x v w.
Proof.
  intros f inf t ts x v w H. unfold xls_trip_b in H. destruct (bindO _ _) as [u' |] eqn:E; [| discriminate].
  destruct (xls_with _ _ _ _ _ _ _ _ _) as [w' |] eqn:E'; [| discriminate]. apply value_eqb_eq in H. subst w'. apply bindO_ret in E as (u & E1 & E2).
  exists u, u'. auto.
Qed.

Lemma wx_cells : cells_kept wc_fac (xls_trip wi_date wc_float wc_show wx_saved wc_fac None true) wc_obj.
Proof.
  intros t ts r x v Hin Hp Hr Hx. apply xls_trip_ok. unfold wc_fac in *. rewrite ws_plain in Hin. destruct Hin as [E | [E | [E | []]]]; injection E as <- <-.
  - exfalso. apply Hp; reflexivity.
  - assert (forallb (fun r => forallb (fun xv => xls_trip_b ws_fac true "items" (fst xv) (snd xv) (snd xv))
              (combine (tfields (mkT ["Name"] ["Cost"; "Cap"; "Day"])) r)) (full_rows (wc_obj "items")) = true) as H
      by (vm_compute; reflexivity).
    rewrite forallb_forall in H. specialize (H _ Hr). rewrite forallb_forall in H. exact (H _ Hx).
  - assert (forallb (fun r => forallb (fun xv => xls_trip_b ws_fac true "log" (fst xv) (snd xv) (snd xv))
              (combine (tfields (mkT [] ["What"; "Amount"])) r)) (full_rows (wc_obj "log")) = true) as H
      by (vm_compute; reflexivity).
    rewrite forallb_forall in H. specialize (H _ Hr). rewrite forallb_forall in H. exact (H _ Hx).
Qed.

Lemma wx_params : params_kept wi_date wc_float wc_fac (xls_trip wi_date wc_float wc_show wx_saved wc_fac None true) wc_obj.
Proof.
  intros _ ts Hin. unfold wc_fac in *. rewrite ws_plain in Hin. destruct Hin as [E | [E | [E | []]]]; try discriminate. injection E as <-.
  exists "Key", "Value", [(KAtom (VStr "Big"), [int 7])]. split; [reflexivity |]. split; [reflexivity |].
  intros k r [E | []]. injection E as <- <-. exists (VStr "Big"), (int 7), (int 7).
  refine (conj eq_refl (conj eq_refl (conj _ (conj _ _)))); [apply xls_trip_ok | apply xls_trip_ok |]; vm_compute; reflexivity.
Qed.

Lemma wx_visible : rows_visible wi_date wc_show wx_saved wc_fac None wc_obj.
Proof.
  assert (forallb (fun tts => forallb (fun r =>
            match mapO (fun xv => bindO (clean_for_write wi_date wc_show wc_fac false (fst tts) (fst xv) (snd xv)) wx_saved) (combine (tfields (snd tts)) r) with
            | Ret l => negb (empty_row l) | Raise => true end) (full_rows (wc_obj (fst tts)))) (plain_schema wc_fac) = true) as H by (vm_compute; reflexivity).
  intros t ts r l Hin Hr E. rewrite forallb_forall in H. specialize (H _ Hin). cbn [fst snd] in H. rewrite forallb_forall in H. specialize (H _ Hr). cbv beta in H.
  rewrite E in H. now apply negb_true_iff in H.
Qed.

(** A factory with one keyed table and nothing else set. *)
Definition wc_one : factory :=
  match init [("items", Fields (mkT ["Name"] ["Cost"]))] with Some f => f | None => ws_f0 end.
Definition wc_strict : factory := run (fun _ => false) wc_one [ODup (VStr "assert")].
