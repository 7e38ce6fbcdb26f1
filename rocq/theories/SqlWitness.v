(** * Concrete SQL files and databases. *)
From Coq Require Import ZArith Bool List String Ascii Arith Lia Permutation.
From Verif Require Import PyVal PyValFacts PyDict PyDictFacts PyStr TypeDict Data FindTypes FindTypesFacts FK Obj ObjFacts ObjMore WfCheck
  Factory InfIO InfIOFacts Params Names NamesFacts Utils UtilsMore Ampl Json ObjRows JsonFacts TripFacts Sql SqlText SqlFacts SqlMore
  InfWitness JsonWitness.
Import ListNotations.
Local Open Scope string_scope.
Local Open Scope list_scope.

Definition ws_num (z : Z) : text := txt "0".
Definition ws_show (z : Z) : text := txt "2020-01-01".
(** SQLite's reading of numbers, on two strings. *)
Definition ws_number (s : string) : option num :=
  if String.eqb s "7" then Some (of_int 7) else if String.eqb s "2020" then Some (of_int 2020) else None.

Definition ws_decl : list (string * tdecl) :=
  [("parameters", Fields (mkT ["Key"] ["Value"])); ("items", Fields (mkT ["Name"] ["Cost"; "Cap"; "Day"]));
   ("log", Fields (mkT [] ["What"; "Amount"]))].
Definition ws_f0 : factory := match init ws_decl with Some f => f | None => mkF [] [] [] [] [] [] [] [] false VNone VNone VNone VNone false end.

(** Numeric flag 1000, types for Cap and Day, one parameter. *)
Definition ws_fac : factory :=
  run (fun _ => false) ws_f0
    (wi_ops wi_big ++ [OAddParam (VStr "Big") (int 3) wi_any true; ODup (VStr "assert"); OSetDefault "log" "What" (VStr "")]).

Definition ws_obj : obj := fun t =>
  if String.eqb t "items" then
    OKeyed [(KAtom (VStr "b"), [int 3; VNum PInf; VDate 5]); (KAtom (VStr "a"), [VBool true; int 999; VDate 5])]
  else if String.eqb t "log" then OListed [[VStr "it's"; int 1]; [VStr "7"; int 2]]
  else if String.eqb t "parameters" then OKeyed [(KAtom (VStr "Big"), [int 7])]
  else OListed [].

Lemma ws_plain : plain_schema ws_fac =
  [("parameters", mkT ["Key"] ["Value"]); ("items", mkT ["Name"] ["Cost"; "Cap"; "Day"]); ("log", mkT [] ["What"; "Amount"])].
Proof. vm_compute. reflexivity. Qed.

Definition db_trip_b (f : factory) (t : string) (ts : tschema) (x : string) (v w : value) : bool :=
  match (match tpk ts with [] => Ret v | _ => write_data_cell wi_date f t x v end) with
  | Ret u => match read_data_cell wi_date wi_float f t x (stored ws_show ws_number f t ts x u) with
             | Ret w' => value_eqb w' w | Raise => false end
  | Raise => false
  end.

Lemma db_trip_ok : forall f t ts x v w, db_trip_b f t ts x v w = true -> db_trip wi_date wi_float ws_show ws_number f t ts x v w.
Proof.
  intros f t ts x v w H. unfold db_trip_b in H.
  destruct (match tpk ts with [] => Ret v | _ => write_data_cell wi_date f t x v end) as [u |] eqn:E; [| discriminate].
  destruct (read_data_cell _ _ _ _ _ _) as [w' |] eqn:E'; [| discriminate]. apply value_eqb_eq in H. subst w'.
  exists u. split; auto. destruct (tpk ts); auto. now injection E.
Qed.

Lemma ws_cells : cells_kept ws_fac (db_trip wi_date wi_float ws_show ws_number ws_fac) ws_obj.
Proof.
  intros t ts r x v Hin Hp Hr Hx. apply db_trip_ok. rewrite ws_plain in Hin. destruct Hin as [E | [E | [E | []]]]; injection E as <- <-.
  - exfalso. apply Hp; reflexivity.
  - assert (forallb (fun r => forallb (fun xv => db_trip_b ws_fac "items" (mkT ["Name"] ["Cost"; "Cap"; "Day"]) (fst xv) (snd xv) (snd xv))
              (combine (tfields (mkT ["Name"] ["Cost"; "Cap"; "Day"])) r)) (full_rows (ws_obj "items")) = true) as H
      by (vm_compute; reflexivity).
    rewrite forallb_forall in H. specialize (H _ Hr). rewrite forallb_forall in H. exact (H _ Hx).
  - assert (forallb (fun r => forallb (fun xv => db_trip_b ws_fac "log" (mkT [] ["What"; "Amount"]) (fst xv) (snd xv) (snd xv))
              (combine (tfields (mkT [] ["What"; "Amount"])) r)) (full_rows (ws_obj "log")) = true) as H
      by (vm_compute; reflexivity).
    rewrite forallb_forall in H. specialize (H _ Hr). rewrite forallb_forall in H. exact (H _ Hx).
Qed.

Lemma ws_params : params_kept wi_date wi_float ws_fac (db_trip wi_date wi_float ws_show ws_number ws_fac) ws_obj.
Proof.
  intros _ ts Hin. rewrite ws_plain in Hin. destruct Hin as [E | [E | [E | []]]]; try discriminate. injection E as <-.
  exists "Key", "Value", [(KAtom (VStr "Big"), [int 7])]. split; [reflexivity |]. split; [reflexivity |].
  intros k r [E | []]. injection E as <- <-. exists (VStr "Big"), (int 7), (int 7).
  refine (conj eq_refl (conj eq_refl (conj _ (conj _ _)))); [apply db_trip_ok | apply db_trip_ok |]; vm_compute; reflexivity.
Qed.

Lemma ws_obj_ok : obj_ok (plain_schema ws_fac) ws_obj /\ obj_keys (plain_schema ws_fac) ws_obj /\ proper_keys (plain_schema ws_fac) ws_obj.
Proof.
  rewrite ws_plain. split; [| split].
  - intros t ts [E | [E | [E | []]]]; injection E as <- <-; unfold table_ok; simpl; intros;
      repeat match goal with H : _ \/ _ |- _ => destruct H as [H | H] | H : False |- _ => destruct H | H : (_, _) = (_, _) |- _ => injection H as <- <- end; subst; simpl; auto.
  - intros t ts [E | [E | [E | []]]]; injection E as <- <-; unfold no_equal_keys; simpl; auto.
    + repeat constructor. intros []. 
    + repeat constructor; simpl; intuition congruence.
  - intros t ts [E | [E | [E | []]]]; injection E as <- <-; simpl; auto; intros k r H;
      repeat destruct H as [H | H]; try contradiction; injection H as <- <-; reflexivity.
Qed.

Definition ws_db : list (string * list (list value)) :=
  match write_db wi_date ws_show ws_number ws_fac ws_obj with Ret d => d | Raise => [] end.
(** Tables in another order with their rows reversed. *)
Definition ws_moved : list (string * list (list value)) := rev (map (fun tr => (fst tr, rev (snd tr))) ws_db).

Lemma ws_like : db_like ws_db ws_moved.
Proof.
  assert (exists a b c, ws_db = [("parameters", a); ("items", b); ("log", c)]) as (a & b & c & E).
  { vm_compute. eauto. }
  intros t rows H. unfold ws_moved. rewrite E in *. destruct H as [H | [H | [H | []]]]; injection H as <- <-; simpl;
    eexists; split; try reflexivity; apply Permutation_rev.
Qed.

(** A cell that executes a statement of its own. *)
Definition ws_attack : string := "',0,0,0);Delete from [items];--'".
Definition ws_evil : obj := fun t =>
  if String.eqb t "items" then OKeyed [(KAtom (VStr ws_attack), [int 0; int 0; VNone])]
  else if String.eqb t "log" then OListed [] else OKeyed [].

(** Booleans and infinities in a table without primary key. *)
Definition ws_raw : obj := fun t =>
  if String.eqb t "log" then OListed [[VBool true; VNum PInf]] else OKeyed [].

(** The same table, with a key. *)
Definition ws_keyed : obj := fun t =>
  if String.eqb t "items" then OKeyed [(KAtom (VStr "k"), [VBool true; VNum PInf; VNone])]
  else if String.eqb t "log" then OListed [] else OKeyed [].

(** Names with a percent sign. *)
Definition ws_percent (x : string) : factory :=
  match init [("items", Fields (mkT [] [x]))] with Some f => f | None => ws_f0 end.
Definition ws_one : obj := fun _ => OListed [[int 0]].

(** A number written as a string in a column whose default is a number. *)
Definition ws_digits : obj := fun t =>
  if String.eqb t "items" then OKeyed [(KAtom (VStr "7"), [VStr "7"; int 0; VNone])]
  else if String.eqb t "log" then OListed [[VStr "x"; VBool true]] else OKeyed [].
