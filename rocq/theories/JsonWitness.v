(** * Concrete JSON documents. *)
From Coq Require Import ZArith Bool List String Ascii Arith Lia Permutation.
From Verif Require Import PyVal PyValFacts PyDict PyDictFacts PyStr TypeDict Data FindTypes FindTypesFacts FK Obj ObjFacts ObjMore WfCheck
  Factory InfIO InfIOFacts Params Names NamesFacts Utils UtilsMore Json ObjRows JsonFacts JsonDups JsonMore InfWitness.
Import ListNotations.
Local Open Scope string_scope.
Local Open Scope list_scope.

Definition wj_show (d : Z) : string := "2020-01-01".
Definition int (z : Z) : value := VNum (of_int z).

(** Numeric flag 1000, types for Cap and Day, one parameter. *)
Definition wj_fac : factory :=
  run (fun _ => false) wi_f0
    (wi_ops wi_big ++ [OAddParam (VStr "Big") (int 3) wi_any true; ODup (VStr "assert")]).

Definition wj_obj : obj := fun t =>
  if String.eqb t "items" then
    OKeyed [(KAtom (VStr "b"), [int 3; VNum PInf; VDate 5]); (KAtom (VStr "a"), [VStr "x"; int 999; VDate 5])]
  else if String.eqb t "parameters" then OKeyed [(KAtom (VStr "Big"), [int 7])]
  else OListed [].

Definition trip_b (f : factory) (t x : string) (v : value) : bool :=
  match json_write_cell wi_date wj_show f t x v with
  | Ret w => match json_read_cell wi_date wi_float f t x w with Ret v' => value_eqb v' v | Raise => false end
  | Raise => false
  end.

Lemma trip_b_ok : forall f t x v, trip_b f t x v = true -> cell_trip wi_date wi_float wj_show f t x v v.
Proof.
  intros f t x v H. unfold trip_b in H. destruct (json_write_cell _ _ _ _ _ _) as [w |] eqn:E; [| discriminate].
  destruct (json_read_cell _ _ _ _ _ w) as [v' |] eqn:E'; [| discriminate]. apply value_eqb_eq in H. subst v'.
  exists w. auto.
Qed.

Lemma wj_plain : plain_schema wj_fac = [("parameters", mkT ["Key"] ["Value"]); ("items", mkT ["Name"] ["Cost"; "Cap"; "Day"])].
Proof. vm_compute. reflexivity. Qed.

Lemma wj_cells : cells_back wi_date wi_float wj_show wj_fac wj_obj.
Proof.
  intros t ts r x v Hin Hp Hr Hx. rewrite wj_plain in Hin. destruct Hin as [E | [E | []]].
  - injection E as <- <-. exfalso. apply Hp; reflexivity.
  - injection E as <- <-. apply trip_b_ok.
    assert (forallb (fun r => forallb (fun xv => trip_b wj_fac "items" (fst xv) (snd xv))
              (combine (tfields (mkT ["Name"] ["Cost"; "Cap"; "Day"])) r)) (full_rows (wj_obj "items")) = true) as H
      by (vm_compute; reflexivity).
    rewrite forallb_forall in H. specialize (H _ Hr). rewrite forallb_forall in H. exact (H _ Hx).
Qed.

Lemma wj_params : params_back wi_date wi_float wj_show wj_fac wj_obj.
Proof.
  intros _ ts Hin. rewrite wj_plain in Hin. destruct Hin as [E | [E | []]]; [| discriminate]. injection E as <-.
  exists "Key", "Value", [(KAtom (VStr "Big"), [int 7])]. split; [reflexivity |]. split; [reflexivity |].
  intros k r [E | []]. injection E as <- <-. exists (VStr "Big"), (int 7), (int 7).
  refine (conj eq_refl (conj eq_refl (conj _ (conj _ _)))); vm_compute; reflexivity.
Qed.

Lemma wj_obj_ok : obj_ok (plain_schema wj_fac) wj_obj /\ obj_keys (plain_schema wj_fac) wj_obj /\ proper_keys (plain_schema wj_fac) wj_obj.
Proof.
  rewrite wj_plain. split; [| split].
  - intros t ts [E | [E | []]]; injection E as <- <-; simpl; intros k r H;
      repeat destruct H as [H | H]; try contradiction; injection H as <- <-; simpl; auto.
  - intros t ts [E | [E | []]]; injection E as <- <-; unfold no_equal_keys; simpl.
    + repeat constructor. intros [].
    + repeat constructor; simpl; intuition congruence.
  - intros t ts [E | [E | []]]; injection E as <- <-; simpl; intros k r H;
      repeat destruct H as [H | H]; try contradiction; injection H as <- <-; reflexivity.
Qed.

(** The document written, with everything that may move moved. *)
Definition wj_doc : jdoc := match make_json wi_date wj_show wj_fac true wj_obj with Ret d => d | Raise => [] end.
Definition wj_moved : jdoc :=
  ("Other", [RAtom VNone]) :: rev (map (fun kr => (fst kr, map (fun x => match x with RDict l => RDict (rev l) | y => y end) (snd kr))) wj_doc).

Lemma wj_like : doc_like (map fst (plain_schema wj_fac)) wj_doc wj_moved.
Proof.
  exists (map (fun kr => (fst kr, map (fun x => match x with RDict l => RDict (rev l) | y => y end) (snd kr))) wj_doc), [("Other", [RAtom VNone])].
  split; [| split].
  - induction wj_doc as [| kr l IH]; simpl; constructor; auto. cbn [fst snd]. split; auto.
    induction (snd kr) as [| x rows IHr]; simpl; constructor; auto. destruct x; simpl; auto. apply Permutation_rev.
  - unfold wj_moved. rewrite Permutation_app_comm. simpl. constructor. apply Permutation_rev.
  - intros k t [<- | []] Ht. rewrite wj_plain in Ht. simpl in Ht. destruct Ht as [<- | [<- | []]]; vm_compute; discriminate.
Qed.

Lemma wj_example : decl_ok (f_decl wj_fac) = true /\ has_params wj_fac = true /\ f_flag wj_fac = wi_big /\
  List.length wj_doc = 2 /\
  exists e, json_create wi_date wi_float wj_fac wj_moved = Ret e /\ e "items" = wj_obj "items" /\ e "parameters" = wj_obj "parameters".
Proof.
  refine (conj _ (conj _ (conj _ (conj _ _)))); try (vm_compute; reflexivity).
  destruct (json_create wi_date wi_float wj_fac wj_moved) as [e |] eqn:E.
  - exists e. split; auto.
    destruct (json_round_trip wi_date wi_float wj_show wj_fac true wj_obj) as (doc & A & B).
    + vm_compute; reflexivity. + apply wj_obj_ok. + apply wj_obj_ok. + apply wj_obj_ok. + apply wj_cells. + apply wj_params.
    + assert (doc = wj_doc) as -> by (unfold wj_doc; now rewrite A).
      destruct (B _ wj_like) as (e' & C & D). rewrite E in C. injection C as ->. rewrite wj_plain in D.
      split; eapply D; simpl; eauto.
  - exfalso. vm_compute in E. discriminate.
Qed.

(** A document whose key for the table is not spelled like it. *)
Definition wj_twice : list rowin := [RSeq [VStr "a"; int 1; int 2; VDate 5]; RSeq [VStr "a"; int 3; int 2; VDate 5]].
