(** Property C166: rows with their keys inside. *)
From Coq Require Import ZArith Bool List String Arith.
From Verif Require Import PyVal PyDict Data FindTypes FK Obj ObjFacts ObjMore WfCheck Keyless KeylessFacts.
Import ListNotations.
Local Open Scope string_scope.
Local Open Scope list_scope.

(** Each table gives one dict per row, in order; a dict has the fields of the table and their cells. *)
Theorem C166_rows : forall sch d t ts, wf_schema sch -> obj_ok sch d -> In (t, ts) sch ->
  exists rows, In (t, rows) (keyless sch d) /\
    match d t with
    | OKeyed l => Forall2 (fun kr c => tells ts c (match fst kr with KAtom v => [v] | KTup vs => vs end) (snd kr)) l rows
    | OListed l => Forall2 (fun r c => tells ts c [] r) l rows
    end.
Proof. exact keyless_tells. Qed.
Print Assumptions C166_rows.

(** The constructor makes the same object of these dicts, whatever the default values. *)
Theorem C166_back : forall sch dv mode d, wf_schema sch -> obj_ok sch d -> obj_keys sch d -> scalar_keys sch d ->
  exists e, construct sch dv mode (map (fun tr => (fst tr, TRows (map RDict (snd tr)))) (keyless sch d)) = Some e /\
    forall t ts, In (t, ts) sch -> e t = d t.
Proof. exact keyless_back. Qed.
Print Assumptions C166_back.

(** A one-field key may be a tuple of one; its dict is that of the bare value, and one of the two rows is lost. *)
Theorem C166_refuted : exists sch inputs d e, wf_schema sch /\ construct sch [] "assert" inputs = Some d /\ obj_keys sch d /\
  d "t" = OKeyed [(KAtom (VStr "a"), [VBool true]); (KTup [VStr "a"], [VBool false])] /\
  construct sch [] "assert" (map (fun tr => (fst tr, TRows (map RDict (snd tr)))) (keyless sch d)) = None /\
  construct sch [] "ignore" (map (fun tr => (fst tr, TRows (map RDict (snd tr)))) (keyless sch d)) = Some e /\
  e "t" = OKeyed [(KAtom (VStr "a"), [VBool false])].
Proof.
  exists [("t", mkT ["k"] ["x"])],
    [("t", TDict [(KAtom (VStr "a"), RSeq [VBool true]); (KTup [VStr "a"], RSeq [VBool false])])].
  do 2 eexists. split; [now apply wf_schema_ok |]. split; [reflexivity |]. split.
  - intros t ts [E | []]. injection E as <- <-. cbn. repeat constructor; simpl; intuition discriminate.
  - split; [reflexivity |]. split; [reflexivity |]. split; reflexivity.
Qed.
Print Assumptions C166_refuted.

Example C166_ex : exists sch d, wf_schema sch /\ obj_ok sch d /\ obj_keys sch d /\ scalar_keys sch d /\
  keyless sch d = [("s", [[("x", VBool true); ("a", VStr "u"); ("b", VNone)]; [("x", VNone); ("a", VStr "u"); ("b", VStr "v")]]);
                   ("l", [[("y", VStr "w")]])].
Proof.
  exists [("s", mkT ["a"; "b"] ["x"]); ("l", mkT [] ["y"])],
    (fun t => if String.eqb t "s" then OKeyed [(KTup [VStr "u"; VNone], [VBool true]); (KTup [VStr "u"; VStr "v"], [VNone])]
              else OListed [[VStr "w"]]).
  split; [now apply wf_schema_ok |]. split; [| split; [| split; [| reflexivity]]].
  - intros t ts [E | [E | []]]; injection E as <- <-; cbn.
    + intros k r [E | [E | []]]; injection E as <- <-; split; reflexivity.
    + intros r [<- | []]. reflexivity.
  - intros t ts [E | [E | []]]; injection E as <- <-; cbn; auto. repeat constructor; simpl; intuition discriminate.
  - intros t ts [E | [E | []]]; injection E as <- <-; cbn; auto. intros v r [E | [E | []]]; discriminate.
Qed.
