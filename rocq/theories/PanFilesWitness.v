(** * Concrete data for PanDat files. *)
From Coq Require Import ZArith Bool List String Arith Lia Permutation.
From Verif Require Import PyVal PyValFacts PyDict PyDictFacts PyStr TypeDict Data FindTypes FK Obj Factory InfIO InfIOFacts PanIOFacts Params ParamsFacts Names Utils Json JsonWitness ObjRows
  Frames FramesFacts FramesPan PanIO PanRead PanJson PanMore PanIOWitness PanFiles PanFilesFacts PanFilesTrip.
Import ListNotations.
Local Open Scope string_scope.
Local Open Scope list_scope.

Definition wp_shown (n : num) : string := if value_eqb (VNum n) (int 7) then "7" else "other".

(** pandas: None is NaN, dates are text; numbers and booleans are text in columns read as text, and the text 7 is a
    number in the others. *)
Definition wp_cell (text : bool) (v : value) : value :=
  match v with
  | VNone => VNaN
  | VDate z => VStr (wq_show z)
  | VNum n => if text then VStr (wp_shown n) else v
  | VBool b => if text then VStr (if b then "True" else "False") else v
  | VStr s => if text then v else if String.eqb s "7" then int 7 else v
  | VNaN => v
  end.
Definition wp_load (text : string -> bool) (fr : frame) : frame :=
  mkFr [] (fr_cols fr) (map (fun r => ([], map (fun cv => wp_cell (match fst cv with CName x => text x | CPos _ => false end) (snd cv)) (combine (fr_cols fr) (snd r)))) (fr_rows fr)).
Definition wp_good (text : bool) (v : value) : bool :=
  match v with VBool _ => negb text | VStr s => text || negb (String.eqb s "7") | _ => true end.
Definition wp_readable (text : string -> bool) (fr : frame) : Prop :=
  forall r c v, In r (fr_rows fr) -> In (c, v) (combine (fr_cols fr) (snd r)) -> wp_good (match c with CName x => text x | CPos _ => false end) v = true.

Lemma wp_cell_came text v : wp_good text v = true -> came wq_show wp_shown text v (wp_cell text v).
Proof.
  destruct v as [| | b | n | s | z]; cbn [wp_good wp_cell].
  - intros _. left. right. split; reflexivity.
  - intros _. left. left. reflexivity.
  - destruct text; [discriminate |]. intros _. left. left. reflexivity.
  - intros _. destruct text; [right; right; split; eauto | left; left; reflexivity].
  - destruct text; [left; left; reflexivity |]. cbn [orb]. intros H. apply negb_true_iff in H. rewrite H. left. left. reflexivity.
  - intros _. right. left. eauto.
Qed.

Lemma wp_loads : loads wq_show wp_shown wp_readable wp_load.
Proof.
  intros text ts w W R H. split; [reflexivity |]. split; [reflexivity |]. unfold wp_load, frame_of. cbn [fr_cols fr_rows]. rewrite map_map. cbn [snd].
  assert (forall r, In r w -> came_row wq_show wp_shown text (tfields ts) r (map (fun cv => wp_cell (match fst cv with CName x => text x | CPos _ => false end) (snd cv)) (combine (map CName (tfields ts)) r))) as G.
  { intros r Hr. unfold came_row. assert (forall c v, In (c, v) (combine (map CName (tfields ts)) r) -> wp_good (match c with CName x => text x | CPos _ => false end) v = true) as Hg.
    { intros c v Hc. apply (H ([], r)); auto. cbn [frame_of fr_rows]. now apply in_map. }
    clear - Hg. revert r Hg. generalize (tfields ts) as xs. induction xs as [| x xs IH]; intros [| v r] Hg; simpl; try constructor.
    - cbn [fst snd]. apply wp_cell_came. apply (Hg (CName x) v). simpl. auto.
    - apply IH. intros c v' Hc. apply Hg. simpl. auto. }
  clear - G. induction w as [| r w IH]; simpl; constructor; [| apply IH; intros; apply G; simpl; auto]. split; [reflexivity |]. apply G. simpl. auto.
Qed.

Definition wp_dat (t : string) : list (list value) :=
  if String.eqb t "items" then [[VStr "a"; VNum PInf; VDate 5; VStr "7"]; [VStr "b"; int 3; VNone; VNaN]; [VNone; VNaN; VNaN; VNone]]
  else [[VStr "limit"; int 7]; [VStr "label"; VStr "none"]; [VStr "free"; VStr "abc"]].
Definition wp_fac : factory :=
  mkF [("items", Fields wq_items); ("notes", Generic); ("parameters", Fields wq_params)]
      [("items", [("Cost", int 7)])]
      [("items", [("Cost", mkDtype true true true (of_int 0) PInf false (SList []) true false); ("Day", wq_day); ("Note", wq_text)])]
      [] [(VStr "limit", (Some wq_num, int 5)); (VStr "label", (Some wq_strict, VStr "x")); (VStr "free", (None, int 1))] [] [] [] false
      (int 1000) (VStr "prune") (VStr "assert") (VBool true) false.
Definition wp_notes (t : string) : frame := mkFr [] [CName "anything"] [([], [VStr "7"]); ([], [int 7])].

Lemma wp_shape : params_shape wp_fac.
Proof. intros _. exists "Key", "Value". simpl. auto. Qed.

Lemma wp_text_iff t x : text_field wp_fac t x <-> (t = "items" /\ x = "Note") \/ t = "parameters".
Proof.
  unfold text_field. split.
  - intros [(dt & E & A & B & C) | [-> _]]; auto. left. unfold field_type, dget2, dget_or in E. cbn [wp_fac f_types dget] in E.
    destruct (String.eqb "items" t) eqn:Et; [apply String.eqb_eq in Et; subst t | discriminate E]. split; auto. cbn [dget] in E.
    destruct (String.eqb "Cost" x) eqn:E1; [injection E as <-; discriminate B |]. destruct (String.eqb "Day" x) eqn:E2; [injection E as <-; discriminate A |].
    destruct (String.eqb "Note" x) eqn:E3; [now apply String.eqb_eq in E3 | discriminate E].
  - intros [[-> ->] | ->]; [left | right; split; reflexivity]. exists wq_text. split; [reflexivity |]. split; [reflexivity |]. split; [reflexivity | discriminate].
Qed.

Lemma wp_rows json : forall t ts r, In (t, ts) (plain_schema wp_fac) -> In r (wp_dat t) -> file_row_ok wq_date wq_float wq_show wp_shown json wp_fac t ts r.
Proof.
  intros t ts r [E | [E | []]] Hr; injection E as <- <-; (split; [simpl in Hr; intuition (subst; reflexivity) |]).
  - change (String.eqb "items" "parameters") with false. cbv iota. intros x v H. simpl in Hr.
    destruct Hr as [<- | [<- | [<- | []]]]; simpl in H; repeat (destruct H as [H | H]; [injection H as <- <- | ]); try contradiction;
      (split; [| split; [intros m n Hm Hv; first [discriminate Hv | injection Hv as <-] | split;
           [discriminate | intros _ N dt H; first [discriminate N | discriminate H | injection H as <-; discriminate]]]]);
      try (intros dt H; first [discriminate H | injection H as <-; split; [intros D | intros D1 D2 D3 D4]; first [discriminate | intros _ d Ed; discriminate Ed | intros X; discriminate X | contradiction | auto]]);
      try (split; [intros dt H; injection H as <-; split; [intros D | intros D1 D2 D3 D4]; first [discriminate | contradiction] | rewrite wp_text_iff; intros [[_ X] | X]; discriminate X]).
    + auto.
    + eexists. split; [reflexivity |]. split; reflexivity.
    + right. right. injection Hm as <-. vm_compute. split; reflexivity.
  - change (String.eqb "parameters" "parameters") with true. cbv iota. replace (has_params wp_fac) with true by reflexivity. simpl in Hr.
    destruct Hr as [<- | [<- | [<- | []]]]; eexists; eexists; (split; [reflexivity |]); unfold file_param_survives; (split; [intros dt H; try discriminate; injection H as <-; reflexivity |]).
    + split; [intros dt H; injection H as <-; split; reflexivity |]. split; [reflexivity |]. split; reflexivity.
    + split; [intros dt H; injection H as <-; discriminate |]. split; [intros _ _; eexists; split; reflexivity |]. intros H. specialize (H _ eq_refl). discriminate.
    + split; [intros dt H; discriminate |]. split; [intros _; discriminate |]. reflexivity.
Qed.
