(** * Concrete factories and data for the PanDat readers and writers. *)
From Coq Require Import ZArith Bool List String Arith Lia Permutation.
From Verif Require Import PyVal PyValFacts PyDict PyDictFacts PyStr TypeDict Data FindTypes FK Obj Factory InfIO InfIOFacts Params ParamsFacts Names Utils Json JsonWitness ObjRows
  Frames FramesFacts FramesPan PanIO PanRead PanJson PanMore.
Import ListNotations.
Local Open Scope string_scope.
Local Open Scope list_scope.

Definition wq_items : tschema := mkT ["Name"] ["Cost"; "Day"; "Note"].
Definition wq_params : tschema := mkT ["Key"] ["Value"].
Definition wq_num : dtype := mkDtype true true true (of_int 0) PInf false (SList []) false false.
Definition wq_day : dtype := mkDtype false false false (of_int 0) PInf false (SList []) true true.
Definition wq_text : dtype := mkDtype false false false (of_int 0) PInf false SStar true false.
Definition wq_strict : dtype := mkDtype false false false (of_int 0) PInf false SStar false false.

(** The flag for infinity, and whether Excel tables are pruned. *)
Definition wq_fac (flag : value) : factory :=
  mkF [("items", Fields wq_items); ("parameters", Fields wq_params)]
      [("items", [("Cost", int 7)])]
      [("items", [("Cost", wq_num); ("Day", wq_day); ("Note", wq_text)])]
      [] [(VStr "limit", (Some wq_num, int 5)); (VStr "label", (Some wq_strict, VStr "x")); (VStr "free", (None, int 1))] [] [] [] false
      flag (VStr "prune") (VStr "assert") (VBool true) false.

Definition wq_date (v : value) : option Z := match v with VStr s => if String.eqb s "2020-01-01 00:00:00" then Some 5%Z else None | _ => None end.
Definition wq_show (d : Z) : string := "2020-01-01 00:00:00".
Definition wq_float (v : value) : option value := match v with VNum _ => Some v | VStr s => if String.eqb s "7" then Some (int 7) else None | _ => None end.
Definition wq_str (v : value) : string := match v with VNaN => "nan" | VNone => "None" | _ => "" end.
(** pandas among numbers: None becomes NaN. *)
Definition wq_settle (l : list value) : list value :=
  if forallb (fun v => numericish v || is_null v) l then map (fun v => match v with VNone => VNaN | _ => v end) l else l.

Definition wq_frame (rows : list (list value)) : frame :=
  mkFr [] [CName "Extra"; CName "Name"; CName "Day"; CName "Note"] (map (fun r => ([], r)) rows).

Definition wq_sheet (rows : list (list value)) : frame :=
  mkFr [] [CName "Name"; CName "Cost"; CName "Day"; CName "Note"] (map (fun r => ([], r)) rows).

Definition wq_dat (t : string) : list (list value) :=
  if String.eqb t "items" then [[VStr "a"; VNum PInf; VDate 5; VStr "hi"]; [VStr "b"; int 3; VNone; VNaN]]
  else [[VStr "limit"; int 9]; [VStr "label"; VStr "none"]; [VStr "free"; VStr "abc"]].

Lemma wq_shape : forall flag, params_shape (wq_fac flag).
Proof. intros flag _. exists "Key", "Value". simpl. auto. Qed.

Lemma wq_decl : forall flag, decl_ok (f_decl (wq_fac flag)) = true.
Proof. intros. reflexivity. Qed.

Lemma wq_frame_rect : forall rows, (forall r, In r rows -> List.length r = 4) -> rect (wq_frame rows) /\ rect (wq_sheet rows).
Proof.
  intros rows H. assert (NoDup ["Extra"; "Name"; "Day"; "Note"] /\ NoDup ["Name"; "Cost"; "Day"; "Note"]) as [N1 N2].
  { split; repeat constructor; simpl; intuition discriminate. }
  split; split; cbn [wq_frame wq_sheet fr_cols fr_rows].
  - change (NoDup (map CName ["Extra"; "Name"; "Day"; "Note"])). apply FinFun.Injective_map_NoDup; auto. intros a b E. congruence.
  - intros r Hr. apply in_map_iff in Hr as (r0 & <- & Hr). simpl. auto.
  - change (NoDup (map CName ["Name"; "Cost"; "Day"; "Note"])). apply FinFun.Injective_map_NoDup; auto. intros a b E. congruence.
  - intros r Hr. apply in_map_iff in Hr as (r0 & <- & Hr). simpl. auto.
Qed.
