(** Property C167: the dictionaries of find_foreign_key_failures. *)
From Coq Require Import ZArith Bool List String Arith Lia Sorted.
From Verif Require Import PyVal PyDict Data FindTypes FindTypesFacts FK FKFacts Factory InfIO PanFKFacts WfCheck FkReport FkReportFacts.
Import ListNotations.
Local Open Scope string_scope.
Local Open Scope list_scope.

(** "Low" tells what "High" tells: the same entries in the same order, and no two foreign keys share a tuple. *)
Theorem C167_low_ticdat : forall sch fks d mx, num_ltb (of_int 0) mx = true ->
  exists h l, tic_fk_report sch fks d "High" mx = Ret (ByKey h) /\ tic_fk_report sch fks d "Low" mx = Ret (ByTuple l) /\
    NoDup (map fst h) /\ NoDup (map fst l) /\
    Forall2 (fun kv pv => stands_for (fst pv) (fst kv) /\ snd pv = snd kv) h l.
Proof. exact tic_low. Qed.
Print Assumptions C167_low_ticdat.

Theorem C167_low_pandat : forall sch fks d as_table mx, NoDup fks -> num_ltb (of_int 0) mx = true ->
  exists h l, pan_fk_report sch fks d "High" as_table mx = Ret (ByKey h) /\
    pan_fk_report sch fks d "Low" as_table mx = Ret (ByTuple l) /\
    NoDup (map fst h) /\ NoDup (map fst l) /\
    Forall2 (fun kv pv => stands_for (fst pv) (fst kv) /\ snd pv = snd kv) h l.
Proof. exact pan_low. Qed.
Print Assumptions C167_low_pandat.

(** A tuple stands for one foreign key only. *)
Theorem C167_tuples : forall p k k', stands_for p k -> stands_for p k' -> k = k'.
Proof. exact stands_inj. Qed.
Print Assumptions C167_tuples.

(** Any other verbosity, and a bound that is not positive, are refused. *)
Theorem C167_refused : forall sch fks d pd verbosity as_table mx,
  (tic_fk_report sch fks d verbosity mx = Raise <->
     (verbosity <> "High" /\ verbosity <> "Low") \/ num_ltb (of_int 0) mx = false) /\
  (pan_fk_report sch fks pd verbosity as_table mx = Raise <->
     (verbosity <> "High" /\ verbosity <> "Low") \/ num_ltb (of_int 0) mx = false).
Proof. intros. split; [apply tic_raises | apply pan_raises]. Qed.
Print Assumptions C167_refused.

(** The rows of [as_table=True] are the rows that [as_table=False] marks, whatever the bound. *)
Theorem C167_table_and_flags : forall sch fks d mx, num_ltb (of_int 0) mx = true ->
  exists tb fl, pan_fk_report sch fks d "High" true mx = Ret (ByKey tb) /\
    pan_fk_report sch fks d "High" false mx = Ret (ByKey fl) /\
    Forall2 (fun a b => fst a = fst b /\ exists rows flags, snd a = TheRows rows /\ snd b = TheFlags flags /\
      List.length flags = List.length (d (fk_native (fst a))) /\
      picked (fun i => nth_error flags i = Some true) (d (fk_native (fst a))) rows) tb fl.
Proof. exact table_and_flags. Qed.
Print Assumptions C167_table_and_flags.

(** Without a bound they are the rows without a parent, each as often as it occurs and in order. *)
Theorem C167_rows : forall sch fks d, wf_schema sch -> wf_pdat sch d -> good_pan_fks sch fks -> NoDup fks ->
  exists rep, pan_fk_report sch fks d "High" true PInf = Ret (ByKey rep) /\
    (forall f, In f (map fst rep) <-> In f fks /\ exists i, orphan (pan_schema sch) (as_dat d) f (RIdx i)) /\
    (forall f v, In (f, v) rep -> exists rows, v = TheRows rows /\
       picked (fun i => orphan (pan_schema sch) (as_dat d) f (RIdx i)) (d (fk_native f)) rows).
Proof. exact rows_without_parent. Qed.
Print Assumptions C167_rows.

Definition fr_sch : schema := [("city", mkT ["r"; "c"] ["size"]); ("region", mkT ["r"] []); ("shop", mkT [] ["reg"; "town"])].
Definition fr_fks : list fk := [mkFk "shop" "city" [("reg", "r"); ("town", "c")]; mkFk "shop" "region" [("reg", "r")]].
Definition fr_dat : pdat := fun t =>
  if String.eqb t "city" then [[VStr "n"; VStr "a"; VNone]]
  else if String.eqb t "region" then [[VStr "n"]]
  else [[VStr "s"; VStr "a"]; [VStr "n"; VStr "a"]; [VStr "n"; VStr "b"]; [VStr "s"; VStr "a"]].

Example C167_ex : wf_schema fr_sch /\ wf_pdat fr_sch fr_dat /\ good_pan_fks fr_sch fr_fks /\ NoDup fr_fks /\
  pan_fk_report fr_sch fr_fks fr_dat "Low" true PInf =
    Ret (ByTuple [(("shop", "city", LMany [("reg", "r"); ("town", "c")]),
                     TheRows [[VStr "s"; VStr "a"]; [VStr "n"; VStr "b"]; [VStr "s"; VStr "a"]]);
                  (("shop", "region", LOne "reg" "r"), TheRows [[VStr "s"; VStr "a"]; [VStr "s"; VStr "a"]])]) /\
  pan_fk_report fr_sch fr_fks fr_dat "High" false (of_int 2) =
    Ret (ByKey [(mkFk "shop" "city" [("reg", "r"); ("town", "c")], TheFlags [true; false; true; false])]) /\
  pan_fk_report fr_sch fr_fks fr_dat "low" false PInf = Raise.
Proof.
  split; [now apply wf_schema_ok |]. split; [now apply wf_pdat_ok |]. split; [now apply good_pan_fks_ok |].
  split; [| split; [| split]]; try (vm_compute; reflexivity).
  repeat constructor; simpl; intuition discriminate.
Qed.
