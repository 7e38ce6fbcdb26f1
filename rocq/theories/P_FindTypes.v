(** * Property theorems: C03 - C06 and C64 (data type failures). *)
From Coq Require Import ZArith Bool List String.
From Verif Require Import PyVal PyValFacts PyDict TypeDict TypeDictFacts Data FindTypes FindTypesFacts
  ReplaceFacts FindTypesMore.
Import ListNotations.
Local Open Scope string_scope.

(** C03: the unbounded report lists exactly the failing cells. *)
Theorem C03_report_is_exactly_the_failing_cells : forall parses sch tys d rep,
  wf_schema sch -> wf_types sch tys -> wf_dat sch d ->
  find_data_type_failures parses sch tys d PInf = Some rep ->
  (forall t f rid, reports_row rep t f rid <-> exists v, failing parses sch tys d t f rid v) /\
  (forall t f v, reports_value rep t f v -> exists rid, failing parses sch tys d t f rid v) /\
  (forall t f rid v, failing parses sch tys d t f rid v ->
     exists v', reports_value rep t f v' /\ pyeq v' v = true) /\
  (forall t f vals rids, In ((t, f), (vals, rids)) rep -> rids <> [] /\ vals <> []) /\
  NoDup (map fst rep).
Proof. exact find_types_exact. Qed.
Print Assumptions C03_report_is_exactly_the_failing_cells.

(** C04: a bounded report is part of the full one and lists
    min(ceil(max_failures), total) cells. *)
Theorem C04_bounded_report : forall parses sch tys d mx n rep repm,
  wf_schema sch -> wf_types sch tys -> wf_dat sch d ->
  num_ltb (of_int 0) mx = true -> rounds_up mx n ->
  find_data_type_failures parses sch tys d PInf = Some rep ->
  find_data_type_failures parses sch tys d mx = Some repm ->
  listed_cells repm = Nat.min n (listed_cells rep) /\
  (forall t f rid, reports_row repm t f rid -> reports_row rep t f rid) /\
  (forall t f v, reports_value repm t f v ->
     exists v', reports_value rep t f v' /\ pyeq v' v = true).
Proof. exact find_types_bounded. Qed.
Print Assumptions C04_bounded_report.

Theorem C04_nonpositive_bound_rejected : forall parses sch tys d mx,
  num_ltb (of_int 0) mx = false -> find_data_type_failures parses sch tys d mx = None.
Proof. exact find_types_nonpositive. Qed.
Print Assumptions C04_nonpositive_bound_rejected.

(** A positive bound is never rejected, so there is always a report to compare with. *)
Theorem C04_positive_bound_accepted : forall parses sch tys d mx,
  num_ltb (of_int 0) mx = true -> exists rep, find_data_type_failures parses sch tys d mx = Some rep.
Proof. intros parses sch tys d mx H. unfold find_data_type_failures. rewrite H. eauto. Qed.
Print Assumptions C04_positive_bound_accepted.

(** C05/C06: the call succeeds exactly when the replacements are usable; a
    failing call leaves the data alone; a successful one rewrites exactly the
    failing cells of typed data fields. *)
Theorem C05_replace_exact : forall parses sch tys dv rv d,
  wf_schema sch -> wf_types sch tys -> wf_dat sch d ->
  let o := replace_data_type_failures parses sch tys dv d rv in
  (raised o = false <-> replaceable parses sch tys dv rv d) /\
  (raised o = true -> out_dat o = d) /\
  (raised o = false ->
   (forall t ts, In (t, ts) sch ->
      out_dat o t = map_cells ts (fun _ f v => repair parses tys dv rv t f v) (d t)) /\
   (forall t, ~ In t (map fst sch) -> out_dat o t = d t)).
Proof. exact replace_types_exact. Qed.
Print Assumptions C05_replace_exact.

Theorem C05_no_typed_data_field_fails_afterwards : forall parses sch tys dv rv d,
  wf_schema sch -> wf_types sch tys -> wf_dat sch d ->
  let o := replace_data_type_failures parses sch tys dv d rv in
  raised o = false ->
  wf_dat sch (out_dat o) /\
  forall t ts f rid v, In (t, ts) sch -> In f (tdf ts) -> ~ failing parses sch tys (out_dat o) t f rid v.
Proof. exact replace_types_cleans. Qed.
Print Assumptions C05_no_typed_data_field_fails_afterwards.

Theorem C05_second_call_changes_nothing : forall parses sch tys dv rv d,
  wf_schema sch -> wf_types sch tys -> wf_dat sch d ->
  let o := replace_data_type_failures parses sch tys dv d rv in
  raised o = false ->
  let o' := replace_data_type_failures parses sch tys dv (out_dat o) rv in
  raised o' = false /\ forall t, out_dat o' t = out_dat o t.
Proof. exact replace_types_twice. Qed.
Print Assumptions C05_second_call_changes_nothing.

(** C06: atomicity, with the exact error condition. *)
Theorem C06_replace_atomic : forall parses sch tys dv rv d,
  wf_schema sch -> wf_types sch tys -> wf_dat sch d ->
  let o := replace_data_type_failures parses sch tys dv d rv in
  (raised o = true <-> ~ replaceable parses sch tys dv rv d) /\
  (raised o = true -> out_dat o = d).
Proof. exact replace_types_atomic. Qed.
Print Assumptions C06_replace_atomic.

(** C64: untyped key fields reject exactly what is neither a number nor a
    string. *)
Theorem C64_untyped_key_cells_reported : forall parses sch tys d rep t ts f rid,
  wf_schema sch -> wf_types sch tys -> wf_dat sch d ->
  find_data_type_failures parses sch tys d PInf = Some rep ->
  In (t, ts) sch -> In f (tpk ts) -> (forall dt, ~ declared tys t f dt) ->
  (reports_row rep t f rid <->
   exists k r v, row_in (d t) rid k r /\ cell_in ts k r f v /\
     (forall n, v <> VNum n) /\ (forall s, v <> VStr s)).
Proof. exact untyped_key_cells. Qed.
Print Assumptions C64_untyped_key_cells_reported.

(** C64 as documented ("excludes only Null") is false: a key that is a
    datetime, or a boolean, is reported although nothing was declared. *)
Theorem C64_only_null_excluded_refuted : exists sch d rep,
  wf_schema sch /\ wf_dat sch d /\
  (forall parses, find_data_type_failures parses sch [] d PInf = Some rep) /\
  reports_row rep "visits" "when" (RPk [VDate 7]) /\
  reports_row rep "visits" "when" (RPk [VBool true]).
Proof. exact untyped_key_not_only_null. Qed.
Print Assumptions C64_only_null_excluded_refuted.

(** ** Non-vacuity *)

Definition ex_sch : schema :=
  [("cost", mkT ["src"; "dst"] ["c"; "n"]); ("log", mkT [] ["msg"])].

(** c: a non-negative number; log.msg: one of two strings. *)
Definition ex_tys : types :=
  [("cost", [("c", mkDtype true true false (of_int 0) PInf false (SList []) false false)]);
   ("log", [("msg", mkDtype false true true (of_int 0) PInf false (SList ["ok"; "bad"]) false false)])].

Definition ex_dat : dat := fun t =>
  if String.eqb t "cost" then
    Keyed [([VStr "a"; VStr "b"], [VNum (of_int (-1)); VNone]);
           ([VStr "a"; VNone],    [VNum (of_int 4); VStr "x"])]
  else Listed [[VStr "ok"]; [VNum (of_int 3)]].

Ltac solve_ex := repeat first [ solve [auto] | split | progress intros
  | match goal with
    | H : In _ _ |- _ => simpl in H
    | H : _ \/ _ |- _ => destruct H
    | H : False |- _ => destruct H
    | H : (_, _) = (_, _) |- _ => injection H as; subst
    | H : ?x = _ |- _ => is_var x; subst x
    | H : _ = ?x |- _ => is_var x; subst x
    | |- NoDup _ => constructor; simpl
    | |- ~ _ => intro
    | |- _ <> _ => discriminate
    end | discriminate | reflexivity ].

Lemma ex_wf_schema : wf_schema ex_sch.
Proof.
  split; [solve_ex |]. intros t ts [E | [E | []]]; injection E as <- <-; unfold wf_tschema; simpl;
  solve_ex.
Qed.

Lemma ex_wf_types : wf_types ex_sch ex_tys.
Proof.
  split; [solve_ex |].
  intros t fs [E | [E | []]]; injection E as <- <-; (split; [solve_ex |]).
  - exists (mkT ["src"; "dst"] ["c"; "n"]). split; [simpl; auto |].
    intros f dt [E | []]. injection E as <- <-. simpl. auto.
  - exists (mkT [] ["msg"]). split; [simpl; auto |].
    intros f dt [E | []]. injection E as <- <-. simpl. auto.
Qed.

Lemma ex_wf_dat : wf_dat ex_sch ex_dat.
Proof.
  intros t ts [E | [E | []]]; injection E as <- <-; simpl.
  - split; [discriminate |]. split; [unfold distinct_keys; simpl; solve_ex |].
    intros k r [E | [E | []]]; injection E as <- <-; auto.
  - split; auto. intros r [E | [E | []]]; subst r; auto.
Qed.

(** Three failures: a negative cost, a null key, a bad message. *)
Example C03_ex :
  find_data_type_failures (fun _ => false) ex_sch ex_tys ex_dat PInf =
  Some [(("cost", "c"), ([VNum (of_int (-1))], [RPk [VStr "a"; VStr "b"]]));
        (("cost", "dst"), ([VNone], [RPk [VStr "a"; VNone]]));
        (("log", "msg"), ([VNum (of_int 3)], [RIdx 1]))].
Proof. reflexivity. Qed.

(** max_failures = 1.5 stops after two. *)
Example C04_ex :
  let mx := Fin (one_units + one_units / 2)%Z in
  num_ltb (of_int 0) mx = true /\ num_leb mx (of_int 2) = true /\ num_leb mx (of_int 1) = false /\
  option_map listed_cells
    (find_data_type_failures (fun _ => false) ex_sch ex_tys ex_dat mx) = Some 2.
Proof. vm_compute. auto. Qed.

(** The default replacement for log.msg (0) is invalid, so the call fails ... *)
Example C06_ex : raised (replace_data_type_failures (fun _ => false) ex_sch ex_tys [] ex_dat []) = true.
Proof. reflexivity. Qed.

(** ... until a usable replacement is given; key cells are left alone. *)
Example C05_ex :
  let o := replace_data_type_failures (fun _ => false) ex_sch ex_tys [] ex_dat [(("log", "msg"), VStr "bad")] in
  raised o = false /\
  out_dat o "cost" =
    Keyed [([VStr "a"; VStr "b"], [VNum (of_int 0); VNone]);
           ([VStr "a"; VNone],    [VNum (of_int 4); VStr "x"])] /\
  out_dat o "log" = Listed [[VStr "ok"]; [VStr "bad"]].
Proof. vm_compute. auto. Qed.
