(** * Property theorems: C07 - C15 and C62 (foreign keys). *)
From Coq Require Import ZArith Bool List String Arith Permutation.
From Verif Require Import PyVal PyValFacts PyDict Data FindTypes FindTypesFacts FK FKFacts RemoveFacts
  PanFKFacts ImpliedFacts WfCheck FKWitness.
Import ListNotations.
Local Open Scope string_scope.
Local Open Scope list_scope.

(** C07: the report lists exactly the rows without a parent, and their values. *)
Theorem C07_report_is_exactly_the_orphans : forall sch fks d rep,
  wf_schema sch -> wf_dat sch d -> NoDup fks ->
  (forall f, In f fks -> wf_fk sch f /\ distinct_foreign f) ->
  find_foreign_key_failures sch fks d PInf = Some rep ->
  (forall f rid, fk_reports_row rep f rid <-> In f fks /\ orphan sch d f rid) /\
  (forall f vals, fk_reports_value rep f vals ->
     exists rid k r, fk_reports_row rep f rid /\ row_in (d (fk_native f)) rid k r /\
                     native_cells sch f k r vals) /\
  (forall f rid k r vals, fk_reports_row rep f rid -> row_in (d (fk_native f)) rid k r ->
     native_cells sch f k r vals -> exists vals', fk_reports_value rep f vals' /\ key_pyeq vals' vals = true) /\
  (forall f vals rids, In (f, (vals, rids)) rep -> rids <> [] /\ vals <> []) /\
  NoDup (map fst rep).
Proof. exact find_fks_exact. Qed.
Print Assumptions C07_report_is_exactly_the_orphans.

(** C08: removal terminates with the largest consistent sub-dataset. *)
Theorem C08_removal_keeps_largest_consistent : forall sch fks d n,
  wf_schema sch -> wf_dat sch d -> good_fks sch fks -> total_rows sch d < n ->
  exists d', remove_fk_failures n sch fks true d = Some d' /\ largest_consistent sch fks d d'.
Proof. exact remove_correct. Qed.
Print Assumptions C08_removal_keeps_largest_consistent.

(** C09: without propagation exactly the reported rows are deleted. *)
Theorem C09_removal_without_propagation : forall sch fks d n,
  wf_schema sch -> wf_dat sch d -> good_fks sch fks -> 0 < n ->
  exists d', remove_fk_failures n sch fks false d = Some d' /\
    (forall t ts, In (t, ts) sch ->
       exists gone, d' t = drop_rows gone (d t) /\
         forall rid k r, row_in (d t) rid k r ->
           (gone rid = true <-> exists f, In f fks /\ fk_native f = t /\ orphan sch d f rid)) /\
    (forall t, ~ In t (map fst sch) -> d' t = d t).
Proof. exact remove_once. Qed.
Print Assumptions C09_removal_without_propagation.

(** C10: clean data is untouched; removing twice is removing once. *)
Theorem C10_clean_data_untouched : forall sch fks propagate d n,
  wf_schema sch -> wf_dat sch d -> good_fks sch fks -> consistent sch fks d -> 0 < n ->
  remove_fk_failures n sch fks propagate d = Some d.
Proof. exact remove_consistent. Qed.
Print Assumptions C10_clean_data_untouched.

Theorem C10_removal_idempotent : forall sch fks propagate d d' n m,
  wf_schema sch -> wf_dat sch d -> good_fks sch fks -> total_rows sch d < n -> 0 < m ->
  remove_fk_failures n sch fks true d = Some d' ->
  remove_fk_failures m sch fks propagate d' = Some d' /\
  find_foreign_key_failures sch fks d' PInf = Some [].
Proof. exact remove_twice. Qed.
Print Assumptions C10_removal_idempotent.

(** C11 is false: with two native fields mapped to one foreign field, a row
    without parent goes unreported.  Only the last native field counts. *)
Theorem C11_every_mapped_pair_refuted : exists sch f d rid,
  wf_schema sch /\ wf_fk sch f /\ wf_dat sch d /\ orphan sch d f rid /\
  find_foreign_key_failures sch [f] d PInf = Some [].
Proof. exact shared_foreign_missed. Qed.
Print Assumptions C11_every_mapped_pair_refuted.

Theorem C11_only_effective_pairs_enforced : forall sch fks d rep,
  wf_schema sch -> wf_dat sch d -> NoDup fks -> (forall f, In f fks -> wf_fk sch f) ->
  find_foreign_key_failures sch fks d PInf = Some rep ->
  forall f rid, fk_reports_row rep f rid <-> In f fks /\ orphan sch d (effective f) rid.
Proof. exact shared_foreign_exact. Qed.
Print Assumptions C11_only_effective_pairs_enforced.

(** C12: PanDat removal. *)
Theorem C12_pandat_removal_keeps_largest_consistent : forall sch fks d n,
  wf_schema sch -> wf_pdat sch d -> good_pan_fks sch fks -> ptotal sch d < n ->
  exists d', pan_remove n sch fks d = Some d' /\
    largest_consistent (pan_schema sch) fks (as_dat d) (as_dat d').
Proof. exact pan_remove_correct. Qed.
Print Assumptions C12_pandat_removal_keeps_largest_consistent.

Theorem C12_pandat_removal_order_independent : forall sch fks fks' d n m d1 d2,
  wf_schema sch -> wf_pdat sch d -> good_pan_fks sch fks -> Permutation fks fks' ->
  ptotal sch d < n -> ptotal sch d < m ->
  pan_remove n sch fks d = Some d1 -> pan_remove m sch fks' d = Some d2 ->
  forall t, In t (map fst sch) -> d1 t = d2 t.
Proof. exact pan_remove_order. Qed.
Print Assumptions C12_pandat_removal_order_independent.

(** C13: exact as long as no assignment overwrites a column that is read
    later; false in general. *)
Theorem C13_pandat_report_exact : forall sch fks d,
  wf_schema sch -> wf_pdat sch d -> good_pan_fks sch fks ->
  (forall f i, flagged (pan_find sch fks d) f i <->
     In f fks /\ orphan (pan_schema sch) (as_dat d) f (RIdx i)) /\
  (forall f flags, In (f, flags) (pan_find sch fks d) ->
     List.length flags = List.length (d (fk_native f)) /\ In true flags).
Proof. exact pan_find_exact. Qed.
Print Assumptions C13_pandat_report_exact.

Theorem C13_pandat_report_refuted : exists sch f d,
  wf_schema sch /\ wf_fk sch f /\ distinct_foreign f /\ wf_pdat sch d /\
  ~ orphan (pan_schema sch) (as_dat d) f (RIdx 0) /\ flagged (pan_find sch [f] d) f 0 /\
  orphan (pan_schema sch) (as_dat d) f (RIdx 1) /\ ~ flagged (pan_find sch [f] d) f 1.
Proof. exact pan_swapped. Qed.
Print Assumptions C13_pandat_report_refuted.

(** C14: true when every foreign table has a primary key, false otherwise. *)
Theorem C14_implied_keys_same_verdict : forall n sch fks fks' d, wf_schema sch -> wf_dat sch d ->
  good_fks sch fks -> keyed_parents sch fks -> add_implied n sch fks = Some fks' ->
  (find_foreign_key_failures sch fks' d PInf = Some [] <->
   find_foreign_key_failures sch fks d PInf = Some []).
Proof. exact implied_same_verdict. Qed.
Print Assumptions C14_implied_keys_same_verdict.

Theorem C14_implied_keys_same_removal : forall n m m' sch fks fks' d d1 d2, wf_schema sch -> wf_dat sch d ->
  good_fks sch fks -> keyed_parents sch fks -> add_implied n sch fks = Some fks' ->
  total_rows sch d < m -> total_rows sch d < m' ->
  remove_fk_failures m sch fks true d = Some d1 ->
  remove_fk_failures m' sch fks' true d = Some d2 ->
  forall t, In t (map fst sch) -> d1 t = d2 t.
Proof. exact implied_same_removal. Qed.
Print Assumptions C14_implied_keys_same_removal.

Theorem C14_implied_keys_terminate : forall sch fks n, wf_schema sch -> good_fks sch fks ->
  keyed_parents sch fks -> List.length (fks ++ universe sch) < n ->
  exists fks', add_implied n sch fks = Some fks'.
Proof. exact implied_terminates. Qed.
Print Assumptions C14_implied_keys_terminate.

Theorem C14_implied_keys_closed : forall n sch fks fks', add_implied n sch fks = Some fks' ->
  forall f1 f2, In f1 fks' -> In f2 fks' -> fk_native f2 = fk_foreign f1 ->
    simple_fk sch (derive f1 f2) = true -> In (derive f1 f2) fks'.
Proof. exact implied_closed. Qed.
Print Assumptions C14_implied_keys_closed.

Theorem C14_implied_keys_same_verdict_refuted : exists sch fks fks' d rep,
  wf_schema sch /\ good_fks sch fks /\ wf_dat sch d /\
  (exists n, add_implied n sch fks = Some fks') /\
  find_foreign_key_failures sch fks d PInf = Some [] /\
  find_foreign_key_failures sch fks' d PInf = Some rep /\ rep <> [].
Proof. exact implied_changes_verdict. Qed.
Print Assumptions C14_implied_keys_same_verdict_refuted.

(** C15: cardinality labels. *)
Theorem C15_to_one : forall sch d f nts fts k r rid1 k1 r1 rid2 k2 r2 rid,
  wf_schema sch -> wf_dat sch d -> wf_fk sch f -> foreign_one sch f = true ->
  In (fk_native f, nts) sch -> In (fk_foreign f, fts) sch ->
  row_in (d (fk_native f)) rid k r ->
  row_in (d (fk_foreign f)) rid1 k1 r1 -> row_in (d (fk_foreign f)) rid2 k2 r2 ->
  agree nts fts (fk_map f) k r k1 r1 -> agree nts fts (fk_map f) k r k2 r2 ->
  rid1 = rid2 /\ k1 = k2 /\ r1 = r2.
Proof. exact to_one. Qed.
Print Assumptions C15_to_one.

Theorem C15_one_to : forall sch d f nts rid1 k1 r1 rid2 k2 r2,
  wf_schema sch -> wf_dat sch d -> wf_fk sch f -> native_one sch f = true ->
  In (fk_native f, nts) sch ->
  row_in (d (fk_native f)) rid1 k1 r1 -> row_in (d (fk_native f)) rid2 k2 r2 ->
  same_native nts (fk_map f) k1 r1 k2 r2 ->
  rid1 = rid2 /\ k1 = k2 /\ r1 = r2.
Proof. exact one_to. Qed.
Print Assumptions C15_one_to.

(** C62: bounded foreign key reports. *)
Theorem C62_bounded_report : forall sch fks d mx n rep repm,
  wf_schema sch -> wf_dat sch d -> NoDup fks -> (forall f, In f fks -> wf_fk sch f) ->
  num_ltb (of_int 0) mx = true -> rounds_up mx n ->
  find_foreign_key_failures sch fks d PInf = Some rep ->
  find_foreign_key_failures sch fks d mx = Some repm ->
  fk_listed repm = Nat.min n (fk_listed rep) /\
  (forall f rid, fk_reports_row repm f rid -> fk_reports_row rep f rid) /\
  (forall f v, fk_reports_value repm f v ->
     exists v', fk_reports_value rep f v' /\ key_pyeq v' v = true).
Proof. exact find_fks_bounded_spec. Qed.
Print Assumptions C62_bounded_report.

(** The call is refused exactly for bounds that are not positive. *)
Theorem C62_refused : forall sch fks d mx,
  find_foreign_key_failures sch fks d mx = None <-> num_ltb (of_int 0) mx = false.
Proof. intros sch fks d mx. unfold find_foreign_key_failures. destruct (num_ltb (of_int 0) mx); split; intros H; try discriminate H; reflexivity. Qed.
Print Assumptions C62_refused.

Theorem C62_pandat_bounded_report : forall sch fks d mx n,
  num_ltb (of_int 0) mx = true -> rounds_up mx n ->
  flag_count (pan_find_bounded sch fks d mx 0) = Nat.min n (flag_count (pan_find sch fks d)) /\
  (forall f i, flagged (pan_find_bounded sch fks d mx 0) f i -> flagged (pan_find sch fks d) f i).
Proof. exact pan_find_bounded_spec. Qed.
Print Assumptions C62_pandat_bounded_report.

Theorem C62_pandat_unbounded_report : forall sch fks d c,
  pan_find_bounded sch fks d PInf c = pan_find sch fks d.
Proof. exact pan_find_unbounded. Qed.
Print Assumptions C62_pandat_unbounded_report.

(** ** Non-vacuity *)

(** Orders refer to customers, items (unkeyed) to orders. *)
Definition fx_sch : schema :=
  [("customer", mkT ["name"] ["city"]); ("order", mkT ["no"] ["cust"]); ("item", mkT [] ["ord"; "qty"])].
Definition fx_fks : list fk :=
  [mkFk "item" "order" [("ord", "no")]; mkFk "order" "customer" [("cust", "name")]].
Definition fx_dat : dat := fun t =>
  if String.eqb t "customer" then Keyed [([VStr "ann"], [VStr "oslo"])]
  else if String.eqb t "order" then
    Keyed [([VNum (of_int 1)], [VStr "ann"]); ([VNum (of_int 2)], [VStr "bob"])]
  else Listed [[VNum (of_int 2); VNone]; [VBool true; VNone]; [VNum (of_int 3); VNone]; [VNum (of_int 1); VNone]].
Definition fx_pdat : pdat := fun t =>
  if String.eqb t "customer" then [[VStr "ann"; VStr "oslo"]]
  else if String.eqb t "order" then [[VNum (of_int 1); VStr "ann"]; [VNum (of_int 2); VStr "bob"]]
  else [[VNum (of_int 2); VNone]; [VBool true; VNone]; [VNum (of_int 3); VNone]].

Example fx_hyps_ex : wf_schema fx_sch /\ wf_dat fx_sch fx_dat /\ good_fks fx_sch fx_fks /\
  keyed_parents fx_sch fx_fks /\ wf_pdat fx_sch fx_pdat /\ good_pan_fks fx_sch fx_fks.
Proof.
  split; [now apply wf_schema_ok |]. split; [now apply wf_dat_ok |]. split; [now apply good_fks_ok |].
  split; [now apply keyed_parents_ok |]. split; [now apply wf_pdat_ok | now apply good_pan_fks_ok].
Qed.

Example C07_ex : find_foreign_key_failures fx_sch fx_fks fx_dat PInf =
  Some [(mkFk "item" "order" [("ord", "no")], ([[VNum (of_int 3)]], [RIdx 2]));
        (mkFk "order" "customer" [("cust", "name")], ([[VStr "bob"]], [RPk [VNum (of_int 2)]]))].
Proof. reflexivity. Qed.

(** Deleting bob's order orphans the first item. *)
Example C08_ex : total_rows fx_sch fx_dat < 8 /\
  match remove_fk_failures 8 fx_sch fx_fks true fx_dat with
  | Some d => d "order" = Keyed [([VNum (of_int 1)], [VStr "ann"])] /\
              d "item" = Listed [[VBool true; VNone]; [VNum (of_int 1); VNone]]
  | None => False
  end.
Proof. split; [unfold total_rows; simpl; repeat constructor | vm_compute; auto]. Qed.

Example C09_ex :
  match remove_fk_failures 1 fx_sch fx_fks false fx_dat with
  | Some d => d "item" = Listed [[VNum (of_int 2); VNone]; [VBool true; VNone]; [VNum (of_int 1); VNone]]
  | None => False
  end.
Proof. vm_compute. auto. Qed.

Example C12_ex :
  match pan_remove 7 fx_sch fx_fks fx_pdat, pan_remove 7 fx_sch (rev fx_fks) fx_pdat with
  | Some d, Some d' => d "item" = [[VBool true; VNone]] /\ d' "item" = [[VBool true; VNone]]
  | _, _ => False
  end.
Proof. vm_compute. auto. Qed.

Example C13_ex : flagged (pan_find fx_sch fx_fks fx_pdat) (mkFk "item" "order" [("ord", "no")]) 2.
Proof. exists [false; false; true]. split; [now left | reflexivity]. Qed.

(** items -> customers does not follow (no pk chain); regions do follow. *)
Definition gx_sch : schema :=
  [("region", mkT ["r"] []); ("city", mkT ["r"; "c"] ["size"]); ("shop", mkT ["id"] ["reg"; "town"])].
Definition gx_fks : list fk :=
  [mkFk "shop" "city" [("reg", "r"); ("town", "c")]; mkFk "city" "region" [("r", "r")]].

Example C14_ex :
  wf_schema gx_sch /\ good_fks gx_sch gx_fks /\ keyed_parents gx_sch gx_fks /\
  add_implied 3 gx_sch gx_fks = Some (gx_fks ++ [mkFk "shop" "region" [("reg", "r")]]).
Proof.
  split; [now apply wf_schema_ok |]. split; [now apply good_fks_ok |].
  split; [now apply keyed_parents_ok | reflexivity].
Qed.

(** shop-to-city is many-to-one; a city-to-shop key on (r, c) would be one-to-many. *)
Example C15_ex : foreign_one gx_sch (mkFk "shop" "city" [("reg", "r"); ("town", "c")]) = true /\
  native_one gx_sch (mkFk "shop" "city" [("reg", "r"); ("town", "c")]) = false /\
  native_one gx_sch (mkFk "city" "shop" [("r", "reg"); ("c", "town")]) = true.
Proof. auto. Qed.

Example C62_ex :
  option_map fk_listed (find_foreign_key_failures fx_sch fx_fks fx_dat (of_int 1)) = Some 1 /\
  flag_count (pan_find_bounded fx_sch fx_fks fx_pdat (of_int 1) 0) = 1 /\
  flag_count (pan_find fx_sch fx_fks fx_pdat) = 2.
Proof. vm_compute. auto. Qed.

(** The removal result of [C08_ex] is clean and stays put. *)
Example C10_ex :
  match remove_fk_failures 8 fx_sch fx_fks true fx_dat with
  | Some d => find_foreign_key_failures fx_sch fx_fks d PInf = Some [] /\
              option_map (fun e => e "item") (remove_fk_failures 1 fx_sch fx_fks true d) = Some (d "item")
  | None => False
  end.
Proof. vm_compute. auto. Qed.

Example C11_ex : effective sh_fk = mkFk "trip" "city" [("to", "name")] /\
  find_foreign_key_failures sh_sch [sh_fk]
    (fun t => if String.eqb t "trip" then Keyed [([VNum (of_int 1)], [VStr "oslo"; VStr "atlantis"])]
              else sh_dat t) PInf
  = Some [(sh_fk, ([[VStr "oslo"; VStr "atlantis"]], [RPk [VNum (of_int 1)]]))].
Proof. auto. Qed.
