(** * Property theorems: C16 - C18 (foreign key graphs). *)
From Coq Require Import Bool List String Arith Permutation.
From Verif Require Import PyVal PyDict Data FindTypesFacts FK FKFacts WfCheck Graph GraphFacts.
Import ListNotations.
Local Open Scope string_scope.

(** C16: the warning is given exactly when the new key closes a circle. *)
Theorem C16_circle_warning_exact : forall fks tables native foreign n,
  fks_within fks tables -> In foreign tables -> List.length tables < n ->
  exists b, completes_circle n fks native foreign = Some b /\
    (b = true <-> reaches fks foreign native).
Proof. exact circle_exact. Qed.
Print Assumptions C16_circle_warning_exact.

(** C17: every table once; parents first unless the key lies on a circle. *)
Theorem C17_postgres_order : forall fks tables n,
  NoDup tables -> fks_within fks tables -> List.length tables < n ->
  exists rtn, pg_order n fks tables = Some rtn /\ Permutation rtn tables /\
    forall t u, In t tables -> edge fks t u -> ~ reaches fks u t -> before rtn u t.
Proof. exact pg_order_correct. Qed.
Print Assumptions C17_postgres_order.

(** C18: false; every schema with a circular key (a self reference is enough)
    sends the traversal into unbounded recursion, all others are ordered. *)
Theorem C18_sqlite_order_terminates_refuted : exists sch f,
  wf_schema sch /\ wf_fk sch f /\ forall n, sq_order n [f] (map fst sch) = None.
Proof. exact sq_self_reference. Qed.
Print Assumptions C18_sqlite_order_terminates_refuted.

Theorem C18_sqlite_order_never_terminates_on_circles : forall fks tables,
  (forall f, In f fks -> In (fk_native f) tables) -> ~ acyclic fks ->
  forall n, sq_order n fks tables = None.
Proof. exact sq_order_cyclic. Qed.
Print Assumptions C18_sqlite_order_never_terminates_on_circles.

Theorem C18_sqlite_order_acyclic : forall fks tables n, acyclic fks ->
  NoDup tables -> fks_within fks tables -> List.length tables < n ->
  exists rtn, sq_order n fks tables = Some rtn /\ Permutation rtn tables /\
    forall t u, In t tables -> edge fks t u -> before rtn u t.
Proof. exact sq_order_acyclic. Qed.
Print Assumptions C18_sqlite_order_acyclic.

(** ** Non-vacuity *)

(** a -> b -> c -> b, d -> a *)
Definition gr_fks : list fk :=
  [mkFk "a" "b" []; mkFk "b" "c" []; mkFk "c" "b" []; mkFk "d" "a" []].

Example C16_ex : fks_within gr_fks ["d"; "a"; "b"; "c"] /\
  completes_circle 5 gr_fks "d" "c" = Some false /\
  completes_circle 5 gr_fks "b" "d" = Some true /\
  completes_circle 5 gr_fks "a" "a" = Some true.
Proof.
  split; [| auto]. intros f [<- | [<- | [<- | [<- | []]]]]; simpl; auto.
Qed.

(** The circle b, c is cut somewhere; a and d come after it. *)
Example C17_ex : pg_order 5 gr_fks ["d"; "a"; "b"; "c"] = Some ["c"; "b"; "a"; "d"].
Proof. reflexivity. Qed.

Example C18_ex :
  sq_order 5 [mkFk "a" "b" []; mkFk "b" "c" []; mkFk "d" "a" []] ["d"; "a"; "b"; "c"]
    = Some ["c"; "b"; "a"; "d"] /\
  sq_order 50 gr_fks ["d"; "a"; "b"; "c"] = None.
Proof. auto. Qed.

Example C18_acyclic_ex : acyclic [mkFk "a" "b" []; mkFk "b" "c" []].
Proof.
  assert (forall t u, edge [mkFk "a" "b" []; mkFk "b" "c" []] t u -> (t = "a" /\ u = "b") \/ (t = "b" /\ u = "c")) as He.
  { intros t u (f & [<- | [<- | []]] & <- & <-); auto. }
  assert (forall t u, reaches [mkFk "a" "b" []; mkFk "b" "c" []] t u ->
            t = u \/ t = "a" \/ (t = "b" /\ u = "c")) as Hr.
  { intros t u H. induction H as [| t w u H1 H2 IH]; auto.
    destruct (He _ _ H1) as [[-> ->] | [-> ->]]; auto.
    destruct IH as [<- | [H | [H _]]]; auto; discriminate. }
  intros t u H1 H2. destruct (He _ _ H1) as [[-> ->] | [-> ->]]; destruct (Hr _ _ H2) as [H | [H | [_ H]]];
    discriminate.
Qed.
