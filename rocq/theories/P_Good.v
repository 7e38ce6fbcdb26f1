(** * Property theorems: C87, C88 (good_tic_dat_object, good_tic_dat_table). *)
From Coq Require Import ZArith Bool List String Arith Lia.
From Verif Require Import PyVal PyDict Data FindTypes FK Obj ObjFacts ObjMore InfIO Good GoodFacts JsonWitness.
Import ListNotations.
Local Open Scope string_scope.
Local Open Scope list_scope.

(** ** C87 The check before solve functions *)

(** A table without key that is None is not reported but raises. *)
Theorem C87_refuted : exists sch x, good_object true sch x = Raise /\ sch = [("log", mkT [] ["What"])] /\ x "log" = AOther.
Proof. exists [("log", mkT [] ["What"])], (fun _ => AOther). split; [| split]; reflexivity. Qed.
Print Assumptions C87_refuted.

(** True exactly if every table is there with the documented shape ([strict_shape]):
    dicts with keys of the right length, lists, rows being dicts with exactly the data
    fields. *)
Theorem C87_exact : forall sch x,
  (exists w, good_object true sch x = Ret w /\ fst w = true) <->
  forall t ts, In (t, ts) sch -> exists inp, x t = ATable inp /\ strict_shape ts inp.
Proof.
  intros sch x. rewrite object_iff. split; intros H t ts Hin.
  - destruct (H t ts Hin) as (inp & v & E & G & Hv). exists inp. split; auto. rewrite E in G. destruct (table_strict t ts inp) as (v' & G' & Hiff).
    rewrite G in G'. injection G' as <-. now apply Hiff.
  - destruct (H t ts Hin) as (inp & E & G). destruct (table_strict t ts inp) as (v & G' & Hiff). exists inp, v. rewrite E. split; auto. split; auto. now apply Hiff.
Qed.
Print Assumptions C87_exact.

(** False comes with a message, True without; and exceptions come from tables
    without key that are no containers. *)
Theorem C87_messages : forall strict sch x w, good_object strict sch x = Ret w -> (fst w = false <-> snd w <> []).
Proof. exact object_told. Qed.
Print Assumptions C87_messages.

Theorem C87_raises : forall strict sch x, good_object strict sch x = Raise -> exists t ts, In (t, ts) sch /\ tpk ts = [] /\ x t = AOther.
Proof. exact object_raises. Qed.
Print Assumptions C87_raises.

(** What is accepted is an object of the model, with the keys and cells given. *)
Theorem C87_objects : forall sch dv x w, (forall t ts, In (t, ts) sch -> NoDup (tdf ts)) -> good_object true sch x = Ret w -> fst w = true ->
  forall t ts, In (t, ts) sch -> exists inp tb, x t = ATable inp /\ init_one dv t ts inp = Some tb /\ table_ok ts tb /\ holds dv t ts inp tb.
Proof.
  intros sch dv x w N H Hw t ts Hin. destruct (proj1 (C87_exact sch x) (ex_intro _ w (conj H Hw)) t ts Hin) as (inp & E & S).
  destruct (strict_builds dv t ts inp (N _ _ Hin) S) as (tb & A & B). eauto.
Qed.
Print Assumptions C87_objects.

Definition w87_sch : schema := [("items", mkT ["Name"; "Size"] ["Cost"; "Cap"]); ("log", mkT [] ["What"])].
Definition w87_good : string -> attr := fun t =>
  if String.eqb t "items" then ATable (TDict [(KTup [VStr "a"; int 1], RDict [("Cap", int 3); ("Cost", VNone)]); (KTup [VStr "b"; int 2], RDict [("Cost", int 1); ("Cap", int 1)])])
  else ATable (TRows [RDict [("What", VStr "x")]]).
Definition w87_bad : string -> attr := fun t =>
  if String.eqb t "items" then ATable (TDict [(KTup [VStr "a"; int 1], RDict [("Cap", int 3)])]) else AOther.
Example C87_ex : (forall t ts, In (t, ts) w87_sch -> exists inp, w87_good t = ATable inp /\ strict_shape ts inp) /\
  good_object true w87_sch w87_good = Ret (true, []) /\
  good_object true w87_sch w87_bad = Ret (false, ["items : Mismatched data field name keys."]) /\
  good_object false w87_sch w87_bad = Raise.
Proof.
  refine (conj _ (conj _ (conj _ _))); [| vm_compute; reflexivity | vm_compute; reflexivity | vm_compute; reflexivity].
  apply C87_exact. eexists. split; [vm_compute; reflexivity | reflexivity].
Qed.

(** ** C88 Tables that are accepted can be converted *)

(** Not a list of dicts that is given for a table with a one-field key and no data
    fields: only their sizes are looked at. *)
Theorem C88_refuted : exists dv t ts inp, good_table false t ts (ATable inp) = Ret (true, []) /\ init_one dv t ts inp = None /\
  ts = mkT ["Name"] [] /\ inp = TRows [RDict [("Nmae", VStr "a")]].
Proof.
  exists [], "items", (mkT ["Name"] []), (TRows [RDict [("Nmae", VStr "a")]]). split; [| split; [| split]]; reflexivity.
Qed.
Print Assumptions C88_refuted.

Theorem C88_converts : forall dv t ts inp v, NoDup (tdf ts) -> good_table false t ts (ATable inp) = Ret v -> fst v = true ->
  (forall p pk rows l, tpk ts = p :: pk -> inp = TRows rows -> ~ In (RDict l) rows) ->
  exists tb, init_one dv t ts inp = Some tb.
Proof. exact generous_builds. Qed.
Print Assumptions C88_converts.

(** Conversely, dicts and lists for tables without key that can be converted are
    accepted. *)
Theorem C88_accepts : forall dv t ts inp tb, NoDup (tdf ts) -> init_one dv t ts inp = Some tb ->
  (forall p pk rows, tpk ts = p :: pk -> inp <> TRows rows) -> good_table false t ts (ATable inp) = Ret (true, []).
Proof.
  intros dv t ts inp tb N E Hn. destruct (table_generous t ts inp) as (v & G & H). rewrite G. pose proof (table_told _ _ _ _ _ G) as T.
  assert (fst v = true) as Hv.
  { apply H. assert (good_input ts inp) as K by (apply (init_one_some dv t ts inp N); eauto). destruct (tpk ts) eqn:Ep; auto. destruct inp as [kx | rows]; auto.
    exfalso. eapply Hn; eauto. }
  destruct v as [b ms]. cbn [fst] in Hv. subst b. destruct ms; auto. unfold told in T. cbn [fst snd] in T. destruct T as [_ T]. discriminate T; discriminate.
Qed.
Print Assumptions C88_accepts.

Example C88_ex : good_table false "pairs" (mkT ["A"; "B"] []) (ATable (TRows [RSeq [int 1; int 2]; RSeq [VStr "x"; VNone]])) = Ret (true, []) /\
  init_one [] "pairs" (mkT ["A"; "B"] []) (TRows [RSeq [int 1; int 2]; RSeq [VStr "x"; VNone]]) =
    Some (OKeyed [(KTup [int 1; int 2], []); (KTup [VStr "x"; VNone], [])]) /\
  init_one [] "items" (mkT ["A"] ["B"; "C"]) (TDict [(KAtom (int 1), RDict [("C", int 3)])]) = Some (OKeyed [(KAtom (int 1), [int 0; int 3])]) /\
  good_table false "items" (mkT ["A"] ["B"; "C"]) (ATable (TDict [(KAtom (int 1), RDict [("C", int 3)])])) = Ret (true, []) /\
  good_table true "items" (mkT ["A"] ["B"; "C"]) (ATable (TDict [(KAtom (int 1), RDict [("C", int 3)])])) = Ret (false, ["Mismatched data field name keys."]).
Proof. refine (conj _ (conj _ (conj _ (conj _ _)))); vm_compute; reflexivity. Qed.
