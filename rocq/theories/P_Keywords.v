(** * C51 Reserved-keyword renaming is reversible *)
From Coq Require Import ZArith Bool List String Ascii Arith Lia.
From Verif Require Import PyVal PyDict PyStr TypeDict Data FK Factory FactoryFacts FactoryWitness Keywords KeywordsFacts.
Import ListNotations.
Local Open Scope string_scope.
Local Open Scope list_scope.

(** The renaming is accepted exactly when every table has declared fields and
    no field starts with an underscore. *)
Theorem C51_accepted : forall parses f kw, reachable parses f ->
  ((exists g, change_fields parses f kw false = Some g) <->
   (forall t d, In (t, d) (f_decl f) -> exists ts, d = Fields ts /\
      forall x, In x (tpk ts ++ tdf ts) -> forall x', x <> String "_" x')).
Proof. exact change_accepted. Qed.
Print Assumptions C51_accepted.

(** What it produces: the same tables with fields in the same places, each
    keyword (up to case) with one underscore in front and every other field
    as it was; defaults and data types follow their fields. *)
Theorem C51_renamed : forall parses f kw g, reachable parses f -> change_fields parses f kw false = Some g ->
  map fst (f_decl g) = map fst (f_decl f) /\
  forall t ts, decl_of (f_decl f) t = Some (Fields ts) ->
  exists ts', decl_of (f_decl g) t = Some (Fields ts') /\
    List.length (tpk ts') = List.length (tpk ts) /\ List.length (tdf ts') = List.length (tdf ts) /\
    forall i x, nth_error (tpk ts ++ tdf ts) i = Some x ->
    exists y, nth_error (tpk ts' ++ tdf ts') i = Some y /\
      (In (lower x) kw -> y = String "_" x) /\ (~ In (lower x) kw -> y = x) /\
      shown_default g t y = shown_default f t x /\ shown_type g t y = shown_type f t x.
Proof. exact change_renamed. Qed.
Print Assumptions C51_renamed.

(** No two fields of a table collide afterwards, not even up to case. *)
Theorem C51_no_collision : forall parses f kw g t ts, reachable parses f ->
  change_fields parses f kw false = Some g -> decl_of (f_decl g) t = Some (Fields ts) ->
  NoDup (map lower (tpk ts ++ tdf ts)).
Proof. exact change_no_collision. Qed.
Print Assumptions C51_no_collision.

(** No keyword is left, provided no keyword is itself spelled with a leading
    underscore. *)
Theorem C51_no_keyword_left : forall parses f kw g t ts x, reachable parses f ->
  change_fields parses f kw false = Some g -> decl_of (f_decl g) t = Some (Fields ts) ->
  In x (tpk ts ++ tdf ts) -> In (lower x) kw -> exists k', In (String "_" k') kw.
Proof. exact change_no_keyword_left. Qed.
Print Assumptions C51_no_keyword_left.

(** Undoing, with whatever keyword set, gives back the original schema,
    defaults and data types. *)
Theorem C51_reversible : forall parses f kw kw' g, reachable parses f ->
  change_fields parses f kw false = Some g ->
  exists h, change_fields parses g kw' true = Some h /\ f_decl h = f_decl f /\
    (forall t x, shown_default h t x = shown_default f t x /\ shown_type h t x = shown_type f t x).
Proof. exact change_back. Qed.
Print Assumptions C51_reversible.

Definition kw_decl : list (string * tdecl) :=
  [("foods", Fields (mkT ["Name"; "Order"] ["cost"; "sum"])); ("orders", Fields (mkT [] ["ORDER"; "x_order"]))].
Definition kw_ops : list op :=
  [OSetDefault "foods" "sum" (VStr "n/a"); OSetType "foods" "Order" nonnull_args;
   OSetDefault "orders" "x_order" (VNum (of_int 3)); OSetType "foods" "cost" nonnull_args].

Example C51_ex : exists f g, build kw_decl kw_ops = Some f /\ reachable np f /\
  change_fields np f ["order"; "sum"; "max"] false = Some g /\
  f_decl g = [("foods", Fields (mkT ["Name"; "_Order"] ["cost"; "_sum"]));
              ("orders", Fields (mkT [] ["_ORDER"; "x_order"]))] /\
  shown_default g "foods" "_sum" = Some (VStr "n/a") /\ shown_type g "foods" "_Order" <> None /\
  shown_default g "foods" "sum" = None.
Proof.
  eexists. eexists. split; [reflexivity|]. split; [apply (build_reachable kw_decl kw_ops); reflexivity|].
  split; [reflexivity|]. split; [reflexivity|]. split; [reflexivity|]. split; [discriminate|]. reflexivity.
Qed.

Example C51_collision_ex : (* undoing what was not done may collide, and is then refused *)
  exists f, build [("t", Fields (mkT ["_a"] ["a"]))] [] = Some f /\
    change_fields np f [] true = None /\ change_fields np f ["a"] false = None.
Proof. eexists. split; [reflexivity|]. split; reflexivity. Qed.
